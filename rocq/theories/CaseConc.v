(** Samples for concurrent calls. *)
From stdpp Require Import strings list gmap.
From Coq Require Import ZArith.
From Verif Require Import GoStr Val Conv Instr Heap Schema Build Api World SpecPath Den Param Top SpecSchema SpecProj SpecRun Cases.
From Verif Require Import SpecArr ArrQ CaseArr Conc SpecConc ConcP.

(** take turns: [n] times the goroutines [js] *)
Definition turns (n : nat) (js : list nat) : list nat := List.concat (replicate n js).
(** the answers to calls on a new transformer for transform "t" under a schedule, if all return *)
Definition run_schedule (E : env) (ps : list (string * tree)) (cs : list call) (js : list nat) : option (list (res tree)) :=
  match new_transformer W0 "t" (Some ps) None st0 with
  | (s0, Ok i) => answers (schedule js s0 (pcall W0 E FJson i <$> cs)).2
  | _ => None
  end.
Lemma run_schedule_during E ps cs js rs : run_schedule E ps cs js = Some rs ->
  exists i s0 s qs, new_transformer W0 "t" (Some ps) None st0 = (s0, Ok i) /\ during W0 E FJson i s0 cs s qs /\ Forall2 returned qs rs.
Proof.
  intros H. apply (schedule_witness W0 E FJson "t" (Some ps) None cs js rs). unfold run_schedule in H.
  destruct (new_transformer W0 "t" (Some ps) None st0) as [s0 [i| |]]; done.
Qed.

(** {"name": string, default "?"; "o": {"n": number, `last` of one entry}; "tags": array of strings, from `$.labels`, default []} *)
Definition conc_props : list (string * tree) :=
  [("name", typed "string" [("default", jstr "?")]);
   ("o", obj_schema [("n", typed "number" [from_paths "last" ["$.years"]])] []);
   ("tags", arr_schema (typed "string" []) [from_paths "first" ["$.labels"]; ("default", TArr [])])].
Definition conc_env : env :=
  env_of [("one", TObj [("name", jstr "Ada"); ("years", jnum 36); ("labels", TArr [jstr "x"; jstr "y"])]); ("two", TObj [("years", jnum 7)])] [] true.
(** go through the instances of a schema *)
Ltac members Hin := repeat first [apply elem_of_cons in Hin as [[= -> ->]|Hin] | by apply elem_of_nil in Hin].
Ltac instances Hi :=
  let Hf := fresh "Hf" in let Hp := fresh "Hp" in let Hin := fresh "Hin" in let Hj := fresh "Hj" in
  inversion Hi as [|? ? ? ? ? ? ? Hf Hp Hin Hj|? ? ? ? ? Hf Hp Hj]; subst; clear Hi;
  [ | first [vm_compute in Hf; discriminate Hf | vm_compute in Hp; injection Hp as <-; members Hin; instances Hj]
    | first [vm_compute in Hf; discriminate Hf | vm_compute in Hp; injection Hp as <-; instances Hj]].
Definition lasts (r : tree) : bool :=
  match jlookup "transform" r ≫= jlookup "t" with
  | Some t => match dec_tis W0 t with Ok (MLast, _, from) => bool_decide (length from <= 1) | _ => true end
  | None => true
  end.
Lemma lasts_ok r : lasts r = true -> one_last W0 "t" r.
Proof. unfold lasts. intros H t delim from Ht Hd. rewrite Ht, Hd in H. by apply bool_decide_eq_true in H. Qed.
Lemma conc_apart : apart W0 "t" FJson (Some conc_props) None.
Proof.
  split; [intros σ r Hi|left; intros σ r Hi]; (destruct Hi as [k p σ r Hin Hi|i σ r Hi _]; [|done]; cbn [default] in Hin; unfold conc_props in Hin; members Hin; instances Hi).
  all: try (apply lasts_ok; vm_compute; reflexivity).
  all: first [left; eexists; reflexivity|right; reflexivity].
Qed.
Lemma sample_apart : apart W0 "t" FJson (Some sample_props) None.
Proof.
  split; [intros σ r Hi|left; intros σ r Hi]; (destruct Hi as [k p σ r Hin Hi|i σ r Hi _]; [|done]; cbn [default] in Hin; unfold sample_props in Hin; members Hin; instances Hi).
  all: try (apply lasts_ok; vm_compute; reflexivity).
  all: first [left; eexists; reflexivity|right; reflexivity].
Qed.
(** the schema of C67: arrays from elsewhere, two of them with a default *)
Lemma arr_apart : apart W0 "t" FJson (Some arr_props) None.
Proof.
  split; [intros σ r Hi|right; split; [exact (jshaped_ok W0 "t" _ _ arr_shaped)|split; [intros _ σ r nl Hi Ha|intros σ r Hi]]];
    (destruct Hi as [k p σ r Hin Hi|i σ r Hi _]; [|done]; cbn [default] in Hin; unfold arr_props in Hin; members Hin; instances Hi).
  all: try (apply lasts_ok; vm_compute; reflexivity).
  all: try (vm_compute in Ha; discriminate Ha).
  all: try (intros Hs; repeat (apply elem_of_cons in Hs as [Hs|Hs]; [discriminate Hs|]); by apply elem_of_nil in Hs).
  all: first [left; eexists; reflexivity|right; eexists [_]; reflexivity].
Qed.

(** an object whose default is an object *)
Definition shared_obj : list (string * tree) :=
  [("o", obj_schema [("x", typed "string" []); ("y", typed "string" [])] [("default", TObj [])])].
Definition shared_env : env := env_of [("one", TObj [("o", TObj [("x", jstr "1")])]); ("two", TObj [("o", TObj [("y", jstr "2")])])] [] true.
(** `last` with two entries *)
Definition last_two : list (string * tree) := [("a", typed "string" [from_paths "last" ["$.p"; "$.q"]])].
Definition last_env : env := env_of [("in", TObj [("p", jstr "1"); ("q", jstr "2")])] [] true.

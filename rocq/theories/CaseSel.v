(** A sample schema with transforms of objects, for JSON. *)
From stdpp Require Import strings list gmap.
From Coq Require Import ZArith.
From Verif Require Import GoStr Val Conv Instr Heap Schema Build Api World SpecPath Den Param Top SpecSchema SpecProj SpecRun SpecArr Cases CaseArr.
From Verif Require Import SpecSel Conc SpecConc CaseConc.

(** {"card": object from `$.person` with {"name": string from `$.person.first`, "age": number},
     "self": object from `@.self` with {"n": string},
     "title": string, "list": array of strings} *)
Definition sel_props : list (string * tree) :=
  [("card", obj_schema [("name", typed "string" [from_paths "first" ["$.person.first"]]); ("age", typed "number" [])] [from_paths "first" ["$.person"]]);
   ("self", obj_schema [("n", typed "string" [])] [from_paths "first" ["@.self"]]);
   ("title", typed "string" []); ("list", arr_schema (typed "string" []) [])].
Definition sel_sch : osch :=
  ORec None
    [("card", ORec (Some (Abs [Nm "person"]))
       [("name", OLeaf "string" (TS SNil) (reading_from (Abs [Nm "person"; Nm "first"]))); ("age", OLeaf "number" (TS SNil) None)]);
     ("self", ORec (Some (Rel [Nm "self"])) [("n", OLeaf "string" (TS SNil) None)]);
     ("title", OLeaf "string" (TS SNil) None); ("list", OLst text_sch)].
Definition sel_doc : tree :=
  TObj [("person", TObj [("first", jstr "Ada"); ("last", jstr "L"); ("age", jnum 7)]); ("card", TObj [("age", jnum 36); ("lost", jstr "?")]);
        ("self", TObj [("n", TS (SBool true)); ("extra", TArr [jstr "e"])]); ("title", jstr "T"); ("list", TArr [jstr "p"])].
(** nothing to select; an array and a string in the place of the object *)
Definition sel_env : env :=
  env_of [("one", sel_doc); ("two", TObj [("person", TS SNil); ("card", TObj [("age", jnum 1)])]);
          ("three", TObj [("person", TArr [TObj [("x", jstr "1")]])]); ("four", TObj [("person", jstr "Ada")])] [] true.
Definition sel_out : tree :=
  TObj [("card", TObj [("name", jstr "Ada"); ("age", jnum 36); ("first", jstr "Ada"); ("last", jstr "L")]);
        ("self", TObj [("n", jstr "true"); ("extra", TArr [jstr "e"])]); ("title", jstr "T"); ("list", TArr [jstr "p"])].

Lemma sel_shaped : oshaped W0 "t" sel_props sel_sch.
Proof.
  eexists. split; [reflexivity|]. split; [nodup|]. split; [by repeat constructor|].
  repeat apply oshape_cons; [| | | |constructor].
  - eapply (oshape_rec W0 "t" _ false); [done|done|done|done| |nodup|by repeat constructor|].
    { exists "". split; [one_source "$.person"|]. split; [done|]. repeat constructor. by eexists. }
    repeat apply oshape_cons; [| |constructor].
    + apply (oshape_leaf W0 "t" (typed "string" [from_paths "first" ["$.person.first"]]) "string" false "string" (reading_from (Abs [Nm "person"; Nm "first"]))); try done.
      one_source "$.person.first".
    + apply (oshape_leaf W0 "t" (typed "number" []) "number" false "number" None); done.
  - eapply (oshape_rec W0 "t" _ false); [done|done|done|done| |nodup|by repeat constructor|].
    { exists "". split; [one_source "@.self"|]. split; [done|]. repeat constructor. by eexists. }
    repeat apply oshape_cons; [|constructor]. apply (oshape_leaf W0 "t" (typed "string" []) "string" false "string" None); done.
  - apply (oshape_leaf W0 "t" (typed "string" []) "string" false "string" None); done.
  - eapply (oshape_lst W0 "t" _ false); [done|done|done|apply text_shape].
Qed.
Ltac elems := repeat match goal with
  | H : _ ∈ [] |- _ => by apply elem_of_nil in H
  | H : _ ∈ _ :: _ |- _ => apply elem_of_cons in H as [->|H]
  end.
Lemma sel_separated : separated sel_sch.
Proof.
  split.
  - intros [|[|]] [|[|]] w w' Hw Hw' Hne; cbn in Hw, Hw'; try done; injection Hw as <-; injection Hw' as <-; split; intros [r Hr]; done.
  - cbn. repeat match goal with |- _ /\ _ => split | |- True => exact I end; intros τ Hτ; cbn in Hτ; elems;
    (split; [intros w Hw|intros d Hd Ho]).
    all: elems; try (intros [r Hr]; done).
    all: destruct Ho; by left.
Qed.
Lemma sel_no_array : no_array sel_sch sel_doc.
Proof. intros w l Hw. cbn in Hw. elems; done. Qed.
Lemma sel_unmarshals : unmarshals sel_env.
Proof.
  intros raw doc. cbn. repeat (case_decide; [intros [= <-]|]); [| | | |done].
  all: cbn; repeat split; try done; try nodup; try apply NoDup_singleton; constructor.
Qed.
Lemma sel_apart : SpecConc.apart W0 "t" FJson (Some sel_props) None.
Proof.
  split; [intros σ r Hi|left; intros σ r Hi]; (destruct Hi as [k p σ r Hin Hi|i σ r Hi _]; [|done]; cbn [default] in Hin; unfold sel_props in Hin; members Hin; instances Hi).
  all: try (apply lasts_ok; vm_compute; reflexivity).
  all: first [left; eexists; reflexivity|right; reflexivity].
Qed.

(** The property c reads the member x of `$.b`, whose place is taken by the property x of a, an object from `$.b`. *)
Definition tangled : list (string * tree) :=
  [("a", obj_schema [("x", typed "string" [])] [from_paths "first" ["$.b"]]); ("c", typed "string" [from_paths "first" ["$.b.x"]])].
Definition tangled_env : env := env_of [("in", TObj [("a", TObj [("x", jstr "1")]); ("b", TObj [("x", jstr "0")])])] [] true.

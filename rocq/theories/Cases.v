(** Concrete schemas and documents for the examples beside the theorems and for the refutations. *)
From stdpp Require Import strings list gmap.
From Coq Require Import Ascii ZArith.
From Verif Require Import GoStr Val Conv Instr Heap Schema Build Api World SpecPath Den Param Top SpecSchema SpecProj SpecRun SpecTrans.

(** JSON *)
Definition jstr (s : string) : tree := TS (SStr s).
Definition jnum (z : Z) : tree := TS (SF (fl z)).
(** instances *)
Definition typed (ty : string) (more : list (string * tree)) : tree := TObj (("type", jstr ty) :: more).
Definition arr_schema (items : tree) (more : list (string * tree)) : tree := typed "array" (("items", items) :: more).
Definition obj_schema (ps : list (string * tree)) (more : list (string * tree)) : tree := typed "object" (("properties", TObj ps) :: more).
(** the section of transform "t" *)
Definition from_paths (method : string) (paths : list string) : string * tree :=
  ("transform", TObj [("t", TObj [("from", TArr ((fun p => TObj [("jsonPath", jstr p)]) <$> paths)); ("method", jstr method)])]).
Definition from_xpaths (paths : list string) : string * tree :=
  ("transform", TObj [("t", TObj [("from", TArr ((fun p => TObj [("xmlPath", jstr p)]) <$> paths))])]).

(** an environment with a JSON parser that knows the given texts *)
Definition env_of (docs : list (string * tree)) (xmls : list (string * nat)) (valid : bool) : env :=
  {| e_json raw := assoc raw docs;
     e_xml raw := (fun kv => snd kv) <$> head (filter (fun kv => fst kv = raw) xmls);
     e_valid _ := Some ([], valid) |}.
(** build a transformer for transform "t" and run calls of TransformNoValidation *)
Fixpoint run_docs (W : oracles) (E : env) (perm : nat -> nat -> list nat) (f : fmt) (i : itr) (raws : list string) (s : st) : list (res tree) :=
  match raws with
  | [] => []
  | raw :: raws' => let '(s', r) := transform_no_validation W E perm f i raw s in r :: run_docs W E perm f i raws' s'
  end.
Definition session (W : oracles) (E : env) (perm : nat -> nat -> list nat) (f : fmt)
    (props : option (list (string * tree))) (items : option tree) (raws : list string) : list (res tree) :=
  match new_transformer W "t" props items st0 with
  | (s, Ok i) => run_docs W E perm f i raws s
  | (_, Err) => [Err]
  | (_, Panic) => [Panic]
  end.

(** A sample: {"name": string, "tags": array of strings, "age": number from `@.years`} *)
Definition sample_props : list (string * tree) :=
  [("name", typed "string" []); ("tags", arr_schema (typed "string" []) []);
   ("age", typed "number" [from_paths "first" ["@.years"]])].
Definition sample_sch : sch :=
  Rec [("name", Leaf "string" (TS SNil) None); ("tags", Lst (Leaf "string" (TS SNil) None));
       ("age", Leaf "number" (TS SNil) (Some (MFirst, "", [(Rel [Nm "years"], [])])))].
Definition sample_doc : tree :=
  TObj [("name", jstr "Ada"); ("tags", TArr [jstr "x"; TS SNil; jstr "y"]); ("years", jnum 36); ("extra", TS (SBool true))].
Definition sample_env : env := env_of [("ada", sample_doc)] [("xml", 0%nat)] true.
(** the same without the transform *)
Definition plain_props : list (string * tree) :=
  [("name", typed "string" []); ("tags", arr_schema (typed "string" []) [])].
Definition plain_sch : sch :=
  Rec [("name", Leaf "string" (TS SNil) None); ("tags", Lst (Leaf "string" (TS SNil) None))].

Lemma W0_parametric : jpath_parametric W0.
Proof. intros A B R va vb Hv p a b Hab. constructor. Qed.
Lemma id_orders : orders id_perm.
Proof. intros t n. done. Qed.
Lemma rev_orders : orders rev_perm.
Proof. intros t n. unfold rev_perm. symmetry. apply Permutation_rev. Qed.
Lemma sample_unmarshals : unmarshals sample_env.
Proof.
  intros raw doc. cbn. case_decide; [|done]. intros [= <-]. cbn. split_and!; try done.
  refine (bool_decide_eq_true_1 (NoDup _) _). vm_compute. done.
Qed.
Lemma sample_shaped : shaped W0 "t" (Some sample_props) None sample_sch.
Proof.
  split; [|split].
  - refine (bool_decide_eq_true_1 (NoDup _) _). vm_compute. done.
  - by repeat constructor.
  - constructor; [|constructor; [|constructor; [|constructor]]].
    + apply (shape_leaf W0 "t" (typed "string" []) "string" false "string" None); done.
    + eapply (shape_lst W0 "t" _ false); try done. apply (shape_leaf W0 "t" (typed "string" []) "string" false "string" None); done.
    + apply (shape_leaf W0 "t" (typed "number" [from_paths "first" ["@.years"]]) "number" false "number" (Some (MFirst, "", [(Rel [Nm "years"], [])]))); try done.
      eexists _, [Instr "@.years" "" []]. split; [reflexivity|]. split; [done|]. split; [vm_compute; reflexivity|].
      split; [|done]. constructor; [|constructor]. split; [done|]. split; [done|]. cbn. split; [done|]. by repeat constructor.
Qed.
Lemma plain_shaped : shaped W0 "t" (Some plain_props) None plain_sch.
Proof.
  split; [|split].
  - refine (bool_decide_eq_true_1 (NoDup _) _). vm_compute. done.
  - by repeat constructor.
  - constructor; [|constructor; [|constructor]].
    + apply (shape_leaf W0 "t" (typed "string" []) "string" false "string" None); done.
    + eapply (shape_lst W0 "t" _ false); try done. apply (shape_leaf W0 "t" (typed "string" []) "string" false "string" None); done.
Qed.
(** the transformer of the sample and a state of it after a call *)
Lemma sample_state : exists i s, state W0 sample_env FJson "t" (Some sample_props) None i s.
Proof.
  destruct (new_transformer W0 "t" (Some sample_props) None st0) as [s [i| |]] eqn:H; [|vm_compute in H; discriminate H..].
  exists i. eexists. eapply (state_call _ _ _ _ _ _ _ s id_perm (Validated "ada")); [by constructor|apply id_orders].
Qed.
(** the JSON paths of the instructions of the node at [σ] *)
Definition read_paths (s : st) (i : itr) (σ : list seg) : list string :=
  match node_at i σ with
  | Some n => match node_ts n with
    | Some t => match froms s !! ti_id t with Some is => map i_jpath is | None => [] end
    | None => [] end
  | None => [] end.

(** A sample schema with array transforms and defaults, for JSON. *)
From stdpp Require Import strings list gmap.
From Coq Require Import ZArith.
From Verif Require Import GoStr Val Conv Instr Heap Schema Build Api World SpecPath Den SpecSchema SpecProj SpecRun SpecArr Cases.

(** {"meta": {"tags": array of strings from `$.labels` with default ["none"]},
     "authors": array from `@.writers` of {"n": string from `@.name`, "in": string from `$.name`},
     "links": array of strings with default ["x"], "name": string, "plain": array of strings} *)
Definition arr_props : list (string * tree) :=
  [("meta", obj_schema [("tags", arr_schema (typed "string" []) [from_paths "first" ["$.labels"]; ("default", TArr [jstr "none"])])] []);
   ("authors", arr_schema (obj_schema [("n", typed "string" [from_paths "first" ["@.name"]]); ("in", typed "string" [from_paths "first" ["$.name"]])] [])
                 [from_paths "first" ["@.writers"]]);
   ("links", arr_schema (typed "string" []) [("default", TArr [jstr "x"])]);
   ("name", typed "string" []); ("plain", arr_schema (typed "string" []) [])].
Definition reading_from (x : src) : option sec := Some (MFirst, "", [(x, [])]).
Definition text_sch : sch := Leaf "string" (TS SNil) None.
Definition author_sch : sch :=
  Rec [("n", Leaf "string" (TS SNil) (reading_from (Rel [Nm "name"]))); ("in", Leaf "string" (TS SNil) (reading_from (Abs [Nm "name"])))].
Definition arr_sch : jsch :=
  JRec [("meta", JRec [("tags", JLst (Some [jstr "none"]) (reading_from (Abs [Nm "labels"])) text_sch)]);
        ("authors", JLst None (reading_from (Rel [Nm "writers"])) author_sch);
        ("links", JLst (Some [jstr "x"]) None text_sch);
        ("name", JLeaf "string" (TS SNil) None); ("plain", JLst None None text_sch)].
Definition arr_doc : tree :=
  TObj [("labels", TArr [jstr "a"; jstr "b"]); ("writers", TArr [TObj [("name", jstr "Ada")]; TObj []]); ("name", jstr "T"); ("plain", TArr [jstr "p"])].
(** nothing to read, and an object in the place of an array *)
Definition arr_doc2 : tree := TObj [("links", TObj [("y", jstr "z")])].
(** a string where an object has to be made *)
Definition arr_doc3 : tree := TObj [("meta", jstr "s")].
Definition arr_env : env := env_of [("one", arr_doc); ("two", arr_doc2); ("three", arr_doc3)] [] true.
Definition arr_out : tree :=
  TObj [("meta", TObj [("tags", TArr [jstr "a"; jstr "b"])]);
        ("authors", TArr [TObj [("n", jstr "Ada"); ("in", jstr "T")]; TObj [("in", jstr "T")]]);
        ("links", TArr [jstr "x"]); ("name", jstr "T"); ("plain", TArr [jstr "p"])].

Ltac nodup := refine (bool_decide_eq_true_1 (NoDup _) _); vm_compute; done.
Ltac one_source p := eexists _, [Instr p "" []]; split; [reflexivity|]; split; [done|]; split; [vm_compute; reflexivity|];
  split; [|done]; constructor; [|constructor]; split; [done|]; split; [done|]; cbn; repeat split; try done; by repeat constructor.
Lemma text_shape : shape W0 "t" (typed "string" []) text_sch.
Proof. apply (shape_leaf W0 "t" (typed "string" []) "string" false "string" None); done. Qed.
Lemma arr_shaped : jshaped W0 "t" arr_props arr_sch.
Proof.
  eexists. split; [reflexivity|]. split; [nodup|]. split; [by repeat constructor|].
  repeat apply jshape_cons; [| | | | |constructor].
  - eapply (jshape_rec W0 "t" _ false); [done|done|done|done|apply NoDup_singleton|by repeat constructor|].
    apply jshape_cons; [|constructor]. eapply (jshape_lst W0 "t" _ false); [done|done|done|done|one_source "$.labels"|apply text_shape].
  - eapply (jshape_lst W0 "t" _ false); [done|done|done|done|one_source "@.writers"|].
    eapply (shape_rec W0 "t" _ false); [done|done|done|done|nodup|by repeat constructor|].
    apply shape_cons; [|apply shape_cons; [|constructor]].
    + apply (shape_leaf W0 "t" (typed "string" [from_paths "first" ["@.name"]]) "string" false "string" (reading_from (Rel [Nm "name"]))); try done. one_source "@.name".
    + apply (shape_leaf W0 "t" (typed "string" [from_paths "first" ["$.name"]]) "string" false "string" (reading_from (Abs [Nm "name"]))); try done. one_source "$.name".
  - eapply (jshape_lst W0 "t" _ false); [done|done|done|done|done|apply text_shape].
  - apply (jshape_leaf W0 "t" (typed "string" []) "string" false "string" None); done.
  - eapply (jshape_lst W0 "t" _ false); [done|done|done|done|done|apply text_shape].
Qed.
Ltac far := repeat match goal with
  | H : _ ∈ [] |- _ => by apply elem_of_nil in H
  | H : _ ∈ _ :: _ |- _ => apply elem_of_cons in H as [->|H]
  end; try left; split; intros [r Hr]; done.
Lemma arr_separate : separate (stores arr_sch []) arr_sch [] [].
Proof. cbn; repeat match goal with |- _ /\ _ => split | |- True => exact I end; intros τ w Hτ Hw; far. Qed.
Lemma arr_unmarshals : unmarshals arr_env.
Proof.
  intros raw doc. cbn. repeat (case_decide; [intros [= <-]|]); [| | |done].
  all: cbn; repeat split; try done; try nodup; try apply NoDup_singleton; constructor.
Qed.
Lemma arr_state : exists i s, state W0 arr_env FJson "t" (Some arr_props) None i s.
Proof.
  destruct (new_transformer W0 "t" (Some arr_props) None st0) as [s [i| |]] eqn:H; [|vm_compute in H; discriminate H..].
  exists i. eexists. eapply (state_call _ _ _ _ _ _ _ s id_perm (Validated "one")); [by constructor|apply id_orders].
Qed.
Lemma arr_sized : small arr_doc /\ sized W0 arr_doc arr_sch (Some arr_doc) (Some arr_doc).
Proof.
  split; [by vm_compute|]. cbn [sized arr_sch]. repeat match goal with |- _ /\ _ => split | |- True => exact I end;
  intros l H; vm_compute in H; try done; injection H as <-; by vm_compute.
Qed.

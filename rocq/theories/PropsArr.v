(** The property of array transforms and defaults on JSON documents: C67. *)
From stdpp Require Import strings list gmap.
From Coq Require Import ZArith.
From Verif Require Import GoStr Val Conv Instr Heap Schema Build Api World SpecPath Den Param Top SpecSchema SpecProj SpecRun SpecArr Cases CaseArr.
From Verif Require Import ProjL RunL ArrQ.

(** C67. Arrays outside other arrays may have transforms and defaults. If no part of the schema reads what is stored
    for another part, the output for a JSON document is the document that [jproject] declares, whatever was
    transformed before and in whatever order maps are iterated; ... *)
Theorem C67_document W (HW : jpath_parametric W) E (HE : unmarshals E) tid ps sc i s perm raw doc :
  jshaped W tid ps sc -> separate (stores sc []) sc [] [] ->
  state W E FJson tid (Some ps) None i s -> orders perm ->
  e_json E raw = Some doc -> small doc -> sized W doc sc (Some doc) (Some doc) ->
  outcome W (jproject W doc sc [] (Some doc) (Some doc)) (transform_no_validation W E perm FJson i raw s).2.
Proof. exact (jshaped_transform W HW E HE tid ps sc i s perm raw doc). Qed.
Print Assumptions C67_document.
(** ... Transform and TransformNoValidation answer the same call in the same way at any two times, for arrays of any
    size. *)
Theorem C67_same_answer W (HW : jpath_parametric W) E (HE : unmarshals E) tid ps sc i s s' perm perm' c :
  jshaped W tid ps sc -> separate (stores sc []) sc [] [] ->
  state W E FJson tid (Some ps) None i s -> state W E FJson tid (Some ps) None i s' -> orders perm -> orders perm' ->
  same (serve W E perm FJson i c s).2 (serve W E perm' FJson i c s').2.
Proof. intros H1 H2 H3 H4 H5 H6. exact (jshaped_steady W HW E HE tid ps sc i s perm perm' c s' H1 H2 H3 H4 H5 H6). Qed.
Print Assumptions C67_same_answer.

Example C67_case : jshaped W0 "t" arr_props arr_sch /\ separate (stores arr_sch []) arr_sch [] [] /\ unmarshals arr_env /\
  (exists i s, state W0 arr_env FJson "t" (Some arr_props) None i s) /\
  small arr_doc /\ sized W0 arr_doc arr_sch (Some arr_doc) (Some arr_doc) /\
  stores arr_sch [] = [["meta"; "tags"]; ["authors"]; ["links"]] /\
  jproject W0 arr_doc arr_sch [] (Some arr_doc) (Some arr_doc) = Some arr_out.
Proof.
  split; [apply arr_shaped|]. split; [apply arr_separate|]. split; [apply arr_unmarshals|]. split; [apply arr_state|].
  split; [apply arr_sized|]. split; [apply arr_sized|]. split; vm_compute; reflexivity.
Qed.
Example C67_run : session W0 arr_env rev_perm FJson (Some arr_props) None ["one"; "two"; "three"; "one"] =
  [Ok (canon arr_out); Ok (TObj [("meta", TObj [("tags", TArr [jstr "none"])])]); Err; Ok (canon arr_out)].
Proof. vm_compute. reflexivity. Qed.
(** The hypothesis that the parts are separate is needed: see C17_deterministic_refuted, where a member reads the place
    of an array with a transform. *)
Example C67_entangled : ~ separate [["a"]] (JRec [("a", JLst None (reading_from (Abs [Nm "src"])) text_sch);
    ("b", JLeaf "string" (TS SNil) (reading_from (Abs [Nm "a"; Ix 0])))]) [] [].
Proof.
  intros (_ & H & _). destruct (H [Nm "a"; Ix 0] ["a"]) as [H1 _]; [by left|by left|]. apply H1. by exists [Ix 0].
Qed.

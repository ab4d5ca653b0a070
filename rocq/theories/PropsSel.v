(** The property of transforms of objects on JSON documents: C82. *)
From stdpp Require Import strings list gmap.
From Coq Require Import ZArith Lia.
From Verif Require Import GoStr Val Conv Instr Heap Schema Build Api World SpecPath Den Param Top SpecSchema SpecProj SpecRun SpecArr SpecSel Conc SpecConc Cases CaseArr CaseConc CaseSel.
From Verif Require Import ProjL RunL SelQ SelR.

(** C82. Objects outside arrays may have a transform that selects a place of the document by member names. If the selected
    places are apart and nothing that the schema reads contains a selected object or is part of a member of one that a
    property takes the place of, the output of a new Transformer for a JSON document with no array in the selected places is
    the document that [oproject] declares, in whatever order maps are iterated; ... *)
Theorem C82_document_partial W (HW : jpath_parametric W) E (HE : unmarshals E) tid ps sc i s perm raw doc : 0 < o_stack W ->
  oshaped W tid ps sc -> separated sc -> new_transformer W tid (Some ps) None st0 = (s, Ok i) -> orders perm ->
  e_json E raw = Some doc -> small doc -> no_array sc doc ->
  outcome W (oproject W doc sc (Some doc) (Some doc)) (transform_no_validation W E perm FJson i raw s).2.
Proof. exact (oshaped_new W HW E HE tid ps sc i s perm raw doc). Qed.
Print Assumptions C82_document_partial.
(** ... if besides the schema gives calls nothing to share that a call changes (as in C75), that is the answer at any time,
    whatever calls on whatever documents have been made or are being made at the same time, ... *)
Theorem C82_any_time_partial W (HW : jpath_parametric W) E (HE : unmarshals E) tid ps sc i s0 cs s qs j p r raw doc : 0 < o_stack W ->
  SpecConc.apart W tid FJson (Some ps) None -> oshaped W tid ps sc -> separated sc ->
  new_transformer W tid (Some ps) None st0 = (s0, Ok i) ->
  during W E FJson i s0 cs s qs -> qs !! j = Some p -> returned p r -> cs !! j = Some (Unvalidated raw) ->
  e_json E raw = Some doc -> small doc -> no_array sc doc ->
  outcome W (oproject W doc sc (Some doc) (Some doc)) r.
Proof. exact (oshaped_during W HW E HE tid ps sc i s0 cs s qs j p r raw doc). Qed.
Print Assumptions C82_any_time_partial.
(** ... and any two calls, validated or not, on the same text have the same answer. *)
Theorem C82_same_answer_partial W (HW : jpath_parametric W) E (HE : unmarshals E) tid ps sc i s0 cs s qs j j' p p' r r' c :
  SpecConc.apart W tid FJson (Some ps) None -> oshaped W tid ps sc -> separated sc ->
  new_transformer W tid (Some ps) None st0 = (s0, Ok i) ->
  during W E FJson i s0 cs s qs -> cs !! j = Some c -> cs !! j' = Some c ->
  qs !! j = Some p -> returned p r -> qs !! j' = Some p' -> returned p' r' ->
  (forall doc, e_json E (match c with Validated raw | Unvalidated raw => raw end) = Some doc -> no_array sc doc) ->
  SpecRun.same r r'.
Proof. exact (oshaped_steady W HW E HE tid ps sc i s0 cs s qs j j' p p' r r' c). Qed.
Print Assumptions C82_same_answer_partial.

Example C82_case : SpecConc.apart W0 "t" FJson (Some sel_props) None /\ oshaped W0 "t" sel_props sel_sch /\ separated sel_sch /\ unmarshals sel_env /\
  small sel_doc /\ no_array sel_sch sel_doc /\ 0 < o_stack W0 /\
  selections sel_sch [] [] = [["person"]; ["self"]] /\
  replaced sel_sch [] [] = [["person"; "name"]; ["person"; "age"]; ["self"; "n"]] /\
  oproject W0 sel_doc sel_sch (Some sel_doc) (Some sel_doc) = Some sel_out /\
  (exists i s0 s qs, new_transformer W0 "t" (Some sel_props) None st0 = (s0, Ok i) /\
     during W0 sel_env FJson i s0 [Unvalidated "one"; Validated "two"; Validated "one"] s qs /\
     Forall2 returned qs [Ok (canon sel_out); Ok (TObj [("card", TObj [("age", jnum 1)])]); Ok (canon sel_out)]).
Proof.
  split; [exact sel_apart|]. split; [exact sel_shaped|]. split; [exact sel_separated|]. split; [exact sel_unmarshals|].
  split; [by vm_compute|]. split; [exact sel_no_array|]. split; [vm_compute; lia|]. split; [reflexivity|]. split; [reflexivity|].
  split; [vm_compute; reflexivity|]. apply (run_schedule_during _ _ _ (turns 600 [0; 1; 2])). vm_compute. reflexivity.
Qed.
(** If an array is selected, its first item is taken; any other value than an object is an error. *)
Example C82_run : session W0 sel_env rev_perm FJson (Some sel_props) None ["one"; "two"; "three"; "four"; "one"] =
  [Ok (canon sel_out); Ok (TObj [("card", TObj [("age", jnum 1)])]); Ok (TObj [("card", TObj [("x", jstr "1")])]); Err; Ok (canon sel_out)].
Proof. vm_compute. reflexivity. Qed.

(** The output of an object with a transform is not confined to the properties of the schema. *)
Theorem C82_only_properties_refuted : exists kvs, 
  session W0 sel_env id_perm FJson (Some sel_props) None ["one"] = [Ok (TObj kvs)] /\
  exists card, ("card", TObj card) ∈ kvs /\ "last" ∈ card.*1 /\
  forall sc, sel_props = [("card", sc)] ++ tail sel_props -> jlookup "properties" sc ≫= jlookup "last" = None.
Proof.
  eexists. split; [vm_compute; reflexivity|]. eexists. split; [by repeat constructor|]. split; [by repeat constructor|].
  intros sc [= <-]. vm_compute. reflexivity.
Qed.
Print Assumptions C82_only_properties_refuted.
(** If a property reads a member that another property takes the place of, the output depends on the order in which maps
    are iterated. *)
Theorem C82_deterministic_refuted : exists r1 r2,
  session W0 tangled_env id_perm FJson (Some tangled) None ["in"] = [Ok r1] /\
  session W0 tangled_env rev_perm FJson (Some tangled) None ["in"] = [Ok r2] /\ r1 <> r2.
Proof. eexists _, _. split; [vm_compute; reflexivity|]. split; [vm_compute; reflexivity|]. discriminate. Qed.
Print Assumptions C82_deterministic_refuted.

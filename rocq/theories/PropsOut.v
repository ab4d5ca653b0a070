(** C86: what is returned can be written as JSON. *)
From stdpp Require Import strings list gmap.
From Coq Require Import ZArith Floats.SpecFloat.
From Verif Require Import GoStr Val Conv Instr Heap Schema Build Api World SpecPath Den Param Top SpecSchema SpecProj SpecRun SpecArr SpecXml SpecOut Cases.
From Verif Require Import RunL ArrQ XmlL OutL.

(** C86. Whatever a Transformer returns, at any time and for any schema and document, is a document in which every value can be
    written as JSON and no object has two members with the same name; ... *)
Theorem C86_returned W E perm f i c s t : (serve W E perm f i c s).2 = Ok t -> writable t /\ distinct_keys t.
Proof. exact (serve_out W E perm f i c s t). Qed.
Print Assumptions C86_returned.
(** ... and nothing else is refused when documents are written: the call returns the document that [project] (C16) or
    [jproject] (C67) declares if it can be written and is not too deep, and fails if not. *)
Theorem C86_exactly W (HW : jpath_parametric W) E (HE : unmarshals E) tid props items sc i s perm raw doc t :
  shaped W tid props items sc -> state W E FJson tid props items i s -> orders perm ->
  e_json E raw = Some doc -> small doc -> project W doc sc (Some doc) (Some doc) = Some t ->
  (writable t /\ depth t <= o_stack W -> (transform_no_validation W E perm FJson i raw s).2 = Ok (canon t)) /\
  (~ (writable t /\ depth t <= o_stack W) -> (transform_no_validation W E perm FJson i raw s).2 = Err).
Proof. intros H1 H2 H3 H4 H5 H6. pose proof (shaped_transform W HW E HE tid props items sc i s perm raw doc H1 H2 H3 H4 H5) as H. rewrite H6 in H. exact (outcome_out W t _ H). Qed.
Print Assumptions C86_exactly.
Theorem C86_exactly_arrays W (HW : jpath_parametric W) E (HE : unmarshals E) tid ps sc i s perm raw doc t :
  jshaped W tid ps sc -> separate (stores sc []) sc [] [] ->
  state W E FJson tid (Some ps) None i s -> orders perm ->
  e_json E raw = Some doc -> small doc -> sized W doc sc (Some doc) (Some doc) ->
  jproject W doc sc [] (Some doc) (Some doc) = Some t ->
  (writable t /\ depth t <= o_stack W -> (transform_no_validation W E perm FJson i raw s).2 = Ok (canon t)) /\
  (~ (writable t /\ depth t <= o_stack W) -> (transform_no_validation W E perm FJson i raw s).2 = Err).
Proof. intros H1 H2 H3 H4 H5 H6 H7 H8. pose proof (jshaped_transform W HW E HE tid ps sc i s perm raw doc H1 H2 H3 H4 H5 H6 H7) as H. rewrite H8 in H. exact (outcome_out W t _ H). Qed.
Print Assumptions C86_exactly_arrays.
(** the same for XML and [xproject] (C66) *)
Theorem C86_exactly_xml W (HW : jpath_parametric W) E (HE : unmarshals E) tid props items sc i s perm raw n t :
  xshaped W tid props items sc -> state W E FXml tid props items i s -> orders perm ->
  e_xml E raw = Some n -> xproject W sc n = Some t ->
  (writable t /\ depth t <= o_stack W -> (transform_no_validation W E perm FXml i raw s).2 = Ok (canon t)) /\
  (~ (writable t /\ depth t <= o_stack W) -> (transform_no_validation W E perm FXml i raw s).2 = Err).
Proof. intros H1 H2 H3 H4 H5. pose proof (xshaped_transform W HW E HE tid props items sc i s perm raw n H1 H2 H3 H4) as H. rewrite H5 in H. exact (outcome_out W t _ H). Qed.
Print Assumptions C86_exactly_xml.

(** a schema with a number, and two documents: "NaN" is a number for strconv.ParseFloat *)
Definition out_env : env := env_of [("good", TObj [("years", jstr "1.5")]); ("bad", TObj [("years", jstr "NaN")])] [] true.
Example C86_case : shaped W0 "t" (Some sample_props) None sample_sch /\
  project W0 (TObj [("years", jstr "NaN")]) sample_sch (Some (TObj [("years", jstr "NaN")])) (Some (TObj [("years", jstr "NaN")])) = Some (TObj [("age", TS (SF S754_nan))]) /\
  ~ writable (TObj [("age", TS (SF S754_nan))]) /\
  session W0 out_env id_perm FJson (Some sample_props) None ["good"; "bad"] = [Ok (TObj [("age", TS (SF (S754_finite false 3 (-1))))]); Err].
Proof.
  split; [apply sample_shaped|]. split; [vm_compute; reflexivity|]. split; [|vm_compute; reflexivity].
  intros H. inversion H as [| | | | | | | |l Hl]; subst. inversion Hl as [|x l' Hx _]; subst. inversion Hx as [| | | | |f Hf _| | |]; subst. by apply Hf.
Qed.
(** The year that matters is that on the time's own clock: 9999-12-31T23:30:00-01:00 can be written although it is in the year 10000 in UTC. *)
Example C86_year : writable (TS (STime (GTime 253402302600 0 (-3600)))) /\ ~ writable (TS (STime (GTime 253402302600 0 0))).
Proof.
  split; [apply (proj1 (tree_ok_iff _)); vm_compute; reflexivity|]. intros H. apply (proj2 (tree_ok_iff _)) in H. vm_compute in H. discriminate H.
Qed.

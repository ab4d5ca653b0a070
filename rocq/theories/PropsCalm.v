(** C23 for XML: transforms do not crash. *)
From stdpp Require Import strings list gmap.
From Coq Require Import ZArith.
From Verif Require Import GoStr Val Conv Instr Heap Schema Build Api World SpecPath Den Param Top SpecSchema SpecProj SpecRun SpecTrans SpecXml SpecCalm
  Cases CaseXml CaseCalm.
From Verif Require Import ProjL RunL XmlL CalmX.

(** C23. For a tame schema without the operation `max` and whose XPaths the XPath library compiles, Transform and
    TransformNoValidation of XML documents do not crash, whatever was transformed before. *)
Theorem C23_no_crash_xml_partial W (HW : jpath_parametric W) E (HE : unmarshals E) tid props items i s perm c : 0 < o_stack W ->
  well_named props items -> tame W tid FXml props items -> no_max W tid props items -> findable W tid props items ->
  state W E FXml tid props items i s -> orders perm ->
  (serve W E perm FXml i c s).2 <> Panic.
Proof. exact (serve_calm_x W HW E HE tid props items i s perm c). Qed.
Print Assumptions C23_no_crash_xml_partial.
(** the schema of C66, with transforms of a scalar, of arrays and of an object *)
Example C23_xml_case : 0 < o_stack W0 /\ well_named (Some xml_props) None /\ tame W0 "t" FXml (Some xml_props) None /\
  no_max W0 "t" (Some xml_props) None /\ findable W0 "t" (Some xml_props) None /\
  exists i s, state W0 sample_env FXml "t" (Some xml_props) None i s.
Proof.
  split; [apply (bool_decide_eq_true_1 (_ < _)); vm_compute; reflexivity|].
  destruct (xshaped_ok W0 "t" _ _ _ xml_shaped) as [H1 H2]. split; [done|]. split; [done|].
  split; [apply xml_no_max|]. split; [apply xml_findable|].
  destruct (new_transformer W0 "t" (Some xml_props) None st0) as [s [i| |]] eqn:H; [|vm_compute in H; discriminate H..].
  exists i, s. by constructor.
Qed.
(** An XPath that the library does not compile is accepted by NewXMLTransformer and crashes the first transform that
    reaches it. *)
Theorem C23_bad_xpath_refuted :
  session W0 sample_env id_perm FXml (Some [("x", typed "string" [from_xpaths ["("]])]) None ["xml"] = [Panic] /\
  session W0 sample_env id_perm FXml (Some [("x", typed "string" [from_xpaths ["//name"; "("]])]) None ["xml"] =
    [Ok (TObj [("x", jstr "hello")])].
Proof. split; vm_compute; reflexivity. Qed.
Print Assumptions C23_bad_xpath_refuted.

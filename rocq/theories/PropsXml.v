(** The property of XML transformers: C66. *)
From stdpp Require Import strings list gmap.
From Coq Require Import ZArith.
From Verif Require Import GoStr Val Conv Instr Heap Schema Build Api World SpecPath Den Param Top SpecSchema SpecProj SpecRun SpecXml Cases CaseXml.
From Verif Require Import ProjL RunL XmlL XmlS.

(** C66. For a schema whose objects have no defaults and whose `last` sections have at most one entry, the output
    for an XML document is the document that [xproject] declares for its root node, whatever was transformed before
    and in whatever order maps are iterated; ... *)
Theorem C66_document W (HW : jpath_parametric W) E (HE : unmarshals E) tid props items sc i s perm raw n :
  xshaped W tid props items sc -> state W E FXml tid props items i s -> orders perm -> e_xml E raw = Some n ->
  outcome W (xproject W sc n) (transform_no_validation W E perm FXml i raw s).2.
Proof. exact (xshaped_transform W HW E HE tid props items sc i s perm raw n). Qed.
Print Assumptions C66_document.
(** ... for a schema that is an array at the root this is always null: the document is not read. *)
Theorem C66_root_array W (HW : jpath_parametric W) E (HE : unmarshals E) tid it c i s perm raw n : 0 < o_stack W ->
  xshape W tid it c -> state W E FXml tid None (Some it) i s -> orders perm -> e_xml E raw = Some n ->
  (transform_no_validation W E perm FXml i raw s).2 = Ok (TS SNil).
Proof. exact (xroot_array W HW E HE tid it c i s perm raw n). Qed.
Print Assumptions C66_root_array.
(** Transform and TransformNoValidation answer the same call in the same way at any two times. *)
Theorem C66_same_answer W (HW : jpath_parametric W) E (HE : unmarshals E) tid props items sc i s s' perm perm' c :
  xshaped W tid props items sc -> state W E FXml tid props items i s -> state W E FXml tid props items i s' -> orders perm -> orders perm' ->
  same (serve W E perm FXml i c s).2 (serve W E perm' FXml i c s').2.
Proof. exact (xshaped_steady W HW E HE tid props items sc i s perm perm' c s'). Qed.
Print Assumptions C66_same_answer.

Example C66_case : xshaped W0 "t" (Some xml_props) None xml_sch /\ unmarshals sample_env /\
  (exists i s, state W0 sample_env FXml "t" (Some xml_props) None i s) /\ xproject W0 xml_sch 0 = Some xml_out.
Proof.
  split; [apply xml_shaped|]. split; [apply sample_unmarshals|]. split; [|vm_compute; reflexivity].
  destruct (new_transformer W0 "t" (Some xml_props) None st0) as [s [i| |]] eqn:H; [|vm_compute in H; discriminate H..].
  exists i, s. by constructor.
Qed.
Example C66_run : (canon <$> [xml_out]) = omap (fun r => match r with Ok t => Some t | _ => None end)
    (session W0 sample_env id_perm FXml (Some xml_props) None ["xml"]) /\
  session W0 sample_env id_perm FXml None (Some text_here) ["xml"] = [Ok (TS SNil)].
Proof. split; [vm_compute; reflexivity|vm_compute; reflexivity]. Qed.

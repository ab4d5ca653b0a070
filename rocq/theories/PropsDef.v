(** The property of schemas whose objects have defaults: C80. *)
From stdpp Require Import strings list gmap.
From Coq Require Import ZArith.
From Verif Require Import GoStr Val Conv Instr Heap Schema Build Api World SpecPath Den Param Top SpecSchema SpecProj SpecXml SpecRun SpecDef Cases CaseXml CaseDef.
From Verif Require Import DefT DefM.

(** C80. When objects outside arrays have defaults, the output for a JSON document is the one [dproject] declares for the
    schema with the defaults as the earlier documents left them, ... *)
Theorem C80_json W (HW : jpath_parametric W) E (HE : unmarshals E) tid props i sc s perm raw doc :
  dstate W E tid props i sc s -> orders perm -> e_json E raw = Some doc -> small doc ->
  outcome W (fst <$> dproject W doc sc (Some doc) (Some doc)) (transform_no_validation W E perm FJson i raw s).2.
Proof. exact (ddocument W HW E HE tid props i sc s perm raw doc). Qed.
Print Assumptions C80_json.
(** ... and likewise for XML. *)
Theorem C80_xml W (HW : jpath_parametric W) E (HE : unmarshals E) tid props i sc s perm raw n :
  xdstate W E tid props i sc s -> orders perm -> e_xml E raw = Some n ->
  outcome W (fst <$> xdproject W sc n) (transform_no_validation W E perm FXml i raw s).2.
Proof. exact (xddocument W HW E HE tid props i sc s perm raw n). Qed.
Print Assumptions C80_xml.
(** Each member of such an object is the value the document has for it, or else the one in the default. *)
Theorem C80_member W (HW : jpath_parametric W) E (HE : unmarshals E) tid props i sc s perm raw doc o ks d ms j :
  dstate W E tid props i sc s -> orders perm -> e_json E raw = Some doc -> small doc ->
  (transform_no_validation W E perm FJson i raw s).2 = Ok o -> dlook ks sc = Some (DDef d ms) ->
  locate (names (ks ++ [j])) o = canon <$> or_else (made W doc ms (locate (names ks) doc) j) (tmap d !! j).
Proof. exact (dmember W HW E HE tid props i sc s perm raw doc o ks d ms j). Qed.
Print Assumptions C80_member.
(** A document leaves its values in the default: a member that a later document does not have is the value of the earlier
    document, and only if that has none either the default of the schema. *)
Theorem C80_left W (HW : jpath_parametric W) E (HE : unmarshals E) tid props i sc s
    perm1 raw1 doc1 o1 perm2 raw2 doc2 o2 ks d ms j :
  dstate W E tid props i sc s ->
  orders perm1 -> e_json E raw1 = Some doc1 -> small doc1 -> orders perm2 -> e_json E raw2 = Some doc2 -> small doc2 ->
  (transform_no_validation W E perm1 FJson i raw1 s).2 = Ok o1 ->
  (transform_no_validation W E perm2 FJson i raw2 (transform_no_validation W E perm1 FJson i raw1 s).1).2 = Ok o2 ->
  dlook ks sc = Some (DDef d ms) ->
  locate (names (ks ++ [j])) o2 = canon <$> or_else (made W doc2 ms (locate (names ks) doc2) j)
    (or_else (made W doc1 ms (locate (names ks) doc1) j) (tmap d !! j)).
Proof. exact (dleft W HW E HE tid props i sc s perm1 raw1 doc1 o1 perm2 raw2 doc2 o2 ks d ms j). Qed.
Print Assumptions C80_left.

Example C80_case : dshaped W0 "t" def_props (def_sch [("site", jstr "s")]) /\ unmarshals def_env /\ small doc_ada /\ small doc_none /\
  dproject W0 doc_none (def_sch [("site", jstr "s")]) (Some doc_none) (Some doc_none) =
    Some (TObj [("title", jstr "t2"); ("meta", TObj [("by", TObj [("site", jstr "s")])])], def_sch [("site", jstr "s")]) /\
  dproject W0 doc_ada (def_sch [("site", jstr "s")]) (Some doc_ada) (Some doc_ada) =
    Some (TObj [("title", jstr "t1"); ("meta", TObj [("by", TObj [("name", jstr "ada"); ("site", jstr "s")])])],
          def_sch [("name", jstr "ada"); ("site", jstr "s")]) /\
  (exists i s, dstate W0 def_env "t" def_props i (def_sch [("name", jstr "ada"); ("site", jstr "s")]) s /\
     (transform_no_validation W0 def_env id_perm FJson i "none" s).2 =
     Ok (canon (TObj [("title", jstr "t2"); ("meta", TObj [("by", TObj [("name", jstr "ada"); ("site", jstr "s")])])]))) /\
  dlook ["meta"; "by"] (def_sch [("site", jstr "s")]) = Some (DDef [("site", jstr "s")] def_members) /\
  xdshaped W0 "t" xdef_props xdef_sch /\
  fst <$> xdproject W0 xdef_sch 0 =
    Some (TObj [("by", TObj [("name", jstr "one"); ("site", jstr "s")]); ("to", TObj [("site", jstr "r")])]).
Proof.
  split; [apply def_shaped|]. split; [apply def_unmarshals|]. split; [by cbn|]. split; [by cbn|].
  split; [vm_compute; reflexivity|]. split; [vm_compute; reflexivity|]. split.
  { destruct (new_transformer W0 "t" (Some def_props) None st0) as [s [i| |]] eqn:H; [|vm_compute in H; discriminate H..].
    exists i, (serve W0 def_env id_perm FJson i (Validated "ada") s).1. split.
    - eapply (dstate_doc _ _ _ _ _ (def_sch [("site", jstr "s")]) s id_perm (Validated "ada") doc_ada).
      + by constructor; [apply def_shaped|].
      + apply id_orders.
      + done.
      + by cbn.
      + vm_compute. reflexivity.
    - vm_compute in H. injection H as <- <-. vm_compute. reflexivity. }
  split; [vm_compute; reflexivity|]. split; [apply xdef_shaped|]. vm_compute. reflexivity.
Qed.

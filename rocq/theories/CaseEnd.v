(** A schema with a broken member. *)
From stdpp Require Import strings list gmap.
From Coq Require Import Ascii ZArith.
From Verif Require Import GoStr GoStrL Val Conv Schema Inst Load SpecPath SpecRef SpecDang SpecWhole RefL DangL WalkL Gen Files Gql Avro GoSrc Mapper Whole World Cases CaseGen CaseLoad CaseFiles CaseDang CaseWhole.

(** {"oneOf": [{"$ref": "good.json"}, {"$ref": "bad.json"}, {"$ref": "late.json"}]}; bad.json has a property that refers to nothing *)
Definition end_doc : tree := TObj [("oneOf", TArr [ref_to "good.json" []; ref_to "bad.json" []; ref_to "late.json" []])].
Definition end_bad : tree := TObj [("type", jstr "object"); ("properties", TObj [("p", ref_to "#/definitions/none" [])])].
Definition end_files : files :=
  files_in [("/s/root.json", end_doc); ("/s/good.json", text_field "id"); ("/s/bad.json", end_bad); ("/s/late.json", text_field "length")].
Definition end_args : args := Args false false false false no_names no_names.
Lemma bad_broken name fl : broken end_files name fl "/s/bad.json".
Proof.
  eapply (broken_ref _ _ _ _ end_bad ["properties"; "p"] "#/definitions/none").
  - by vm_compute.
  - apply distinctb_ok. by vm_compute.
  - eexists. split; [do 2 (eapply reach_member; [vm_compute; reflexivity|]); constructor|by vm_compute].
  - eapply (dangling_own _ _ _ _ _ _ ["definitions"; "none"]).
    + split; [by apply simple_ok|by left].
    + apply no_object_pget. intros o. vm_compute. done.
    + by apply not_below_ok.
Qed.
Lemma bad_member : member (exported W0) (fun _ => None) (inst_of end_doc) (in_s "root.json") "bad.json" "bad".
Proof.
  apply (member_one (exported W0) (fun _ => None) (inst_of end_doc) (in_s "root.json") "bad.json").
  apply (bool_decide_eq_true_1 _). vm_compute. reflexivity.
Qed.

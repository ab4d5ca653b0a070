(** When Walk and WalkRaw agree: C29. Vocabulary: SpecWalk.v, SpecDec.v. *)
From stdpp Require Import strings list gmap.
From Coq Require Import ZArith.
From Verif Require Import GoStr Val Schema Inst SpecPath SpecSchema SpecWalk SpecDec World Cases.
From Verif Require Import WalkL WalkC AgreeL DecL.

(** C29. In a schema in which every instance has one type, Walk succeeds exactly if WalkRaw does and every
    instance of the schema fits the Instance type; and when it succeeds it has visited the same paths as
    WalkRaw, each as often and with the decoded instance. So a member of the wrong kind is the only
    thing that makes the walks differ, and Walk never succeeds where WalkRaw fails. *)
Theorem C29_exactly ord props items l1 r1 l2 r2 : map_order ord -> named (default [] props) ->
  (forall σ r, sinst (default [] props) items σ r -> props_named r /\ exists ty nl, field_type r = Ok (ty, nl)) ->
  walk_raw_schema record (default [] props) items [] = (l1, r1) ->
  walk_schema record ord props items [] = (l2, r2) ->
  (r2 = Ok tt <-> r1 = Ok tt /\ forall σ r, sinst (default [] props) items σ r -> fits r) /\
  (r2 = Ok tt -> exists l3, l3 ≡ₚ l1 /\ Forall2 (fun a b => a.1 = b.1 /\ d_inst false a.2 = Ok b.2) l3 l2).
Proof. exact (walks_agree_fits ord props items l1 r1 l2 r2). Qed.
Print Assumptions C29_exactly.
(** Fitting is what decoding needs: every member that is read is null or of the kind its field holds. *)
Theorem C29_decodes addl t : (exists i, d_inst addl t = Ok i) <-> fits t.
Proof. exact (decodes_fits addl t). Qed.
Print Assumptions C29_decodes.
(** without the hypothesis that there is one type Walk can succeed where WalkRaw fails *)
Example C29_exactly_needs_one_type :
  named two_types /\ (walk_raw_schema record two_types None []).2 = Err /\
  (walk_schema record (fun _ l => l) (Some two_types) None []).2 = Ok tt.
Proof.
  split; [|vm_compute; done]. split.
  - refine (bool_decide_eq_true_1 (NoDup _) _). vm_compute. done.
  - by repeat constructor.
Qed.
(** a schema that meets the hypotheses, and on which both walks succeed *)
Example C29_exactly_case : let props := [("b", obj_schema [("c", arr_schema (typed "number" []) [])] [])] in
  named props /\
  (forall σ r, sinst props None σ r -> props_named r /\ exists ty nl, field_type r = Ok (ty, nl)) /\
  (walk_raw_schema record props None []).2 = Ok tt /\ (walk_schema record (fun _ l => l) (Some props) None []).2 = Ok tt.
Proof.
  cbv zeta. split.
  { split; [refine (bool_decide_eq_true_1 (NoDup _) _); vm_compute; done|by repeat constructor]. }
  split; [|vm_compute; done]. intros σ r Hi.
  assert (H : props_named r /\ (exists ty nl, field_type r = Ok (ty, nl)) /\ exists i, d_inst false r = Ok i); [|tauto].
  revert σ r Hi. apply all_sinst_ok. vm_compute. done.
Qed.
Example C29_decodes_case : fits (typed "string" [("oneOf", TArr [typed "number" []])]) /\
  ~ fits (typed "object" [("additionalProperties", typed "string" [])]).
Proof.
  split.
  - apply (decodes_fits false). vm_compute. by eexists.
  - intros [i H]%(decodes_fits false). vm_compute in H. discriminate H.
Qed.

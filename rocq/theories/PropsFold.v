(** C85: members of schemas that are not keywords. *)
From stdpp Require Import strings list gmap.
From Coq Require Import ZArith.
From Verif Require Import GoStr Val Conv Schema Inst Load Gen GoJson Fold SpecFold World Cases.
From Verif Require Import FoldL.

(** C85. A member of a schema whose name is not that of a keyword in any case changes nothing in what is decoded. *)
Theorem C85_ignored o_fold addl before after k v : foreign o_fold k ->
  g_inst o_fold addl (TObj (before ++ (k, v) :: after)) = g_inst o_fold addl (TObj (before ++ after)).
Proof. exact (foreign_skipped o_fold addl before after k v). Qed.
Print Assumptions C85_ignored.
Definition noted : list (string * tree) := [("type", jstr "object"); ("title", jstr "A title"); ("properties", TObj [("Type", typed "string" [])])].
Example C85_case : foreign id "title" /\ foreign id "x-note" /\ exact id (TObj noted) /\
  exists i, g_inst id false (TObj noted) = Ok i /\ n_props i = Some [("Type", typed "string" [])].
Proof.
  assert (Hf : forall k, forallb (fun n => negb (bool_decide (fold_name id n = fold_name id k))) keywords = true -> foreign id k).
  { intros k H n Hn. rewrite forallb_forall in H. specialize (H n). rewrite <- elem_of_list_In in H. specialize (H Hn).
    apply negb_true_iff in H. by apply bool_decide_eq_false_1 in H. }
  split; [apply Hf; vm_compute; reflexivity|]. split; [apply Hf; vm_compute; reflexivity|]. split; [|eexists; split; vm_compute; reflexivity].
  constructor.
  - apply (bool_decide_eq_true_1 (NoDup _)). vm_compute. reflexivity.
  - apply Forall_cons; split; [left; apply (bool_decide_eq_true_1 _); vm_compute; reflexivity|].
    apply Forall_cons; split; [right; apply Hf; vm_compute; reflexivity|].
    apply Forall_cons; split; [left; apply (bool_decide_eq_true_1 _); vm_compute; reflexivity|]. by apply Forall_nil.
  - intros k l x Hk Hin _. exfalso. unfold noted in Hin. repeat (apply elem_of_cons in Hin as [Hin|Hin]; [injection Hin as -> Hin; done|]). by apply elem_of_nil in Hin.
Qed.
(** If every other member has exactly the name of a keyword, the decoder that matches names regardless of case agrees with that of
    the other models, which compares names. *)
Theorem C85_exact o_fold t : exact o_fold t -> forall addl, g_inst o_fold addl t = d_inst addl t.
Proof. exact (exact_same o_fold t). Qed.
Print Assumptions C85_exact.
(** A name that differs from a keyword only in case is taken for it: ... *)
Theorem C85_variant o_fold addl before after k n v : n ∈ keywords -> fold_name o_fold k = fold_name o_fold n ->
  n <> "type" \/ (forall s, v <> TS (SStr s)) ->
  g_inst o_fold addl (TObj (before ++ (k, v) :: after)) = g_inst o_fold addl (TObj (before ++ (n, v) :: after)).
Proof. exact (variant_same o_fold addl before after k n v). Qed.
Print Assumptions C85_variant.
(** ... but a single type is only allowed under the name "type". *)
Theorem C85_variant_type o_fold addl before after k s i : k <> "type" -> fold_name o_fold k = fold_name o_fold "type" ->
  g_inst o_fold addl (TObj (before ++ (k, jstr s) :: after)) <> Ok i.
Proof. exact (variant_type o_fold addl before after k s i). Qed.
Print Assumptions C85_variant_type.
Example C85_variant_case : "description" ∈ keywords /\ fold_name id "Description" = fold_name id "description" /\
  "Type" <> "type" /\ fold_name id "Type" = fold_name id "type".
Proof. split_and!; [apply (bool_decide_eq_true_1 _)|..]; by vm_compute. Qed.
(** So members whose names are not keywords are not ignored in general: an annotation "Description" replaces the description, "Type" makes the
    schema invalid, and "Properties" beside "properties" adds to it, ... *)
Theorem C85_ignored_refuted : exists t t' t'',
  g_inst id false (TObj [("type", jstr "object"); ("description", jstr "a"); ("Description", jstr "b")]) = Ok t /\ n_desc t = "b" /\
  g_inst id false (TObj [("type", jstr "object"); ("Type", jstr "note")]) = Err /\
  g_inst id false (TObj [("type", jstr "object"); ("properties", TObj [("a", typed "string" [])]); ("Properties", TObj [("b", typed "string" [])])]) = Ok t' /\
  n_props t' = Some [("a", typed "string" []); ("b", typed "string" [])] /\
  g_inst id false (TObj [("Type", TArr [jstr "string"])]) = Ok t'' /\ n_type t'' = Some ["string"].
Proof. do 3 eexists. split_and!; vm_compute; reflexivity. Qed.
Print Assumptions C85_ignored_refuted.
(** ... while WalkRaw and the transformers, which look members up by their exact names, see no type at all in the last of these. *)
Theorem C85_agree_refuted : field_type (TObj [("Type", TArr [jstr "string"])]) = Err.
Proof. vm_compute. reflexivity. Qed.
Print Assumptions C85_agree_refuted.

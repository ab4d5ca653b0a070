(** C85 for transform sections: members whose names are not those of fields. *)
From stdpp Require Import strings list gmap.
From Coq Require Import ZArith.
From Verif Require Import GoStr Val Conv Instr Schema Build GoJson FoldT SpecFoldT World FoldTL.

(** C85. A member of a section, of an entry or of an operation whose name is none of the documented ones in any case changes nothing. *)
Theorem C85_section_ignored o_fold W before after k v :
  (foreign_to o_fold ["from"; "method"; "methodOptions"] k -> g_tis o_fold W (TObj (before ++ (k, v) :: after)) = g_tis o_fold W (TObj (before ++ after))) /\
  (foreign_to o_fold ["jsonPath"; "xmlPath"; "operations"] k -> g_instr o_fold W (TObj (before ++ (k, v) :: after)) = g_instr o_fold W (TObj (before ++ after))) /\
  (foreign_to o_fold ["type"; "args"] k -> g_op o_fold W (TObj (before ++ (k, v) :: after)) = g_op o_fold W (TObj (before ++ after))).
Proof. exact (conj (section_foreign o_fold W before after k v) (conj (entry_foreign o_fold W before after k v) (op_foreign o_fold W before after k v))). Qed.
Print Assumptions C85_section_ignored.
(** If all other members have exactly these names, the decoder agrees with that of the other models, which compares names. *)
Theorem C85_section_exact o_fold W t : exact_section o_fold t -> g_tis o_fold W t = dec_tis W t.
Proof. exact (section_same o_fold W t). Qed.
Print Assumptions C85_section_exact.
(** A name that differs from one of them only in case is taken for it. *)
Theorem C85_section_variant o_fold W before after k n v : fold_name o_fold k = fold_name o_fold n ->
  (n ∈ ["from"; "method"; "methodOptions"] -> g_tis o_fold W (TObj (before ++ (k, v) :: after)) = g_tis o_fold W (TObj (before ++ (n, v) :: after))) /\
  (n ∈ ["jsonPath"; "xmlPath"; "operations"] -> g_instr o_fold W (TObj (before ++ (k, v) :: after)) = g_instr o_fold W (TObj (before ++ (n, v) :: after))) /\
  (n ∈ ["type"; "args"] -> g_op o_fold W (TObj (before ++ (k, v) :: after)) = g_op o_fold W (TObj (before ++ (n, v) :: after))).
Proof.
  exact (fun Hk => conj (fun Hn => section_variant o_fold W before after k n v Hn Hk)
    (conj (fun Hn => entry_variant o_fold W before after k n v Hn Hk) (fun Hn => op_variant o_fold W before after k n v Hn Hk))).
Qed.
Print Assumptions C85_section_variant.

Definition annotated : list (string * tree) :=
  [("note", TArr []); ("from", TArr [TObj [("jsonPath", TS (SStr "@.a")); ("comment", TS (SStr "x")); ("operations", TArr [TObj [("type", TS (SStr "inverse"))]])]])].
Example C85_section_case : foreign_to id ["from"; "method"; "methodOptions"] "note" /\ exact_section id (TObj annotated) /\
  g_tis id W0 (TObj annotated) = Ok (MFirst, "", [Some (Instr "@.a" "" [OpInverse])]) /\
  fold_name id "From" = fold_name id "from" /\
  g_tis id W0 (TObj [("Method", TS (SStr "last")); ("From", TArr [TObj [("JSONPath", TS (SStr "@.a"))]])]) = Ok (MLast, "", [Some (Instr "@.a" "" [])]).
Proof.
  assert (Hf : forall names k, forallb (fun n => negb (bool_decide (fold_name id n = fold_name id k))) names = true -> foreign_to id names k).
  { intros names k H n Hn. rewrite forallb_forall in H. specialize (H n). rewrite <- elem_of_list_In in H. specialize (H Hn).
    apply negb_true_iff in H. by apply bool_decide_eq_false_1 in H. }
  assert (Hx : forall names kvs, bool_decide (NoDup kvs.*1) && forallb (fun kv : string * tree => bool_decide (kv.1 ∈ names) || forallb (fun n => negb (bool_decide (fold_name id n = fold_name id kv.1))) names) kvs = true ->
    exactly id names kvs).
  { intros names kvs [H1 H2]%andb_prop. split; [by apply (bool_decide_eq_true_1 _ H1)|]. apply Forall_forall. intros kv Hkv. rewrite forallb_forall in H2. apply elem_of_list_In in Hkv.
    specialize (H2 kv Hkv). apply orb_prop in H2 as [H2|H2]; [left; by apply bool_decide_eq_true_1 in H2|right; by apply Hf]. }
  split; [apply Hf; vm_compute; reflexivity|]. split; [|split_and!; vm_compute; reflexivity].
  intros kvs [= <-]. split; [apply Hx; vm_compute; reflexivity|]. split.
  - intros l Hl. unfold annotated in Hl. apply elem_of_cons in Hl as [Hl|Hl]; [done|]. apply elem_of_cons in Hl as [Hl|Hl]; [|by apply elem_of_nil in Hl]. injection Hl as ->.
    constructor; [|constructor]. intros kvs [= <-]. split; [apply Hx; vm_compute; reflexivity|]. intros l Hl.
    apply elem_of_cons in Hl as [Hl|Hl]; [done|]. apply elem_of_cons in Hl as [Hl|Hl]; [done|]. apply elem_of_cons in Hl as [Hl|Hl]; [|by apply elem_of_nil in Hl]. injection Hl as ->.
    constructor; [|constructor]. intros kvs [= <-]. apply Hx. vm_compute. reflexivity.
  - intros v Hv. unfold annotated in Hv. apply elem_of_cons in Hv as [Hv|Hv]; [done|]. apply elem_of_cons in Hv as [Hv|Hv]; [done|]. by apply elem_of_nil in Hv.
Qed.

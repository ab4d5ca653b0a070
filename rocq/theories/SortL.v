(** Sorting by name. *)
From stdpp Require Import strings list gmap sorting.
From Coq Require Import Ascii ZArith Lia.
From Verif Require Import GoStr GoStrL Val Schema Inst Load SpecGen Gen GenL.

Lemma str_le_refl a : str_le a a = true.
Proof. induction a as [|x a IH]; [done|]. cbn. by rewrite decide_True. Qed.
Lemma ascii_N_inj x y : N_of_ascii x = N_of_ascii y -> x = y.
Proof. intros H. rewrite <- (ascii_N_embedding x), <- (ascii_N_embedding y). by rewrite H. Qed.
Lemma str_le_antisym a b : str_le a b = true -> str_le b a = true -> a = b.
Proof.
  revert b. induction a as [|x a IH]; intros [|y b]; try done. cbn. destruct (decide (x = y)) as [->|N].
  - rewrite decide_True by done. intros H1 H2. f_equal. by apply IH.
  - rewrite decide_False by congruence. intros H1%N.ltb_lt H2%N.ltb_lt. lia.
Qed.
Lemma str_le_total a b : str_le a b = true \/ str_le b a = true.
Proof.
  revert b. induction a as [|x a IH]; intros [|y b]; [by left|by left|by right|]. cbn. destruct (decide (x = y)) as [->|N].
  - rewrite decide_True by done. apply IH.
  - rewrite decide_False by congruence. rewrite !N.ltb_lt.
    destruct (N.lt_trichotomy (N_of_ascii x) (N_of_ascii y)) as [?|[H%ascii_N_inj|?]]; [by left|done|by right].
Qed.
Lemma str_le_trans a b c : str_le a b = true -> str_le b c = true -> str_le a c = true.
Proof.
  revert b c. induction a as [|x a IH]; intros b c; [done|]. destruct b as [|y b]; [done|]. destruct c as [|z c]; [done|]. cbn.
  destruct (decide (x = y)) as [->|N].
  - destruct (decide (y = z)) as [->|N']; [apply IH|]. done.
  - destruct (decide (y = z)) as [->|N'].
    + rewrite decide_False by done. done.
    + rewrite !N.ltb_lt. intros H1 H2. destruct (decide (x = z)) as [->|N'']; [lia|]. apply N.ltb_lt. lia.
Qed.
Definition sle (a b : string) : Prop := str_le a b = true.
Lemma insert_perm s l : insert_sorted s l ≡ₚ s :: l.
Proof. induction l as [|x l IH]; [done|]. cbn. destruct (str_le s x); [done|]. rewrite IH. apply Permutation_swap. Qed.
Lemma sort_perm l : sort_strings l ≡ₚ l.
Proof. induction l as [|x l IH]; [done|]. cbn. rewrite insert_perm. by apply Permutation_skip. Qed.
Lemma insert_sorted_ok s l : StronglySorted sle l -> StronglySorted sle (insert_sorted s l).
Proof.
  induction 1 as [|x l Hs IH Hx]; [by repeat constructor|]. cbn. destruct (str_le s x) eqn:E.
  - constructor; [by constructor|]. constructor; [done|]. eapply Forall_impl; [done|]. intros y Hy. by eapply str_le_trans.
  - constructor; [done|]. rewrite insert_perm. constructor; [|done]. unfold sle. destruct (str_le_total s x); congruence.
Qed.
Lemma sort_ok l : StronglySorted sle (sort_strings l).
Proof. induction l as [|x l IH]; [constructor|]. cbn. by apply insert_sorted_ok. Qed.
Lemma sorted_unique l l' : StronglySorted sle l -> StronglySorted sle l' -> l ≡ₚ l' -> l = l'.
Proof.
  intros H. revert l'. induction H as [|x l Hs IH Hx]; intros l' H' Hp; [by apply Permutation_nil_l in Hp|].
  destruct H' as [|y l' Hs' Hy]; [symmetry in Hp; by apply Permutation_nil_l in Hp|].
  assert (x = y) as ->.
  { assert (Hin : x ∈ y :: l') by (rewrite <- Hp; left). assert (Hin' : y ∈ x :: l) by (rewrite Hp; left).
    apply elem_of_cons in Hin as [->|Hin]; [done|]. apply elem_of_cons in Hin' as [->|Hin']; [done|].
    apply str_le_antisym; [by apply (proj1 (Forall_forall _ _) Hx)|by apply (proj1 (Forall_forall _ _) Hy)]. }
  f_equal. apply IH; [done|]. by eapply Permutation_cons_inv.
Qed.
Lemma sort_eq l l' : l ≡ₚ l' -> sort_strings l = sort_strings l'.
Proof. intros H. apply sorted_unique; [apply sort_ok..|]. by rewrite !sort_perm. Qed.

(** [sorted] takes every field once *)
Lemma last_named_one {A} k (l : list (string * A)) acc : NoDup l.*1 -> last_named k l acc = match assocd k l with Some v => [v] | None => acc end.
Proof.
  revert acc. induction l as [|[k' v] l IH]; intros acc Hnd; [done|]. cbn in Hnd. apply NoDup_cons in Hnd as [Hk Hnd]. cbn. rewrite IH by done.
  destruct (decide (k' = k)) as [->|N]; [|done]. by apply assocd_none in Hk as ->.
Qed.
Lemma assocd_perm {A} k (l l' : list (string * A)) : NoDup l.*1 -> l ≡ₚ l' -> assocd k l = assocd k l'.
Proof.
  intros Hnd Hp. destruct (assocd k l) as [v|] eqn:E.
  - symmetry. apply assocd_in; [by rewrite <- Hp|]. rewrite <- Hp. by apply assocd_elem.
  - symmetry. apply assocd_none. apply assocd_none in E. by rewrite <- Hp.
Qed.
Lemma sorted_perm {A} (l l' : list (string * A)) : NoDup l.*1 -> l ≡ₚ l' -> sorted l = sorted l'.
Proof.
  intros Hnd Hp. unfold sorted. rewrite (sort_eq l.*1 l'.*1) by (by rewrite Hp). apply flat_map_ext. intros k.
  rewrite !last_named_one; [|by rewrite <- Hp|done]. by rewrite (assocd_perm k l l').
Qed.
Lemma iterate_perm {A} ks (l : list (string * A)) : NoDup l.*1 -> ks ≡ₚ l.*1 -> iterate ks l ≡ₚ l.*2.
Proof.
  intros Hnd Hp. unfold iterate. rewrite Hp. clear ks Hp.
  cut (forall l', (forall k v, (k, v) ∈ l' -> assocd k l = Some v) -> omap (fun k => assocd k l) l'.*1 = l'.*2).
  { intros H. rewrite H; [done|]. intros k v. by apply assocd_in. }
  induction l' as [|[k v] l' IH]; intros H; [done|]. cbn. rewrite (H k v) by left. f_equal. apply IH. intros k' v' Hin. apply H. by right.
Qed.

(** declarations *)
Lemma insert_decl_go d l : map d_go (insert_decl d l) = insert_sorted (d_go d) (map d_go l).
Proof. induction l as [|x l IH]; [done|]. cbn. destruct (str_le (d_go d) (d_go x)); [done|]. cbn. by f_equal. Qed.
Lemma by_name_go l : map d_go (by_name l) = sort_strings (map d_go l).
Proof. induction l as [|d l IH]; [done|]. cbn [by_name foldr]. fold (by_name l). rewrite insert_decl_go, IH. done. Qed.
Lemma insert_decl_perm d l : insert_decl d l ≡ₚ d :: l.
Proof. induction l as [|x l IH]; [done|]. cbn. destruct (str_le (d_go d) (d_go x)); [done|]. rewrite IH. apply Permutation_swap. Qed.
Lemma by_name_perm l : by_name l ≡ₚ l.
Proof. induction l as [|x l IH]; [done|]. cbn [by_name foldr]. fold (by_name l). rewrite insert_decl_perm. by apply Permutation_skip. Qed.
Lemma sorted_decls {A} (f : gdecl -> A) ds : NoDup (map d_go ds) -> sorted (map (fun d => (d_go d, f d)) ds) = map f (by_name ds).
Proof.
  intros Hnd. unfold sorted. assert (Hf : forall l, (map (fun d => (d_go d, f d)) l).*1 = map d_go l).
  { induction l as [|d l IH]; [done|]. cbn. by f_equal. }
  rewrite Hf, <- by_name_go.
  cut (forall l, (forall d, d ∈ l -> d ∈ ds) -> flat_map (fun k => last_named k (map (fun d => (d_go d, f d)) ds) []) (map d_go l) = map f l).
  { intros H. apply H. intros d. by rewrite by_name_perm. }
  induction l as [|d l IH]; intros H; [done|]. cbn. rewrite IH by (intros d' Hd'; apply H; by right).
  rewrite last_named_one by (by rewrite Hf). rewrite (assocd_in (d_go d) (f d)); [done|by rewrite Hf|].
  apply elem_of_list_fmap. exists d. split; [done|]. apply H. left.
Qed.

(** saveInTree on paths of member names, and on the items of a member (C15). *)
From stdpp Require Import strings list gmap.
From Coq Require Import Ascii ZArith.
From Verif Require Import GoStr GoStrL Val Conv Instr Heap SpecPath SpecSave PathL.

Section save.
Context (W : oracles).

Lemma hmap_eq h l m : h !! l = Some (CMap m) -> hmap h l = m.
Proof. unfold hmap. by intros ->. Qed.
Lemma at_visited h js k rest : forall l l0, at_names h l js = Some (VMap l0) -> l0 ∈ visited h l (js ++ k :: rest).
Proof.
  induction js as [|j js IH]; intros l l0; cbn.
  - intros [= ->]. constructor.
  - destruct (hmap h l !! j) as [[]|] eqn:Hj; try by destruct js.
    intros H. constructor. by apply IH.
Qed.
Lemma plain_split k : plain_name k -> split k "[" = [k].
Proof. intros (_ & H & _). apply (split_chr_free "["%char). rewrite free_of_str_in. unfold chr. by rewrite H. Qed.

Lemma save_splits_names ks v : vnil v = false -> Forall plain_name ks -> ks <> [] -> 
  forall b l s, (b = true -> Forall (fun k => k <> "$") (tail ks)) -> (b = false -> Forall (fun k => k <> "$") ks) ->
  tree_like s l ks ->
  forall r, save_splits W b l ks v s = r ->
  (blocked (hp s) l ks -> r.2 = Err /\ hp r.1 = hp s) /\
  (~ blocked (hp s) l ks -> r.2 = Ok tt /\ at_names (hp r.1) l ks = Some v /\ changed_along (hp s) (hp r.1) l ks).
Proof.
  intros Hv. induction ks as [|k ks IH]; intros Hp Hne b l s Hb1 Hb0 (Hnd & Hm & Hf) r Hr; [done|]. clear Hne.
  apply Forall_cons in Hp as [Hk Hks].
  destruct (Hm l ltac:(constructor)) as [m Hl]. pose proof (hmap_eq _ _ _ Hl) as Hml.
  cbn [save_splits] in Hr.
  assert (negb b && bool_decide (k = "$") = false) as Hb.
  { destruct b; [done|]. cbn. apply bool_decide_eq_false. specialize (Hb0 eq_refl). by inversion Hb0. }
  rewrite Hb in Hr. clear Hb.
  assert (Forall (fun k => k <> "$") ks) as Hd.
  { destruct b; [by apply Hb1|]. specialize (Hb0 eq_refl). by inversion Hb0. }
  destruct ks as [|k2 ks].
  { (* leaf *)
    unfold save_leaf in Hr. rewrite plain_split in Hr by done. subst r. unfold map_set, Heap.mbind, mheap, write. cbn -[hmap].
    split.
    { intros (js & k' & rest & l0 & w & He & Hr & _). destruct js as [|? []]; [|done..]. by injection He as _ <-. }
    intros _. split; [done|]. split.
    { unfold hmap at 1. rewrite lookup_insert, lookup_insert.
      by destruct v. }
    split.
    - intros l0 c Hc. destruct (decide (l0 = l)) as [->|n].
      + right. exists [], k, [], m, v. split_and!; [done|done|congruence|]. rewrite lookup_insert. by rewrite Hml.
      + left. by rewrite lookup_insert_ne.
    - intros l0 Hc. destruct (decide (l0 = l)) as [->|n]; [congruence|]. left. by rewrite lookup_insert_ne. }
  rewrite plain_split in Hr by done.
  specialize (IH Hks ltac:(done)).
  cbn [visited] in Hnd, Hm. apply NoDup_cons in Hnd as [Hnin Hnd].
  rewrite Hml in Hnin, Hnd, Hm.
  set (rest := k2 :: ks) in *.
  assert (forall js k' q, k :: rest = js ++ k' :: q -> (js = [] /\ k' = k /\ q = rest) \/ exists js', js = k :: js' /\ rest = js' ++ k' :: q) as Hsplit.
  { intros [|j js] k' q He; cbn in He; injection He as -> He; [left; by subst|right; eauto]. }
  unfold Heap.mbind at 1, mheap at 1 in Hr. rewrite Hml in Hr.
  assert (forall w, m !! k = Some w -> w <> VS SNil -> (forall l', w <> VMap l') -> blocked (hp s) l (k :: rest)) as Hblk.
  { intros w Hw H1 H2. exists [], k, rest, l, w. split_and!; try done. by rewrite Hml. }
  assert ((m !! k = None \/ m !! k = Some (VS SNil)) \/ exists w, m !! k = Some w /\ w <> VS SNil) as [Hmk|(w & Hmk & Hw0)].
  { destruct (m !! k) as [[[]| | | |]|]; eauto. }
  { (* new map *)
    clear Hblk. set (l' := nxt s).
    assert (hp s !! l' = None) as Hfresh.
    { apply eq_None_not_Some. intros H. apply Hf in H. unfold l' in H. lia. }
    assert (l <> l') as Hll by congruence.
    set (h1 := <[l' := CMap ∅]> (hp s)).
    assert (h1 !! l = Some (CMap m)) as Hl1 by (unfold h1; rewrite lookup_insert_ne; done).
    set (h2 := <[l := CMap (<[k := VMap l']> m)]> h1).
    set (s2 := St h2 (S l') (froms s) (tick s)).
    assert (save_splits W false l' rest v s2 = r) as Hr2.
    { rewrite <- Hr. destruct Hmk as [Hmk|Hmk]; rewrite Hmk; unfold Heap.mbind, alloc, map_set, mheap, write;
        unfold Heap.mbind; cbn [hp nxt froms tick]; fold l'; fold h1; rewrite (hmap_eq _ _ _ Hl1); done. }
    clear Hr.
    assert (h2 !! l' = Some (CMap ∅)) as Hl2.
    { unfold h2, h1. rewrite lookup_insert_ne by done. by rewrite lookup_insert. }
    assert (visited h2 l' rest = [l']) as Hvis.
    { unfold rest. cbn [visited]. rewrite (hmap_eq _ _ _ Hl2), lookup_empty. done. }
    destruct (IH false l' s2 ltac:(done) ltac:(done)) with (r := r) as [_ IHk]; [|done|].
    { split_and!; unfold s2; cbn [hp nxt].
      - rewrite Hvis. apply NoDup_singleton.
      - rewrite Hvis. intros l0 ->%elem_of_list_singleton. eauto.
      - unfold h2, h1. intros l0 [c Hc]. destruct (decide (l0 = l)) as [->|].
        { assert (l < nxt s) by (apply Hf; eauto). cbn. unfold l'. lia. }
        rewrite lookup_insert_ne in Hc by done.
        destruct (decide (l0 = l')) as [->|]; [cbn; unfold l'; lia|]. rewrite lookup_insert_ne in Hc by done.
        assert (l0 < nxt s) by (apply Hf; eauto). cbn. unfold l'. lia. }
    assert (forall js x, at_names h2 l' js = Some x -> js = []) as Honly.
    { intros [|j js] x; [done|]. cbn. by rewrite (hmap_eq _ _ _ Hl2), lookup_empty. }
    destruct IHk as (Hok & Hat & Hch1 & Hch2).
    { intros (js & k' & q & l0 & x & He & _ & Ha & Hx & _). cbn [hp s2] in Ha, Hx.
      pose proof (Honly _ _ Ha). subst js. cbn in Ha. injection Ha as <-. by rewrite (hmap_eq _ _ _ Hl2), lookup_empty in Hx. }
    cbn [hp s2] in Hch1, Hch2.
    assert (hp r.1 !! l = Some (CMap (<[k := VMap l']> m))) as Hrl.
    { destruct (Hch1 l (CMap (<[k := VMap l']> m))) as [H|(js & k' & r' & m' & w & _ & Ha & _)].
      - unfold h2. by rewrite lookup_insert.
      - done.
      - pose proof (Honly _ _ Ha). subst js. cbn in Ha. congruence. }
    split.
    { intros (js & k' & r' & l0 & x & He & Hr' & Ha & Hx & Hx2 & Hx3). exfalso. 
      destruct (Hsplit _ _ _ He) as [(-> & -> & ->)|(js' & -> & He')].
      - cbn in Ha. injection Ha as <-. rewrite Hml in Hx. destruct Hmk as [Hmk|Hmk]; rewrite Hmk in Hx; simplify_eq; done.
      - cbn in Ha. destruct Hmk as [Hmk|Hmk]; rewrite Hml, Hmk in Ha; [done|]. destruct js'; [|done]. by injection Ha. }
    intros _. split; [exact Hok|]. split.
    { cbn [at_names]. rewrite (hmap_eq _ _ _ Hrl), lookup_insert. done. }
    split.
    - intros l0 c Hc. destruct (decide (l0 = l)) as [->|n].
      + right. exists [], k, rest, m, (VMap l'). split_and!; [done|done|congruence|done].
      + left. destruct (Hch1 l0 c) as [H|(js & k' & r' & m' & w & _ & Ha & _)].
        * unfold h2, h1. rewrite lookup_insert_ne by done. rewrite lookup_insert_ne; [done|congruence].
        * done.
        * pose proof (Honly _ _ Ha). subst js. cbn in Ha. congruence.
    - intros l0 Hc. destruct (decide (l0 = l')) as [->|n].
      + right. destruct (Hch1 l' (CMap ∅) Hl2) as [H|(js & k' & r' & m' & w & Hr' & Ha & Hm' & Hl')].
        * unfold rest in Hat. cbn in Hat. by rewrite (hmap_eq _ _ _ H), lookup_empty in Hat.
        * injection Hm' as <-. exists k', w. split; [|done]. rewrite Hr'. right. apply elem_of_app. right. constructor.
      + destruct (Hch2 l0) as [H|(k' & w & Hin & H)]; [|by left|right; exists k', w; split; [by right|done]].
        unfold h2, h1. rewrite lookup_insert_ne by congruence. by rewrite lookup_insert_ne. }
  rewrite Hmk in Hr, Hnin, Hnd, Hm.
  destruct w as [sc|l'|lo n|nn|nl].
  2: { (* existing map *)
    clear Hblk Hw0. unfold Heap.mbind, mret, map_set, mheap, write in Hr. unfold Heap.mbind in Hr. rewrite Hml in Hr.
    assert (<[l := CMap (<[k := VMap l']> m)]> (hp s) = hp s) as Hid.
    { rewrite (insert_id m k) by done. by apply insert_id. }
    rewrite Hid in Hr. set (s2 := St (hp s) (nxt s) (froms s) (tick s)) in Hr.
    destruct (IH false l' s2 ltac:(done) ltac:(done)) with (r := r) as [IHb IHk]; [|done|].
    { split_and!; cbn [hp nxt s2]; [done| |done]. intros l0 Hl0. apply Hm. by right. }
    cbn [hp s2] in IHb, IHk.
    assert (blocked (hp s) l (k :: rest) <-> blocked (hp s) l' rest) as Hbl.
    { split.
      - intros (js & k' & r' & l0 & x & He & Hr' & Ha & Hx & Hx2 & Hx3).
        destruct (Hsplit _ _ _ He) as [(-> & -> & ->)|(js' & -> & He')].
        + cbn in Ha. injection Ha as <-. rewrite Hml, Hmk in Hx. injection Hx as <-. exfalso. by eapply Hx3.
        + cbn in Ha. rewrite Hml, Hmk in Ha. exists js', k', r', l0, x. done.
      - intros (js & k' & r' & l0 & x & He & Hr' & Ha & Hx & Hx2 & Hx3). exists (k :: js), k', r', l0, x.
        rewrite He. split_and!; try done. cbn. by rewrite Hml, Hmk. }
    split; [intros Hb; apply IHb; by apply Hbl|].
    intros Hb. destruct IHk as (Hok & Hat & Hch1 & Hch2); [by rewrite <- Hbl|].
    split; [done|]. split.
    { cbn [at_names]. assert (hp r.1 !! l = Some (CMap m)) as Hrl.
      { destruct (Hch1 l (CMap m) Hl) as [H|(js & k' & r' & m' & w & Hr' & Ha & _)]; [done|].
        exfalso. pose proof (at_visited _ js k' r' _ _ Ha) as Hin. rewrite <- Hr' in Hin. exact (Hnin Hin). }
      by rewrite (hmap_eq _ _ _ Hrl), Hmk. }
    split.
    - intros l0 c Hc. destruct (Hch1 l0 c Hc) as [H|(js & k' & r' & m' & w & Hr' & Ha & Hc' & Hl')]; [by left|].
      right. exists (k :: js), k', r', m', w. rewrite Hr'. split_and!; try done. cbn. by rewrite Hml, Hmk.
    - intros l0 Hc. destruct (Hch2 l0 Hc) as [H|(k' & w & Hin & H)]; [by left|]. right. exists k', w. split; [by right|done]. }
  1: destruct sc; try done.
  all: specialize (Hblk _ Hmk ltac:(done) ltac:(done)); split; [intros _; by subst r|intros H; by destruct H].
Qed.

Lemma save_names_thm ks v s l : ks <> [] -> Forall plain_name ks -> Forall (fun k => k <> "$") (tail ks) -> v <> VS SNil ->
  tree_like s l ks ->
  let r := save_in_tree W l (path_of (Nm <$> ks)) v s in
  (blocked (hp s) l ks -> r.2 = Err /\ hp r.1 = hp s) /\
  (~ blocked (hp s) l ks -> r.2 = Ok tt /\ at_names (hp r.1) l ks = Some v /\ changed_along (hp s) (hp r.1) l ks).
Proof.
  intros Hne Hp Hd Hv Ht. unfold save_in_tree.
  assert (vnil v = false) as Hn by (destruct v as [[]| | | |]; done). rewrite Hn.
  assert (split (path_of (Nm <$> ks)) "." = "$" :: ks) as ->.
  { rewrite <- (split_join_chr "."%char ("$" :: ks)); [|done|].
    - f_equal. unfold path_of. change (chr "."%char) with ".". rewrite (join_dot_cons "$" ks). f_equal. clear. induction ks as [|k ks IH]; [done|]. cbn. by rewrite IH.
    - constructor; [done|]. eapply Forall_impl; [exact Hp|]. intros k Hk. by apply plain_free. }
  change (save_splits W false l ("$" :: ks) v s) with (match ks with [] => mpanic | _ => save_splits W true l ks v end s).
  destruct ks as [|k ks]; [done|]. eapply save_splits_names; try done; by intros.
Qed.

(** ** the items of a member *)
Definition ok_st (s : st) : Prop := forall l0, is_Some (hp s !! l0) -> l0 < nxt s.
Definition keeps (a : option nat) (s s' : st) : Prop :=
  forall l0 c, hp s !! l0 = Some c -> Some l0 <> a -> hp s' !! l0 = Some c.

Lemma append1_ok a n v s b : ok_st s -> hp s !! a = Some (CArr b) -> n <= length b ->
  exists s' a' b', append1 W (Some a, n) v s = (s', Ok (Some a', S n)) /\ ok_st s' /\ hp s' !! a' = Some (CArr b') /\
    S n <= length b' /\ take (S n) b' = take n b ++ [v] /\ keeps (Some a) s s' /\ (a' = a \/ hp s !! a' = None).
Proof.
  intros Hs Ha Hn. unfold append1, Heap.mbind, mheap. cbn [fst snd]. unfold harr. rewrite Ha.
  destruct (decide (n < length b)) as [Hlt|Hge].
  - unfold write, mret. eexists _, a, (<[n := v]> b). split; [reflexivity|]. split_and!.
    + intros l0 [c Hc]. cbn in *. destruct (decide (l0 = a)) as [->|]; [apply Hs; eauto|].
      rewrite lookup_insert_ne in Hc by done. apply Hs; eauto.
    + cbn. by rewrite lookup_insert.
    + rewrite insert_length. lia.
    + rewrite (take_S_r (<[n:=v]> b) n v) by (apply list_lookup_insert; done).
      by rewrite take_insert by lia.
    + intros l0 c Hc Hne. cbn. rewrite lookup_insert_ne; congruence.
    + by left.
  - assert (n = length b) as -> by lia. unfold alloc, mret. rewrite firstn_all.
    eexists _, (nxt s), (b ++ v :: replicate (o_grow W (S (length b)) - S (length b)) (VS SNil)). split; [reflexivity|]. split_and!.
    + intros l0 [c Hc]. cbn in *. destruct (decide (l0 = nxt s)) as [->|]; [lia|].
      rewrite lookup_insert_ne in Hc by done. assert (l0 < nxt s) by (apply Hs; eauto). lia.
    + cbn. by rewrite lookup_insert.
    + rewrite !app_length. cbn. lia.
    + rewrite cons_middle, (app_assoc b). apply take_app_alt. rewrite app_length. cbn. lia.
    + intros l0 c Hc Hne. cbn. rewrite lookup_insert_ne; [done|]. assert (l0 < nxt s) by (apply Hs; eauto). lia.
    + right. apply eq_None_not_Some. intros H. apply Hs in H. lia.
Qed.
Lemma append_nils_ok k : forall a n s b, ok_st s -> hp s !! a = Some (CArr b) -> n <= length b ->
  exists s' a' b', append_nils W k (Some a, n) s = (s', Ok (Some a', n + k)) /\ ok_st s' /\ hp s' !! a' = Some (CArr b') /\
    n + k <= length b' /\ take (n + k) b' = take n b ++ replicate k (VS SNil) /\ keeps (Some a) s s' /\ (a' = a \/ hp s !! a' = None).
Proof.
  induction k as [|k IH]; intros a n s b Hs Ha Hn; cbn [append_nils].
  - exists s, a, b. rewrite Nat.add_0_r, app_nil_r. split_and!; try done. by intros l0 c ? ?. by left.
  - destruct (append1_ok a n (VS SNil) s b Hs Ha Hn) as (s1 & a1 & b1 & He & Hs1 & Ha1 & Hn1 & Ht1 & Hk1 & Hf1).
    unfold Heap.mbind. rewrite He.
    destruct (IH a1 (S n) s1 b1 Hs1 Ha1 Hn1) as (s2 & a2 & b2 & He2 & Hs2 & Ha2 & Hn2 & Ht2 & Hk2 & Hf2).
    exists s2, a2, b2. rewrite He2. rewrite Nat.add_succ_r. split_and!; try done.
    + cbn [plus] in Ht2. rewrite Ht2, Ht1. rewrite <- app_assoc. done.
    + intros l0 c Hc Hne. apply Hk2; [by apply Hk1|]. destruct Hf1 as [->|Hf1]; [done|]. congruence.
    + destruct Hf2 as [->|Hf2]; [done|]. destruct (decide (a2 = a)) as [->|]; [by left|right].
      apply eq_None_not_Some. intros [c Hc]. rewrite (Hk1 _ _ Hc) in Hf2; [done|congruence].
Qed.

Lemma trim_right_snoc c s : free_of c s = true -> trim_right c (s +:+ String c "") = s.
Proof.
  induction s as [|a s IH]; rewrite ?sapp_nil_l, ?sapp_cons; cbn -[decide].
  - intros _. by rewrite decide_True.
  - intros [Ha Hs]%andb_true_iff. rewrite IH by done.
    apply negb_true_iff, bool_decide_eq_false in Ha. destruct s; [|done]. by rewrite decide_False.
Qed.
Lemma trim_index i : trim "]" (itoa (Z.of_nat i) +:+ "]") = itoa (Z.of_nat i).
Proof.
  pose proof (itoa_nat_digits i) as Hd.
  assert (free_of "]"%char (itoa (Z.of_nat i)) = true) as Hf by (by apply (str_all_free is_digit)).
  unfold trim. rewrite <- (trim_right_snoc "]"%char (itoa (Z.of_nat i)) Hf) at 2. f_equal.
  destruct (itoa (Z.of_nat i)) as [|c d] eqn:Hi; [by destruct (itoa_ne (Z.of_nat i))|].
  cbn in Hf. apply andb_true_iff in Hf as [Hc _]. apply negb_true_iff, bool_decide_eq_false in Hc.
  rewrite sapp_cons. cbn -[decide trim_right]. by rewrite decide_False.
Qed.

Lemma split_item k i : plain_name k -> split (k +:+ idx_str i) "[" = [k; itoa (Z.of_nat i) +:+ "]"].
Proof.
  intros Hk. change (split (k +:+ idx_str i) "[") with (split (k +:+ String "["%char (itoa (Z.of_nat i) +:+ "]")) (chr "["%char)).
  rewrite (split_chr_app "["%char k). 2: { by apply plain_free. }
  f_equal. apply split_chr_free. rewrite free_of_app. rewrite (str_all_free is_digit) by (done || apply itoa_nat_digits). done.
Qed.

Lemma save_in_slice_ok s a n i v b : ok_st s -> (a = None /\ n = 0 /\ b = [] \/ exists l, a = Some l /\ hp s !! l = Some (CArr b)) ->
  n <= length b -> (Z.of_nat i < 2 ^ 63)%Z ->
  (forall l1, v = VMap l1 -> forall l2, take n b !! i <> Some (VMap l2)) ->
  exists s' a' n' b', save_in_slice W (a, n) [itoa (Z.of_nat i) +:+ "]"] v s = (s', Ok (Some a', n')) /\
    hp s' !! a' = Some (CArr b') /\ n' <= length b' /\ 
    take n' b' = <[i := v]> (take n b ++ replicate (S i - n) (VS SNil)) /\ keeps a s s' /\ (Some a' = a \/ hp s !! a' = None).
Proof.
  intros Hs Ha Hn Hi Hmaps. cbn [save_in_slice]. rewrite trim_index.
  rewrite atoi_itoa by (unfold int_range, int_min, int_max; apply andb_true_iff; rewrite !Z.leb_le; lia).
  assert (exists s1 a1 b1, (match a return M slice with
               | Some _ => mret (a, n)
               | None =>
                 if (Z.of_nat i <? 0)%Z then mpanic else
                 l <-- alloc (CArr (replicate (Z.to_nat (Z.of_nat i)) (VS SNil))) ;; mret (Some l, 0)
               end) s = (s1, Ok ((Some a1, n) : slice)) /\ ok_st s1 /\ hp s1 !! a1 = Some (CArr b1) /\ n <= length b1 /\ take n b1 = take n b /\
               keeps None s s1 /\ (Some a1 = a \/ hp s !! a1 = None)) as (s1 & a1 & b1 & He1 & Hs1 & Ha1 & Hn1 & Ht1 & Hk1 & Hf1).
  { destruct Ha as [(-> & -> & ->)|(l & -> & Hl)].
    - rewrite (proj2 (Z.ltb_ge _ _)) by lia. unfold Heap.mbind, alloc, mret.
      eexists _, (nxt s), (replicate (Z.to_nat (Z.of_nat i)) (VS SNil)). split; [reflexivity|]. split_and!.
      + intros l0 [c Hc]. cbn in *. destruct (decide (l0 = nxt s)) as [->|]; [lia|].
        rewrite lookup_insert_ne in Hc by done. assert (l0 < nxt s) by (apply Hs; eauto). lia.
      + cbn. by rewrite lookup_insert.
      + lia.
      + done.
      + intros l0 c Hc Hne. cbn. rewrite lookup_insert_ne; [done|]. assert (l0 < nxt s) by (apply Hs; eauto). lia.
      + right. apply eq_None_not_Some. intros H. apply Hs in H. lia.
    - exists s, l, b. split_and!; try done. by intros ???. by left. }
  cbn [fst]. unfold Heap.mbind at 1.
  match type of He1 with ?L = _ => match goal with |- context [let (_, _) := ?X in _] => change X with L end end.
  rewrite He1. cbn [snd].
  set (k := Z.to_nat (Z.of_nat i + 1 - Z.of_nat n)). assert (k = S i - n) as Hkk by (unfold k; lia).
  destruct (append_nils_ok k a1 n s1 b1 Hs1 Ha1 Hn1) as (s2 & a2 & b2 & He2 & Hs2 & Ha2 & Hn2 & Ht2 & Hk2 & Hf2).
  unfold Heap.mbind at 1. rewrite He2. rewrite (proj2 (Z.ltb_ge _ _)) by lia. rewrite Nat2Z.id.
  rewrite Ht1, Hkk in Ht2. rewrite Hkk in He2, Hn2 |- *. clear k Hkk.
  assert (is_Some (take (n + (S i - n)) b2 !! i)) as [old Hold].
  { apply lookup_lt_is_Some. rewrite take_length_le by lia. lia. }
  assert (forall l2 l1, v = VMap l1 -> old <> VMap l2) as Hno.
  { intros l2 l1 -> ->. rewrite Ht2 in Hold. apply lookup_app_Some in Hold as [Hold|[_ Hold]].
    - by eapply Hmaps.
    - apply lookup_replicate in Hold as [? _]. done. }
  unfold slice_get, Heap.mbind at 1 2, mheap at 1. cbn [fst snd]. unfold harr. rewrite Ha2, Hold. unfold mret at 1.
  assert (forall A (c : M A), Heap.mbind (merge_old v old) (fun _ => c) s2 = c s2) as Hmerge.
  { intros A c. destruct v; try done. destruct old; try done. by destruct (Hno l0 l). }
  rewrite Hmerge. unfold slice_set, Heap.mbind, mheap. cbn [fst snd]. rewrite decide_True by lia. unfold harr. rewrite Ha2.
  unfold write, mret. eexists _, a2, (n + (S i - n)), (<[i := v]> b2). split; [reflexivity|]. split_and!.
  - cbn. by rewrite lookup_insert.
  - by rewrite insert_length.
  - rewrite <- Ht2. rewrite take_insert_lt; [done|lia].
  - intros l0 c Hc Hne. cbn. destruct (decide (l0 = a2)) as [->|].
    { exfalso. destruct Hf2 as [->|Hf2].
      - destruct Hf1 as [?|?]; congruence.
      - rewrite (Hk1 _ _ Hc) in Hf2; done. }
    rewrite lookup_insert_ne by done. apply Hk2; [by apply Hk1|].
    destruct Hf1 as [<-|?]; congruence.
  - destruct Hf2 as [->|Hf2]; [done|]. right. apply eq_None_not_Some. intros [c Hc]. by rewrite (Hk1 _ _ Hc) in Hf2.
Qed.

Lemma save_item_thm l k i v s m old : ok_st s -> hp s !! l = Some (CMap m) -> plain_name k ->
  items_at (hp s) l k = Some old -> (Z.of_nat i < 2 ^ 63)%Z -> v <> VS SNil ->
  (forall l1, v = VMap l1 -> forall l2, old !! i <> Some (VMap l2)) ->
  let r := save_in_tree W l (path_of [Nm k; Ix i]) v s in
  r.2 = Ok tt /\
  items_at (hp r.1) l k = Some (<[i := v]> (old ++ replicate (S i - length old) (VS SNil))) /\
  (forall k', k' <> k -> hmap (hp r.1) l !! k' = m !! k') /\
  (forall l0 c, hp s !! l0 = Some c -> l0 <> l -> Some l0 <> backing (hp s) l k -> hp r.1 !! l0 = Some c).
Proof.
  intros Hs Hl Hk Hold Hi Hv Hmaps. cbn zeta. pose proof (hmap_eq _ _ _ Hl) as Hml.
  assert (exists n b, get_slice l k s = (s, Ok (backing (hp s) l k, n)) /\ 
    (backing (hp s) l k = None /\ n = 0 /\ b = [] \/ exists l1, backing (hp s) l k = Some l1 /\ hp s !! l1 = Some (CArr b)) /\
    n <= length b /\ old = take n b) as (n & b & Hg & Hb & Hn & ->).
  { unfold get_slice, Heap.mbind, mheap, items_at, backing in *. rewrite Hml in *.
    destruct (m !! k) as [[| |[a|] n| |]|]; try done; cbn in *.
    - destruct (hp s !! a) as [[|b]|] eqn:Ha; try done. destruct (decide _); [|done]. injection Hold as <-.
      exists n, b. split_and!; try done. right. eauto.
    - destruct n; [|done]. injection Hold as <-. exists 0, []. split_and!; try done. by left.
    - injection Hold as <-. exists 0, []. split_and!; try done. by left. }
  destruct (save_in_slice_ok s _ n i v b Hs Hb Hn Hi Hmaps) as (s1 & a1 & n1 & b1 & He & Ha1 & Hn1 & Ht1 & Hk1 & Hf1).
  assert (save_in_tree W l (path_of [Nm k; Ix i]) v s = map_set l k (VArr (Some a1) n1) s1) as ->.
  { unfold save_in_tree. assert (vnil v = false) as -> by (destruct v as [[]| | | |]; done).
    assert (split (path_of [Nm k; Ix i]) "." = ["$"; k +:+ idx_str i]) as ->.
    { assert (path_of [Nm k; Ix i] = join (chr "."%char) ["$"; k +:+ idx_str i]) as ->.
      { unfold path_of. cbn [segs join]. rewrite sapp_nil_r. done. }
      rewrite split_join_chr; [done|done|]. constructor; [done|]. constructor; [|done].
      rewrite free_of_app. rewrite (proj1 (plain_free k Hk)). cbn. apply idx_free; done. }
    cbn [save_splits negb andb]. rewrite bool_decide_true by done.
    unfold save_leaf. rewrite split_item by done. unfold Heap.mbind at 1. rewrite Hg. unfold Heap.mbind at 1. rewrite He. done. }
  assert (hp s1 !! l = Some (CMap m)) as Hl1.
  { apply Hk1; [done|]. destruct Hb as [(-> & _)|(l1 & -> & Hl1)]; [done|congruence]. }
  assert (a1 <> l) as Hne by congruence.
  unfold map_set, Heap.mbind, mheap, write. cbn [fst snd hp]. rewrite (hmap_eq _ _ _ Hl1).
  split; [done|]. split_and!.
  - unfold items_at, hmap. rewrite lookup_insert, lookup_insert, lookup_insert_ne by done. rewrite Ha1, decide_True by done.
    rewrite Ht1. by rewrite take_length_le.
  - intros k' Hk'. unfold hmap. rewrite lookup_insert. by rewrite lookup_insert_ne.
  - intros l0 c Hc H1 H2. rewrite lookup_insert_ne by done. by apply Hk1.
Qed.
End save.

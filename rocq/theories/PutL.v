(** saveInTree is [put] on documents without sharing. *)
From stdpp Require Import strings list gmap.
From Coq Require Import Ascii ZArith Lia.
From Verif Require Import GoStr GoStrL Val Conv Instr Heap SpecPath PathL SpecSave SaveL SpecPut.
Set Default Proof Using "Type".

Scheme owns_mut := Induction for owns Sort Prop with owns_members_mut := Induction for owns_members Sort Prop with owns_items_mut := Induction for owns_items Sort Prop.
Combined Scheme owns_mutind from owns_mut, owns_members_mut, owns_items_mut.

(** set_solver with the facts about sets only *)
Ltac ss := repeat match goal with
  | H : ?T |- _ => lazymatch T with
      | _ ## _ => fail | _ ⊆ _ => fail | _ ∈ _ => fail | ~ (_ ∈ _) => fail | gset nat => fail | nat => fail | _ => clear H end end; set_solver.
Tactic Notation "sw" ne_hyp_list(Hs) := clear - Hs; set_solver.
(** ** frames *)
Definition agree (F : gset nat) (h h' : gmap nat cell) : Prop := forall l, l ∈ F -> h' !! l = h !! l.
Lemma agree_sub F F' h h' : F' ⊆ F -> agree F h h' -> agree F' h h'.
Proof. intros H Ha l Hl. apply Ha. ss. Qed.
Lemma frames h : (forall v t F, owns h v t F -> forall h', agree F h h' -> owns h' v t F) /\
  (forall m kvs F, owns_members h m kvs F -> forall h', agree F h h' -> owns_members h' m kvs F) /\
  (forall vs ts F, owns_items h vs ts F -> forall h', agree F h h' -> owns_items h' vs ts F).
Proof.
  apply owns_mutind; try (intros; by constructor).
  - intros l m kvs F Hl Hm IH Hn h' Ha. econstructor; [rewrite Ha; [done|ss]| |done]. apply IH. eapply agree_sub; [|done]. ss.
  - intros a n b ts F Hl Hm Hi IH Hn h' Ha. econstructor; [rewrite Ha; [done|ss]|done| |done]. apply IH. eapply agree_sub; [|done]. ss.
  - intros m k v t kvs F F' Hk Hv IHv Hm IHm Hd h' Ha. constructor; [done| | |done]; [apply IHv|apply IHm]; (eapply agree_sub; [|done]); ss.
  - intros v vs t ts F F' Hv IHv Hm IHm Hd h' Ha. constructor; [| |done]; [apply IHv|apply IHm]; (eapply agree_sub; [|done]); ss.
Qed.
Lemma owns_frame h h' v t F : owns h v t F -> agree F h h' -> owns h' v t F.
Proof. intros H. by apply (proj1 (frames h)). Qed.
Lemma members_frame h h' m kvs F : owns_members h m kvs F -> agree F h h' -> owns_members h' m kvs F.
Proof. intros H. by apply (proj1 (proj2 (frames h))). Qed.
Lemma items_frame h h' vs ts F : owns_items h vs ts F -> agree F h h' -> owns_items h' vs ts F.
Proof. intros H. by apply (proj2 (proj2 (frames h))). Qed.
Lemma live h : (forall v t F, owns h v t F -> forall l, l ∈ F -> is_Some (h !! l)) /\ (forall m kvs F, owns_members h m kvs F -> forall l, l ∈ F -> is_Some (h !! l)) /\
  (forall vs ts F, owns_items h vs ts F -> forall l, l ∈ F -> is_Some (h !! l)).
Proof.
  apply owns_mutind; try (intros; ss); intros; match goal with H : _ ∈ _ ∪ _ |- _ => apply elem_of_union in H as [H|H] end;
    try match goal with H : _ ∈ {[ _ ]} |- _ => apply elem_of_singleton in H as -> end; eauto.
Qed.
Lemma owns_live h v t F l : owns h v t F -> l ∈ F -> is_Some (h !! l).
Proof. intros H. by apply (proj1 (live h) _ _ _ H). Qed.
Lemma members_live h v t F l : owns_members h v t F -> l ∈ F -> is_Some (h !! l).
Proof. intros H. by apply (proj1 (proj2 (live h)) _ _ _ H). Qed.
Lemma items_live h v t F l : owns_items h v t F -> l ∈ F -> is_Some (h !! l).
Proof. intros H. by apply (proj2 (proj2 (live h)) _ _ _ H). Qed.

(** ** members *)
Lemma members_none h m kvs F k : owns_members h m kvs F -> m !! k = None <-> member k kvs = None.
Proof.
  induction 1 as [|m k' v t kvs F F' Hk Hv Hm IH Hd]; [by rewrite lookup_empty|]. cbn. destruct (decide (k' = k)) as [->|N]; [by rewrite lookup_insert|]. by rewrite lookup_insert_ne.
Qed.
(** one member and the others *)
Lemma members_focus h m kvs F k v : owns_members h m kvs F -> m !! k = Some v ->
  exists t F1 F2, member k kvs = Some t /\ owns h v t F1 /\ F1 ## F2 /\ F = F1 ∪ F2 /\
    forall h' v' t' F1', agree F2 h h' -> owns h' v' t' F1' -> F1' ## F2 -> owns_members h' (<[k := v']> m) (set_member k t' kvs) (F1' ∪ F2).
Proof.
  induction 1 as [|m k' w t kvs F F' Hk Hv Hm IH Hd]; [by rewrite lookup_empty|]. cbn. destruct (decide (k' = k)) as [->|N].
  - rewrite lookup_insert. intros [= ->]. exists t, F, F'. split_and!; try done. intros h' v' t' F1' Ha Hv' Hd'. rewrite insert_insert.
    constructor; [done|done|by eapply members_frame|done].
  - rewrite lookup_insert_ne by done. intros H. destruct (IH H) as (t1 & F1 & F2 & H1 & H2 & H3 & -> & H4). exists t1, F1, (F ∪ F2). split_and!; [done|done|ss|ss|].
    intros h' v' t' F1' Ha Hv' Hd'. rewrite insert_commute by done. replace (F1' ∪ (F ∪ F2)) with (F ∪ (F1' ∪ F2)) by ss. constructor.
    + by rewrite lookup_insert_ne.
    + eapply owns_frame; [done|]. eapply agree_sub; [|done]. ss.
    + apply H4; [|done|ss]. eapply agree_sub; [|done]. ss.
    + ss.
Qed.
Lemma members_add h m kvs F k v t F1 : owns_members h m kvs F -> m !! k = None -> owns h v t F1 -> F1 ## F ->
  owns_members h (<[k := v]> m) (set_member k t kvs) (F1 ∪ F).
Proof.
  intros H. revert F1. induction H as [|m k' w t' kvs F F' Hk Hw Hm IH Hd]; intros F1; cbn.
  - intros _ Hv Hd. by constructor; [|done|constructor|].
  - destruct (decide (k' = k)) as [->|N]; [by rewrite lookup_insert|]. rewrite lookup_insert_ne by done. intros Hn Hv Hd'.
    rewrite insert_commute by done. replace (F1 ∪ (F ∪ F')) with (F ∪ (F1 ∪ F')) by ss. constructor; [by rewrite lookup_insert_ne|done|apply IH; [done|done|ss]|ss].
Qed.
Lemma members_app h m kvs F o old G : owns_members h m kvs F -> owns_members h o old G -> m ##ₘ o -> F ## G -> owns_members h (m ∪ o) (kvs ++ old) (F ∪ G).
Proof.
  intros H Ho. induction H as [|m k v t kvs F F' Hk Hv Hm IH Hd]; intros Hd' HF; cbn.
  - rewrite left_id_L by apply _. by rewrite left_id_L by apply _.
  - rewrite <- insert_union_l, <- (assoc_L (∪)). apply map_disjoint_insert_l in Hd' as [Hok Hd']. constructor; [by apply lookup_union_None|done|apply IH; [done|ss]|ss].
Qed.
(** members merged: [m] and those of [o] with other names *)
Lemma members_union h m kvs F o old G : owns_members h m kvs F -> owns_members h o old G -> F ## G ->
  exists G', G' ⊆ G /\ owns_members h (m ∪ o) (merged kvs old) (F ∪ G').
Proof.
  intros Hm Ho Hd.
  assert (H : exists G' o', G' ⊆ G /\ owns_members h o' (filter (fun kt => member kt.1 kvs = None) old) G' /\ m ##ₘ o' /\ m ∪ o = m ∪ o').
  { clear Hd. induction Ho as [|o k v t old G1 G2 Hk Hv Ho IH Hd]; [exists ∅, ∅; split_and!; [done|constructor|solve_map_disjoint|done]|].
    destruct IH as (G' & o' & H1 & H2 & H3 & H4). rewrite filter_cons. cbn [fst]. destruct (decide (member k kvs = None)) as [E|E].
    - assert (Hmk : m !! k = None) by (by apply (members_none _ _ _ _ _ Hm)).
      assert (Hok : o' !! k = None). { apply eq_None_not_Some. intros [x Hx]. assert (Hu : (m ∪ o') !! k = Some x) by (by apply lookup_union_Some; [|right]). rewrite <- H4 in Hu.
        apply lookup_union_Some_raw in Hu as [?|[_ ?]]; congruence. }
      exists (G1 ∪ G'), (<[k := v]> o'). split_and!; [ss|constructor; [done|done|done|ss]|by apply map_disjoint_insert_r_2|].
      rewrite <- !insert_union_r by done. by rewrite H4.
    - exists G', o'. split_and!; [ss|done|done|]. assert (is_Some (m !! k)) as [x Hx]. { destruct (m !! k) eqn:E'; [by eexists|]. by apply (members_none _ _ _ _ _ Hm) in E'. }
      rewrite <- H4. apply map_eq. intros j. rewrite !lookup_union. destruct (decide (k = j)) as [<-|N]; [by rewrite Hx; destruct (<[k:=v]> o !! k), (o !! k)|]. by rewrite lookup_insert_ne. }
  destruct H as (G' & o' & H1 & H2 & H3 & ->). exists G'. split; [done|]. unfold merged.
  apply members_app; [done|done|done|ss].
Qed.

(** ** items *)
Lemma items_length h vs ts F : owns_items h vs ts F -> length vs = length ts.
Proof. induction 1; cbn; congruence. Qed.
Lemma items_focus h vs ts F i v : owns_items h vs ts F -> vs !! i = Some v ->
  exists t F1 F2, ts !! i = Some t /\ owns h v t F1 /\ F1 ## F2 /\ F = F1 ∪ F2 /\
    forall h' v' t' F1', agree F2 h h' -> owns h' v' t' F1' -> F1' ## F2 -> owns_items h' (<[i := v']> vs) (<[i := t']> ts) (F1' ∪ F2).
Proof.
  intros H. revert i. induction H as [|w vs t ts F F' Hv Hm IH Hd]; intros i; [done|]. destruct i as [|i]; cbn.
  - intros [= ->]. exists t, F, F'. split_and!; try done. intros h' v' t' F1' Ha Hv' Hd'. constructor; [done|by eapply items_frame|done].
  - intros H. destruct (IH _ H) as (t1 & F1 & F2 & H1 & H2 & H3 & -> & H4). exists t1, F1, (F ∪ F2). split_and!; [done|done|ss|ss|].
    intros h' v' t' F1' Ha Hv' Hd'. replace (F1' ∪ (F ∪ F2)) with (F ∪ (F1' ∪ F2)) by ss. constructor.
    + eapply owns_frame; [done|]. eapply agree_sub; [|done]. ss.
    + apply H4; [|done|ss]. eapply agree_sub; [|done]. ss.
    + ss.
Qed.
Lemma items_app h vs ts F ws us G : owns_items h vs ts F -> owns_items h ws us G -> F ## G -> owns_items h (vs ++ ws) (ts ++ us) (F ∪ G).
Proof.
  intros H Ho. induction H as [|v vs t ts F F' Hv Hm IH Hd]; intros HF; cbn; [by rewrite left_id_L by apply _|].
  rewrite <- (assoc_L (∪)). constructor; [done|apply IH; ss|ss].
Qed.
Lemma items_nulls h n : owns_items h (replicate n (VS SNil)) (replicate n null) ∅.
Proof. induction n as [|n IH]; cbn; [constructor|]. rewrite <- (left_id_L ∅ (∪) ∅). by constructor; [constructor| |]. Qed.

(** ** the effect of a step *)
Definition stays (s s' : st) (G : gset nat) : Prop := ok_st s' /\ forall l0, l0 ∉ G -> is_Some (hp s !! l0) -> hp s' !! l0 = hp s !! l0.
Definition from (s : st) (G F : gset nat) : Prop := forall l, l ∈ F -> l ∈ G \/ hp s !! l = None.
Lemma stays_refl s G : ok_st s -> stays s s G.
Proof. by split. Qed.
Lemma stays_trans s s1 s2 G G' : stays s s1 G -> stays s1 s2 G' -> (forall l, l ∈ G' -> l ∈ G \/ hp s !! l = None) -> stays s s2 G.
Proof.
  intros [_ H1] [H2 H3] H. split; [done|]. intros l Hl Hs. rewrite H3; [by apply H1| |by rewrite H1]. intros Hg. destruct (H _ Hg) as [?|E]; [done|]. rewrite E in Hs. by destruct Hs.
Qed.
Lemma stays_agree s s' G F : stays s s' G -> F ## G -> (forall l, l ∈ F -> is_Some (hp s !! l)) -> agree F (hp s) (hp s').
Proof. intros [_ H] Hd Hl l Hin. apply H; [ss|by apply Hl]. Qed.
Lemma stays_write s l c G : ok_st s -> is_Some (hp s !! l) -> l ∈ G -> stays s (St (<[l := c]> (hp s)) (nxt s) (froms s) (tick s)) G.
Proof.
  intros Hs Hl Hin. split.
  - intros l0 H. cbn in *. destruct (decide (l0 = l)) as [->|]; [by apply Hs|]. rewrite lookup_insert_ne in H by done. by apply Hs.
  - intros l0 Hn _. cbn. rewrite lookup_insert_ne; [done|]. ss.
Qed.
Lemma stays_alloc s c G : ok_st s -> stays s (St (<[nxt s := c]> (hp s)) (S (nxt s)) (froms s) (tick s)) G.
Proof.
  intros Hs. split.
  - intros l0 H. cbn in *. destruct (decide (l0 = nxt s)) as [->|]; [lia|]. rewrite lookup_insert_ne in H by done. specialize (Hs _ H). lia.
  - intros l0 _ H. cbn. rewrite lookup_insert_ne; [done|]. specialize (Hs _ H). lia.
Qed.

Section put.
Context (W : oracles).
Definition index_text (i : nat) : string := itoa (Z.of_nat i) +:+ "]".
Lemma index_read i : (Z.of_nat i < 2 ^ 63)%Z -> atoi (trim "]" (index_text i)) = Some (Z.of_nat i).
Proof. intros H. unfold index_text. rewrite trim_index, atoi_itoa; [done|]. unfold int_range, int_min, int_max. apply andb_true_iff. rewrite !Z.leb_le. lia. Qed.

(** lines 323-330: the array is long enough then *)
Definition grown (current : slice) (index : Z) : M slice :=
  cur <-- (match current.1 with
           | Some _ => mret current
           | None => if (index <? 0)%Z then mpanic else l <-- alloc (CArr (replicate (Z.to_nat index) (VS SNil))) ;; mret (Some l, 0)
           end) ;;
  append_nils W (Z.to_nat (index + 1 - Z.of_nat cur.2)) cur.
Lemma grown_ok s a n ts F i : ok_st s -> owns (hp s) (VArr a n) (TArr ts) F ->
  exists s' a' b N F', grown (a, n) (Z.of_nat i) s = (s', Ok (Some a', N)) /\ hp s' !! a' = Some (CArr b) /\ i < N /\ N <= length b /\
    owns_items (hp s') (take N b) (padded i ts) F' /\ a' ∉ F' /\ F' ⊆ F /\ (a' ∈ F \/ hp s !! a' = None) /\ stays s s' F.
Proof.
  intros Hs Ho. unfold grown.
  assert (exists s1 a1 b1 F1, (match a return M slice with
               | Some _ => mret (a, n)
               | None =>
                 if (Z.of_nat i <? 0)%Z then mpanic else
                 l <-- alloc (CArr (replicate (Z.to_nat (Z.of_nat i)) (VS SNil))) ;; mret (Some l, 0)
               end) s = (s1, Ok ((Some a1, n) : slice)) /\ ok_st s1 /\ hp s1 !! a1 = Some (CArr b1) /\ n <= length b1 /\ owns_items (hp s1) (take n b1) ts F1 /\
               a1 ∉ F1 /\ F1 ⊆ F /\ (a1 ∈ F \/ hp s !! a1 = None) /\ stays s s1 F) as (s1 & a1 & b1 & F1 & He1 & Hs1 & Ha1 & Hn1 & Hi1 & Hn & Hsub & Hf1 & Hst1).
  { inversion Ho as [| | | | |a0 n0 b0 ts0 F0 Ha Hle Hi Hn]; subst.
    - rewrite (proj2 (Z.ltb_ge _ _)) by lia. unfold Heap.mbind, alloc, mret.
      pose proof (stays_alloc s (CArr (replicate (Z.to_nat (Z.of_nat i)) (VS SNil))) ∅ Hs) as Hst.
      eexists _, (nxt s), (replicate (Z.to_nat (Z.of_nat i)) (VS SNil)), ∅. split; [reflexivity|]. split_and!.
      + by destruct Hst.
      + cbn. by rewrite lookup_insert.
      + lia.
      + constructor.
      + ss.
      + done.
      + right. apply eq_None_not_Some. intros H. apply Hs in H. lia.
      + done.
    - eexists s, a0, b0, F0. split_and!; try done; [ss|left; ss]. }
  unfold Heap.mbind at 1. cbn [fst].
  match type of He1 with ?L = _ => match goal with |- context [let (_, _) := ?X in _] => change X with L end end.
  rewrite He1. cbn [snd]. replace (Z.to_nat (Z.of_nat i + 1 - Z.of_nat n)) with (S i - n) by lia.
  destruct (append_nils_ok W (S i - n) a1 n s1 b1 Hs1 Ha1 Hn1) as (s2 & a2 & b2 & He2 & Hs2 & Ha2 & Hn2 & Ht2 & Hk2 & Hf2).
  assert (Hst2 : stays s1 s2 {[a1]}). { split; [done|]. intros l0 Hl0 [c Hc]. rewrite Hc. apply Hk2; [done|]. ss. }
  exists s2, a2, b2, (n + (S i - n)), F1. rewrite He2. split_and!; try done; [lia| | | |].
  - rewrite Ht2. unfold padded. rewrite <- (items_length _ _ _ _ Hi1), take_length_le by lia. rewrite <- (right_id_L ∅ (∪) F1). apply items_app; [|apply items_nulls|ss].
    eapply items_frame; [done|]. eapply stays_agree; [done|ss|]. intros l Hl. by eapply items_live.
  - destruct Hf2 as [->|Hf2]; [done|]. intros Hin. pose proof (items_live _ _ _ _ _ Hi1 Hin) as [c Hc]. congruence.
  - destruct Hf2 as [->|Hf2]; [done|]. destruct (decide (a2 ∈ F)) as [|Hnin]; [by left|]. right. apply eq_None_not_Some. intros H. destruct Hst1 as [_ Hst1]. rewrite Hst1 in Hf2 by done. rewrite Hf2 in H. by destruct H.
  - eapply stays_trans; [done|done|]. intros l ->%elem_of_singleton. done.
Qed.
Lemma save_in_slice_cons current i is v : (Z.of_nat i < 2 ^ 63)%Z ->
  forall s, save_in_slice W current (index_text i :: is) v s = (cur <-- grown current (Z.of_nat i) ;;
    match is with
    | [] => old <-- slice_get cur i ;; merge_old v old ;;; slice_set cur i v ;;; mret cur
    | _ => old <-- slice_get cur i ;;
        nv <-- mtry (save_in_slice W (match old with VArr l n => (l, n) | _ => (None, 0) end) is v) ;;
        slice_set cur i (match nv with Some s' => slice_val s' | None => VArr None 0 end) ;;; mret cur
    end) s.
Proof.
  intros Hi s. cbn [save_in_slice]. rewrite index_read by done. unfold grown. unfold Heap.mbind. 
  set (X := (match current.1 with Some _ => mret current | None => _ end) s). destruct X as [s1 [c| |]]; try done.
  destruct (append_nils W _ c s1) as [s2 [c2| |]]; try done. rewrite (proj2 (Z.ltb_ge _ _)) by lia. rewrite Nat2Z.id. done.
Qed.

(** [v] is saved at the indices, merged with the object there; the array with another document at this place *)
Lemma slice_ok is : forall i s a n v tv Fv ts F, ok_st s -> owns (hp s) (VArr a n) (TArr ts) F -> owns (hp s) v tv Fv -> F ## Fv ->
  Forall (fun i => (Z.of_nat i < 2 ^ 63)%Z) (i :: is) ->
  exists s' a' n' vF F2, save_in_slice W (a, n) (map index_text (i :: is)) v s = (s', Ok (Some a', n')) /\
    owns (hp s') v (over tv (item_at i is ts)) vF /\ vF ## F2 /\ from s (F ∪ Fv) (vF ∪ F2) /\ stays s s' (F ∪ Fv) /\
    forall h' t' vF', agree F2 (hp s') h' -> owns h' v t' vF' -> vF' ## F2 -> owns h' (VArr (Some a') n') (TArr (set_item i is ts t')) (vF' ∪ F2).
Proof.
  induction is as [|j is IH]; intros i s a n v tv Fv ts F Hs Ho Hv Hd Hb.
  - cbn [map]. apply Forall_cons in Hb as [Hb _]. rewrite save_in_slice_cons by done.
    destruct (grown_ok s a n ts F i Hs Ho) as (s1 & a1 & b & N & F1 & He & Ha & HiN & HN & Hi & Hna & Hsub & Hfr & Hst). unfold Heap.mbind at 1. rewrite He.
    destruct (lookup_lt_is_Some_2 (take N b) i) as [old Hold]; [rewrite take_length_le; lia|].
    destruct (items_focus _ _ _ _ _ _ Hi Hold) as (told & Fo & F2 & Ht & Hoo & Hdd & -> & Hclose).
    unfold slice_get, Heap.mbind at 1 2, mheap at 1. cbn [fst snd]. unfold harr. rewrite Ha, Hold. unfold mret at 1.
    assert (Hitem : item_at i [] ts = told).
    { cbn. unfold padded in Ht. apply lookup_app_Some in Ht as [->|[Hge Ht]]; [done|]. rewrite lookup_ge_None_2 by done. by apply lookup_replicate in Ht as [-> _]. }
    assert (Hv1 : owns (hp s1) v tv Fv). { eapply owns_frame; [done|]. eapply stays_agree; [done|sw Hd|]. intros l Hl. by eapply owns_live. }
    assert (Hlive : is_Some (hp s1 !! a1)) by by rewrite Ha.
    assert (Hna1 : a1 ∉ Fv). { intros Hin. destruct Hfr as [E|E]; [by apply (Hd a1)|]. pose proof (owns_live _ _ _ _ _ Hv Hin) as [c Hc]. congruence. }
    assert (Hm : exists s2 vF, merge_old v old s1 = (s2, Ok tt) /\ owns (hp s2) v (over tv told) vF /\ vF ⊆ Fv ∪ Fo /\ stays s1 s2 Fv).
    { clear Hitem. assert ((exists ln lo, v = VMap ln /\ old = VMap lo) \/ ~ (exists ln lo, v = VMap ln /\ old = VMap lo)) as [(ln & lo & -> & ->)|Hno].
      { destruct v; try (right; intros (? & ? & ? & ?); congruence). destruct old; try (right; intros (? & ? & ? & ?); congruence). left. eauto. }
      - inversion Hv1 as [| | | |? m kvs Fm Hl Hm Hln|]; subst. inversion Hoo as [| | | |? mo kvo Fmo Hlo Hmo Hlno|]; subst.
        unfold merge_old, Heap.mbind, mheap, write. rewrite (hmap_eq _ _ _ Hl), (hmap_eq _ _ _ Hlo).
        destruct (members_union _ _ _ _ _ _ _ Hm Hmo) as (G' & HG & Hu); [intros x Hx Hx'; apply (Hd x); [apply Hsub; sw Hx'|sw Hx]|].
        assert (Hst2 : stays s1 (St (<[ln:=CMap (m ∪ mo)]> (hp s1)) (nxt s1) (froms s1) (tick s1)) ({[ln]} ∪ Fm)). { apply stays_write; [by destruct Hst|by rewrite Hl|clear; set_solver]. }
        eexists _, ({[ln]} ∪ (Fm ∪ G')). split; [reflexivity|]. assert (HlnG : ln ∉ Fm ∪ G'). { intros [E|E]%elem_of_union; [done|]. apply (Hd ln); [sw Hsub HG E|clear; set_solver]. }
        split_and!; [|sw HG|done].
        cbn [over]. econstructor; [cbn; by rewrite lookup_insert| |done]. eapply members_frame; [done|]. intros l Hl'. cbn. rewrite lookup_insert_ne; [done|]. intros ->. done.
      - exists s1, Fv. assert (over tv told = tv) as ->. { destruct tv; try done. destruct told; try done. inversion Hv1; subst. inversion Hoo; subst. destruct Hno. eauto. }
        split_and!; [|done|clear; set_solver|apply stays_refl; by destruct Hst]. destruct v; try done. destruct old; try done. destruct Hno. eauto. }
    destruct Hm as (s2 & vF & Em & Hv2 & HvF & Hst2). unfold Heap.mbind at 1. rewrite Em. unfold slice_set, Heap.mbind, mheap. cbn [fst snd]. rewrite decide_True by done.
    assert (Ha2 : hp s2 !! a1 = Some (CArr b)). { destruct Hst2 as [_ Hst2]. by rewrite Hst2. } unfold harr. rewrite Ha2. unfold write, mret.
    assert (Hst3 : stays s2 (St (<[a1:=CArr (<[i:=v]> b)]> (hp s2)) (nxt s2) (froms s2) (tick s2)) {[a1]}). { apply stays_write; [by destruct Hst2|by rewrite Ha2|clear; set_solver]. }
    assert (HvFa : a1 ∉ vF) by (clear - HvF Hna Hna1; set_solver).
    assert (HvF2 : vF ## F2) by (sw HvF Hdd Hsub Hd).
    eexists _, a1, N, vF, ({[a1]} ∪ F2). split; [reflexivity|]. split_and!.
    + rewrite Hitem. eapply owns_frame; [done|]. eapply stays_agree; [done|sw HvFa|]. intros l Hl. by eapply owns_live.
    + sw HvF2 HvFa.
    + intros l. rewrite !elem_of_union. intros [Hl|[->%elem_of_singleton|Hl]]; [left; sw Hl HvF Hsub| |left; sw Hl Hsub]. destruct Hfr as [E|E]; [left; by left|by right].
    + eapply stays_trans; [eapply stays_trans|done|].
      * destruct Hst as [H1 H2]. split; [exact H1|]. intros l Hl. apply H2. sw Hl.
      * done.
      * intros l Hl. left. by apply elem_of_union_r.
      * intros l ->%elem_of_singleton. destruct Hfr as [E|E]; [left; by apply elem_of_union_l|by right].
    + intros h' t' vF' Hag Hv' Hd'. replace (vF' ∪ ({[a1]} ∪ F2)) with ({[a1]} ∪ (vF' ∪ F2)) by (clear; set_solver). cbn [set_item]. econstructor.
      * rewrite Hag by (clear; set_solver). cbn. by rewrite lookup_insert.
      * by rewrite insert_length.
      * rewrite take_insert_lt by done. apply Hclose; [|done|sw Hd']. intros l Hl. rewrite Hag by (sw Hl). cbn. rewrite lookup_insert_ne by (intros ->; sw Hna Hl).
        destruct Hst2 as [_ Hst2]. apply Hst2; [sw Hd Hsub Hl|]. eapply items_live; [exact Hi|sw Hl].
      * sw Hd' Hna.
  - apply Forall_cons in Hb as [Hb Hbs]. change (map index_text (i :: j :: is)) with (index_text i :: map index_text (j :: is)). rewrite save_in_slice_cons by done.
    destruct (grown_ok s a n ts F i Hs Ho) as (s1 & a1 & b & N & F1 & He & Ha & HiN & HN & Hi & Hna & Hsub & Hfr & Hst). unfold Heap.mbind at 1. rewrite He.
    cbn [map]. change (index_text j :: map index_text is) with (map index_text (j :: is)).
    destruct (lookup_lt_is_Some_2 (take N b) i) as [old Hold]; [rewrite take_length_le; lia|].
    destruct (items_focus _ _ _ _ _ _ Hi Hold) as (told & Fo & F2 & Ht & Hoo & Hdd & -> & Hclose).
    unfold slice_get, Heap.mbind at 1 2, mheap at 1. cbn [fst snd]. unfold harr. rewrite Ha, Hold. unfold mret at 1.
    assert (Hitem : told = default null (ts !! i)).
    { unfold padded in Ht. apply lookup_app_Some in Ht as [->|[Hge Ht]]; [done|]. rewrite lookup_ge_None_2 by done. by apply lookup_replicate in Ht as [-> _]. }
    assert (Hv1 : owns (hp s1) v tv Fv). { eapply owns_frame; [done|]. eapply stays_agree; [done|sw Hd|]. intros l Hl. by eapply owns_live. }
    assert (Hna1 : a1 ∉ Fv). { intros Hin. destruct Hfr as [E|E]; [by apply (Hd a1)|]. pose proof (owns_live _ _ _ _ _ Hv Hin) as [c Hc]. congruence. }
    assert (Hn : exists l0 n0 Fn, (match old with VArr l n => (l, n) | _ => (None, 0) end) = (l0, n0) /\ owns (hp s1) (VArr l0 n0) (TArr (items_of told)) Fn /\ Fn ⊆ Fo).
    { clear Hitem. destruct Hoo; try (eexists None, 0, ∅; split_and!; [done|constructor|clear; set_solver]). eexists (Some a0), n0, _. split_and!; [done|by econstructor|done]. }
    destruct Hn as (l0 & n0 & Fn & En & Hon & Hfn). cbn beta iota. match goal with |- context [save_in_slice W ?X] => replace X with ((l0, n0) : slice) by (symmetry; exact En) end.
    destruct (IH j s1 l0 n0 v tv Fv (items_of told) Fn) as (s2 & a2 & n2 & vF & G & He2 & Hv2 & HvG & Hfrom & Hst2 & Hcl2).
    { by destruct Hst. } { done. } { done. } { clear IH. intros x Hx Hx'. apply (Hd x); [|done]. apply Hsub, elem_of_union_l. by apply Hfn. } { done. }
    unfold Heap.mbind at 1. unfold mtry at 1. rewrite He2. cbn beta iota.
    assert (Hst12 : hp s2 !! a1 = Some (CArr b)). { destruct Hst2 as [_ Hst2]. rewrite Hst2; [done| |by rewrite Ha]. clear - Hfn Hna Hna1. set_solver. }
    unfold slice_set, Heap.mbind, mheap. cbn [fst snd]. rewrite decide_True by done. unfold harr. rewrite Hst12. unfold write, mret.
    assert (Hst3 : stays s2 (St (<[a1:=CArr (<[i:=slice_val (Some a2, n2)]> b)]> (hp s2)) (nxt s2) (froms s2) (tick s2)) {[a1]}).
    { apply stays_write; [by destruct Hst2|by rewrite Hst12|clear; set_solver]. }
    assert (Hfar : forall l, l ∈ vF ∪ G -> l <> a1 /\ l ∉ F2 /\ (l ∈ F ∪ Fv \/ hp s !! l = None)).
    { intros l Hl. destruct (Hfrom l Hl) as [H|H].
      - apply elem_of_union in H as [H|H]; [apply Hfn in H|]; split_and!.
        + intros ->. apply Hna. by apply elem_of_union_l.
        + intros H'. by apply (Hdd l).
        + left. apply elem_of_union_l, Hsub, elem_of_union_l. done.
        + by intros ->.
        + intros H'. apply (Hd l); [|done]. apply Hsub, elem_of_union_r. done.
        + left. by apply elem_of_union_r.
      - split_and!.
        + intros ->. congruence.
        + intros H'. assert (Hsm : is_Some (hp s1 !! l)) by (eapply items_live; [exact Hi|by apply elem_of_union_r]). rewrite H in Hsm. by destruct Hsm.
        + destruct (decide (l ∈ F)) as [HF|HF]; [left; by apply elem_of_union_l|]. right. apply eq_None_not_Some. intros Hsm. destruct Hst as [_ Hst]. rewrite Hst in H by done. rewrite H in Hsm. by destruct Hsm. }
    eexists _, a1, N, vF, ({[a1]} ∪ F2 ∪ G). split; [reflexivity|]. split_and!.
    + rewrite Hitem in Hv2. eapply owns_frame; [exact Hv2|]. eapply stays_agree; [done| |intros l Hl; by eapply owns_live].
      intros x Hx ->%elem_of_singleton. by destruct (Hfar a1 (elem_of_union_l _ _ _ Hx)).
    + intros x Hx Hx'. destruct (Hfar x (elem_of_union_l _ _ _ Hx)) as (H1 & H2 & _). apply elem_of_union in Hx' as [[->%elem_of_singleton|Hx']%elem_of_union|Hx']; [done|done|by apply (HvG x)].
    + intros l. rewrite !elem_of_union. intros [Hl|[[->%elem_of_singleton|Hl]|Hl]].
      * destruct (Hfar l (elem_of_union_l _ _ _ Hl)) as (_ & _ & [[?|?]%elem_of_union|?]); eauto.
      * destruct Hfr; eauto.
      * left. left. apply Hsub, elem_of_union_r. done.
      * destruct (Hfar l (elem_of_union_r _ _ _ Hl)) as (_ & _ & [[?|?]%elem_of_union|?]); eauto.
    + eapply stays_trans; [eapply (stays_trans s s1 s2 (F ∪ Fv))|done|].
      * destruct Hst as [H1 H2]. split; [exact H1|]. intros l Hl. apply H2. intros H. apply Hl. by apply elem_of_union_l.
      * exact Hst2.
      * intros l [Hl|Hl]%elem_of_union; left; [apply elem_of_union_l, Hsub, elem_of_union_l; by apply Hfn|by apply elem_of_union_r].
      * intros l ->%elem_of_singleton. destruct Hfr as [E|E]; [left; by apply elem_of_union_l|by right].
    + intros h' t' vF' Hag Hv' Hd'. replace (vF' ∪ ({[a1]} ∪ F2 ∪ G)) with ({[a1]} ∪ ((vF' ∪ G) ∪ F2)) by (clear; set_solver). cbn [set_item]. rewrite <- Hitem.
      assert (Hag2 : agree G (hp s2) h'). { intros l Hl. rewrite Hag by (by apply elem_of_union_r). cbn. destruct (Hfar l (elem_of_union_r _ _ _ Hl)) as (H1 & _). by rewrite lookup_insert_ne. }
      assert (HG2 : forall x, x ∈ G -> x <> a1 /\ x ∉ F2). { intros x Hx. destruct (Hfar x (elem_of_union_r _ _ _ Hx)) as (? & ? & _). done. }
      econstructor.
      * rewrite Hag by (clear; set_solver). cbn. by rewrite lookup_insert.
      * by rewrite insert_length.
      * rewrite take_insert_lt by done. apply Hclose.
        { intros l Hl. rewrite Hag by (clear - Hl; set_solver). cbn. rewrite lookup_insert_ne by (intros ->; apply Hna; by apply elem_of_union_r).
          destruct Hst2 as [_ Hst2]. apply Hst2; [|eapply items_live; [exact Hi|by apply elem_of_union_r]]. intros [H|H]%elem_of_union; [apply (Hdd l); [by apply Hfn|done]|].
          apply (Hd l); [|done]. apply Hsub, elem_of_union_r. done. }
        { apply Hcl2; [done|done|]. intros x Hx Hx'. apply (Hd' x); [done|by apply elem_of_union_r]. }
        { intros x [Hx|Hx]%elem_of_union Hx'; [apply (Hd' x); [done|]; apply elem_of_union_l; by apply elem_of_union_r|]. by destruct (HG2 x Hx). }
      * intros [[H|H]%elem_of_union|H]%elem_of_union; [|by destruct (HG2 a1 H)|apply Hna; by apply elem_of_union_r].
        apply (Hd' a1); [done|]. apply elem_of_union_l, elem_of_union_l. by apply elem_of_singleton.
Qed.

(** ** one member of an object *)
Lemma map_focus h l kvs F k : owns h (VMap l) (TObj kvs) F -> exists m F1 F2, h !! l = Some (CMap m) /\ l ∉ F1 /\ l ∉ F2 /\ F1 ## F2 /\ F = {[l]} ∪ (F1 ∪ F2) /\
  match m !! k with Some v => exists t, member k kvs = Some t /\ owns h v t F1 | None => member k kvs = None /\ F1 = ∅ end /\
  (forall x, x ∈ F2 -> is_Some (h !! x)) /\
  forall h' v' t' F1', h' !! l = Some (CMap (<[k := v']> m)) -> agree F2 h h' -> owns h' v' t' F1' -> F1' ## F2 -> l ∉ F1' ->
    owns h' (VMap l) (TObj (set_member k t' kvs)) ({[l]} ∪ (F1' ∪ F2)).
Proof.
  clear. intros Ho. inversion Ho as [| | | |? m ? FM Hl Hm Hn|]; subst. destruct (m !! k) as [v|] eqn:Ek.
  - destruct (members_focus _ _ _ _ _ _ Hm Ek) as (t & F1 & F2 & Ht & Hv & Hd & -> & Hc). exists m, F1, F2. rewrite Ek. split_and!; try done; [clear - Hn; set_solver|clear - Hn; set_solver|by exists t| |].
    + intros x Hx. eapply members_live; [done|]. by apply elem_of_union_r.
    + intros h' v' t' F1' Hl' Ha Hv' Hd' Hn'. econstructor; [done|by apply Hc|]. clear - Hn Hn'. set_solver.
  - exists m, ∅, FM. rewrite Ek. split_and!; try done; [by rewrite (left_id_L ∅ (∪))|by apply (members_none _ _ _ _ _ Hm)| |].
    + intros x Hx. by eapply members_live.
    + intros h' v' t' F1' Hl' Ha Hv' Hd' Hn'. econstructor; [done| |clear - Hn Hn'; set_solver]. apply members_add; [by eapply members_frame|done|done|done].
Qed.
Lemma close_map s s' l k m w t kvs F1 F2 Fv F' : hp s !! l = Some (CMap m) -> l ∉ F1 -> l ∉ F2 -> F1 ## F2 -> ({[l]} ∪ (F1 ∪ F2)) ## Fv ->
  (forall x, x ∈ F2 -> is_Some (hp s !! x)) ->
  (forall h' v' t' F1', h' !! l = Some (CMap (<[k := v']> m)) -> agree F2 (hp s) h' -> owns h' v' t' F1' -> F1' ## F2 -> l ∉ F1' ->
    owns h' (VMap l) (TObj (set_member k t' kvs)) ({[l]} ∪ (F1' ∪ F2))) ->
  hp s' !! l = Some (CMap (<[k := w]> m)) -> stays s s' ({[l]} ∪ (F1 ∪ Fv)) -> owns (hp s') w t F' -> from s (F1 ∪ Fv) F' ->
  exists G, owns (hp s') (VMap l) (TObj (set_member k t kvs)) G /\ from s (({[l]} ∪ (F1 ∪ F2)) ∪ Fv) G /\ stays s s' (({[l]} ∪ (F1 ∪ F2)) ∪ Fv).
Proof.
  clear. intros Hl Hn1 Hn2 Hd Hdv Hlive Hc Hl' Hst Ho Hfr.
  assert (Hd1 : l ∉ Fv). { intros H. apply (Hdv l); [|done]. apply elem_of_union_l. by apply elem_of_singleton. }
  assert (Hd2 : forall x, x ∈ F2 -> x ∉ Fv). { intros x Hx H. apply (Hdv x); [|done]. apply elem_of_union_r. by apply elem_of_union_r. }
  exists ({[l]} ∪ (F' ∪ F2)). split_and!.
  - apply Hc with (v' := w); [done| |done| |].
    + eapply stays_agree; [done| |done]. intros x Hx [->%elem_of_singleton|[H|H]%elem_of_union]%elem_of_union; [done|by apply (Hd x)|by apply (Hd2 x)].
    + intros x Hx Hx'. destruct (Hfr x Hx) as [[H|H]%elem_of_union|H]; [by apply (Hd x)|by apply (Hd2 x)|]. specialize (Hlive x Hx'). rewrite H in Hlive. by destruct Hlive.
    + intros Hx. destruct (Hfr l Hx) as [[H|H]%elem_of_union|H]; [done|done|congruence].
  - intros x [->%elem_of_singleton|[H|H]%elem_of_union]%elem_of_union.
    + left. apply elem_of_union_l, elem_of_union_l. by apply elem_of_singleton.
    + destruct (Hfr x H) as [[H'|H']%elem_of_union|H']; [left|left|by right].
      * apply elem_of_union_l, elem_of_union_r. by apply elem_of_union_l.
      * by apply elem_of_union_r.
    + left. apply elem_of_union_l, elem_of_union_r. by apply elem_of_union_r.
  - destruct Hst as [H1 H2]. split; [done|]. intros x Hx. apply H2. intros [->%elem_of_singleton|[H|H]%elem_of_union]%elem_of_union; apply Hx.
    + apply elem_of_union_l, elem_of_union_l. by apply elem_of_singleton.
    + apply elem_of_union_l, elem_of_union_r. by apply elem_of_union_l.
    + by apply elem_of_union_r.
Qed.
Lemma stays_mono s s' G G' : stays s s' G -> G ⊆ G' -> stays s s' G'.
Proof. clear. intros [H1 H2] Hs. split; [done|]. intros l Hl. apply H2. intros H. by apply Hl, Hs. Qed.
Lemma map_set_eq s l k v m : hp s !! l = Some (CMap m) -> map_set l k v s = (St (<[l := CMap (<[k := v]> m)]> (hp s)) (nxt s) (froms s) (tick s), Ok tt).
Proof. clear. intros H. unfold map_set, Heap.mbind, mheap, write. by rewrite (hmap_eq _ _ _ H). Qed.

(** ** steps of a path *)
Definition step_text (t : step) : string := join "[" (t.1 :: map index_text t.2).
Lemma step_split t : plain_step t -> split (step_text t) "[" = t.1 :: map index_text t.2.
Proof.
  intros [(_ & Hk & _) _]. unfold step_text. apply (split_join_chr "["%char); [done|]. apply Forall_cons. split.
  - rewrite free_of_str_in. unfold chr. by rewrite Hk.
  - apply Forall_map, Forall_forall. intros i _. unfold index_text. rewrite free_of_app. rewrite (str_all_free is_digit) by (done || apply itoa_nat_digits). done.
Qed.

Lemma merged_nil o : merged [] o = o.
Proof. clear. unfold merged. cbn [app]. induction o as [|kv o IH]; [done|]. rewrite filter_cons, decide_True by done. by rewrite IH. Qed.
Lemma splits_ok ρ : forall b s l kvs F v tv Fv, ok_st s -> owns (hp s) (VMap l) (TObj kvs) F -> owns (hp s) v tv Fv -> F ## Fv -> ρ <> [] -> Forall plain_step ρ ->
  (b = true -> Forall (fun t => step_text t <> "$") (tail ρ)) -> (b = false -> Forall (fun t => step_text t <> "$") ρ) ->
  forall r, save_splits W b l (map step_text ρ) v s = r ->
  match put kvs ρ tv with
  | Done t => r.2 = Ok tt /\ exists F', owns (hp r.1) (VMap l) t F' /\ from s (F ∪ Fv) F' /\ stays s r.1 (F ∪ Fv)
  | Fails => r.2 = Err
  | Crashes => r.2 = Panic
  end.
Proof.
  induction ρ as [|[k is] ρ IH]; intros b s l kvs F v tv Fv Hs Ho Hv Hd Hne Hp Hb1 Hb0 r Hr; [done|]. clear Hne.
  apply Forall_cons in Hp as [Hk Hp]. cbn [map save_splits] in Hr.
  assert (negb b && bool_decide (step_text (k, is) = "$") = false) as Hb.
  { destruct b; [done|]. cbn. apply bool_decide_eq_false. specialize (Hb0 eq_refl). by inversion Hb0. }
  rewrite Hb in Hr. clear Hb.
  assert (Hdol : Forall (fun t => step_text t <> "$") ρ).
  { destruct b; [by apply Hb1|]. specialize (Hb0 eq_refl). by inversion Hb0. }
  clear Hb1 Hb0. pose proof (step_split _ Hk) as Hsp. cbn [fst snd] in Hsp.
  destruct (map_focus _ _ _ _ k Ho) as (m & F1 & F2 & Hl & Hn1 & Hn2 & Hd12 & -> & Hmk & Hlive & Hc).
  assert (Hlv : forall x, x ∈ Fv -> is_Some (hp s !! x)) by (intros x Hx; by eapply owns_live).
  assert (HlFv : l ∉ Fv). { intros H. apply (Hd l); [|done]. apply elem_of_union_l. by apply elem_of_singleton. }
  assert (HF1v : F1 ## Fv). { intros x Hx H. apply (Hd x); [|done]. apply elem_of_union_r. by apply elem_of_union_l. }
  assert (Hll : l < nxt s) by (apply Hs; by rewrite Hl).
  destruct is as [|i is].
  - (* a member *)
    assert (step_text (k, []) = k) as Hkk by done. rewrite Hkk in *. destruct ρ as [|st2 ρ].
    + (* the last *)
      cbn [map] in Hr. unfold save_leaf in Hr. rewrite Hsp in Hr. cbn [map] in Hr. rewrite (map_set_eq _ _ _ _ _ Hl) in Hr. subst r. cbn [put fst snd]. split; [done|].
      eapply close_map; try done; cbn [hp].
      * by rewrite lookup_insert.
      * apply stays_write; [done|by rewrite Hl|]. apply elem_of_union_l. by apply elem_of_singleton.
      * eapply owns_frame; [done|]. intros x Hx. rewrite lookup_insert_ne; [done|]. by intros ->.
      * intros x Hx. left. by apply elem_of_union_r.
    + cbn [map] in Hr. change (step_text st2 :: map step_text ρ) with (map step_text (st2 :: ρ)) in Hr. rewrite Hsp in Hr. cbn [map] in Hr.
      unfold Heap.mbind at 1, mheap at 1 in Hr. rewrite (hmap_eq _ _ _ Hl) in Hr.
      change (put kvs ((k, []) :: st2 :: ρ) tv) with (match member k kvs with
        | None | Some (TS SNil) => then_ (put [] (st2 :: ρ) tv) (fun t => TObj (set_member k t kvs))
        | Some (TObj o) => then_ (put o (st2 :: ρ) tv) (fun t => TObj (set_member k t kvs))
        | Some _ => Fails end).
      set (rest := st2 :: ρ) in *.
      (* going on in the map [nt] *)
      assert (Hgo : forall nt o s2 Fn, save_splits W false nt (map step_text rest) v s2 = r -> hp s2 !! l = Some (CMap (<[k := VMap nt]> m)) -> stays s s2 {[l]} ->
        owns (hp s2) (VMap nt) (TObj o) Fn -> (forall x, x ∈ Fn -> x ∈ F1 \/ hp s !! x = None) ->
        match then_ (put o rest tv) (fun t => TObj (set_member k t kvs)) with
        | Done t => r.2 = Ok tt /\ exists F', owns (hp r.1) (VMap l) t F' /\ from s ({[l]} ∪ (F1 ∪ F2) ∪ Fv) F' /\ stays s r.1 ({[l]} ∪ (F1 ∪ F2) ∪ Fv)
        | Fails => r.2 = Err | Crashes => r.2 = Panic end).
      { intros nt o s2 Fn Hr2 Hl2 Hst Hon HFn.
        assert (Hvs2 : owns (hp s2) v tv Fv). { eapply owns_frame; [done|]. eapply stays_agree; [done| |done]. intros x Hx ->%elem_of_singleton. done. }
        assert (HdFn : Fn ## Fv). { intros x Hx Hx'. destruct (HFn x Hx) as [H|H]; [by apply (HF1v x)|]. specialize (Hlv x Hx'). rewrite H in Hlv. by destruct Hlv. }
        assert (HlFn : l ∉ Fn). { intros Hx. destruct (HFn l Hx) as [H|H]; [done|congruence]. }
        specialize (IH false s2 nt o Fn v tv Fv ltac:(by destruct Hst) Hon Hvs2 HdFn ltac:(done) Hp ltac:(done) ltac:(done) r Hr2).
        destruct (put o rest tv) as [t| |]; cbn [then_]; try done. destruct IH as (Hok & F' & Ho' & Hfr & Hst').
        split; [done|]. eapply close_map; try done.
        - destruct Hst' as [_ Hst']. rewrite Hst'; [done| |by rewrite Hl2]. intros [H|H]%elem_of_union; done.
        - eapply stays_trans; [eapply stays_mono; [exact Hst|apply union_subseteq_l]|exact Hst'|]. intros x [H|H]%elem_of_union.
          + destruct (HFn x H) as [H'|H']; [left|by right]. apply elem_of_union_r. by apply elem_of_union_l.
          + left. apply elem_of_union_r. by apply elem_of_union_r.
        - intros x Hx. destruct (Hfr x Hx) as [[H|H]%elem_of_union|H].
          + destruct (HFn x H) as [H'|H']; [left; by apply elem_of_union_l|by right].
          + left. by apply elem_of_union_r.
          + destruct (decide (x = l)) as [->|Nx]; [congruence|]. right. apply eq_None_not_Some. intros Hsm. destruct Hst as [_ Hst]. rewrite Hst in H by (done || by rewrite elem_of_singleton). rewrite H in Hsm. by destruct Hsm. }
      assert (Hnew : forall nt, nt = nxt s -> match alloc (CMap ∅) s with (s', Ok a) => (map_set l k (VMap a) ;;; save_splits W false a (map step_text rest) v) s' | (s', Err) => (s', Err) | (s', Panic) => (s', Panic) end = r ->
        match then_ (put [] rest tv) (fun t => TObj (set_member k t kvs)) with
        | Done t => r.2 = Ok tt /\ exists F', owns (hp r.1) (VMap l) t F' /\ from s ({[l]} ∪ (F1 ∪ F2) ∪ Fv) F' /\ stays s r.1 ({[l]} ∪ (F1 ∪ F2) ∪ Fv)
        | Fails => r.2 = Err | Crashes => r.2 = Panic end).
      { intros nt Hnt Hr2. unfold alloc in Hr2. rewrite <- Hnt in Hr2. set (s0 := St (<[nt := CMap ∅]> (hp s)) (S nt) (froms s) (tick s)) in *.
        pose proof (stays_alloc s (CMap ∅) ∅ Hs) as Hst0. rewrite <- Hnt in Hst0. fold s0 in Hst0.
        assert (Hfresh : hp s !! nt = None). { apply eq_None_not_Some. intros H. apply Hs in H. lia. }
        assert (Hl0 : hp s0 !! l = Some (CMap m)) by (unfold s0; cbn; rewrite lookup_insert_ne; [done|lia]).
        unfold Heap.mbind in Hr2. rewrite (map_set_eq _ _ _ _ m Hl0) in Hr2. set (s2 := St _ _ _ _) in Hr2.
        assert (Hst2 : stays s0 s2 {[l]}). { apply stays_write; [by destruct Hst0|by rewrite Hl0|by apply elem_of_singleton]. }
        eapply (Hgo nt [] s2 {[nt]}); [exact Hr2|cbn; by rewrite lookup_insert| | |].
        - eapply stays_trans; [eapply stays_mono; [exact Hst0|apply empty_subseteq]|exact Hst2|intros x Hx; by left].
        - replace ({[nt]} : gset nat) with ({[nt]} ∪ ∅ : gset nat) by apply (right_id_L ∅ (∪)). econstructor; [|constructor|apply not_elem_of_empty]. cbn. rewrite lookup_insert_ne by lia. by rewrite lookup_insert.
        - intros x ->%elem_of_singleton. by right. }
      destruct (m !! k) as [w|] eqn:Ek.
      * destruct Hmk as (t & -> & How). destruct w as [sc|l'|lo n|nn|nl].
        -- assert (t = TS sc) as -> by (by inversion How). destruct sc; try (subst r; done). unfold Heap.mbind at 1 in Hr. by eapply Hnew.
        -- assert (exists o, t = TObj o) as [o ->] by (inversion How; eauto). unfold Heap.mbind, mret in Hr. rewrite (map_set_eq _ _ _ _ _ Hl) in Hr. set (s2 := St _ _ _ _) in Hr.
           eapply (Hgo l' o s2 F1); [exact Hr|cbn; by rewrite lookup_insert| | |].
           ++ apply stays_write; [done|by rewrite Hl|by apply elem_of_singleton].
           ++ eapply owns_frame; [exact How|]. intros x Hx. cbn. rewrite lookup_insert_ne; [done|]. by intros ->.
           ++ intros x Hx. by left.
        -- assert (exists ts, t = TArr ts) as [ts ->] by (inversion How; eauto). subst r; done.
        -- assert (t = TNode nn) as -> by (by inversion How). subst r; done.
        -- assert (t = TNodes nl) as -> by (by inversion How). subst r; done.
      * destruct Hmk as [-> ->]. unfold Heap.mbind at 1 in Hr. by eapply Hnew.
  - (* an array *)
    assert (Hne : match map step_text ρ with [] => save_leaf W l (step_text (k, i :: is)) v | _ =>
        sv <-- get_slice l k ;; nt <-- alloc (CMap ∅) ;; nv <-- save_in_slice W sv (map index_text (i :: is)) (VMap nt) ;; map_set l k (slice_val nv) ;;; save_splits W false nt (map step_text ρ) v end s = r).
    { rewrite <- Hr. destruct ρ; [done|]. cbn [map]. rewrite Hsp. done. }
    clear Hr. rename Hne into Hr. destruct Hk as [_ Hk]. cbn [snd] in Hk.
    change (put kvs ((k, i :: is) :: ρ) tv) with (
      let at_ ts := then_ (match ρ with [] => Done (over tv (item_at i is ts)) | _ => put (members_of (item_at i is ts)) ρ tv end)
        (fun t => TObj (set_member k (TArr (set_item i is ts t)) kvs)) in
      match member k kvs with None => at_ [] | Some (TArr ts) => at_ ts | Some _ => Crashes end).
    cbv zeta.
    assert (Hgo : forall a n ts, get_slice l k s = (s, Ok (a, n)) -> owns (hp s) (VArr a n) (TArr ts) F1 ->
      match then_ (match ρ with [] => Done (over tv (item_at i is ts)) | _ => put (members_of (item_at i is ts)) ρ tv end)
        (fun t => TObj (set_member k (TArr (set_item i is ts t)) kvs)) with
      | Done t => r.2 = Ok tt /\ exists F', owns (hp r.1) (VMap l) t F' /\ from s ({[l]} ∪ (F1 ∪ F2) ∪ Fv) F' /\ stays s r.1 ({[l]} ∪ (F1 ∪ F2) ∪ Fv)
      | Fails => r.2 = Err | Crashes => r.2 = Panic end).
    { intros a n ts Hg Hoa. clear Hmk. destruct ρ as [|st2 ρ].
      - clear IH. cbn [map] in Hr. unfold save_leaf in Hr. rewrite Hsp in Hr. cbn [map] in Hr. unfold Heap.mbind at 1 in Hr. rewrite Hg in Hr.
        destruct (slice_ok is i s a n v tv Fv ts F1 Hs Hoa Hv HF1v Hk) as (s1 & a1 & n1 & vF & G & He & Hv1 & HvG & Hfr & Hst & Hcl).
        unfold Heap.mbind in Hr. cbn [map] in He. rewrite He in Hr.
        assert (Hl1 : hp s1 !! l = Some (CMap m)). { destruct Hst as [_ Hst]. rewrite Hst; [done| |by rewrite Hl]. intros [H|H]%elem_of_union; done. }
        assert (HlG : l ∉ vF ∪ G). { intros H. destruct (Hfr l H) as [[H'|H']%elem_of_union|H']; [done|done|congruence]. }
        rewrite (map_set_eq _ _ _ _ _ Hl1) in Hr. subst r. cbn [then_ fst snd]. split; [done|]. eapply close_map; try done; cbn [hp].
        + by rewrite lookup_insert.
        + eapply stays_trans; [eapply stays_mono; [exact Hst|apply union_subseteq_r]| |intros x Hx; by left].
          apply stays_write; [by destruct Hst|by rewrite Hl1|]. apply elem_of_union_l. by apply elem_of_singleton.
        + eapply owns_frame; [apply (Hcl (hp s1)); [by intros ? ?|exact Hv1|done]|]. intros x Hx. cbn. rewrite lookup_insert_ne; [done|]. by intros ->.

      - cbn [map] in Hr. change (step_text st2 :: map step_text ρ) with (map step_text (st2 :: ρ)) in Hr. set (rest := st2 :: ρ) in *.
        unfold Heap.mbind at 1 in Hr. rewrite Hg in Hr. unfold Heap.mbind at 1, alloc at 1 in Hr. set (nt := nxt s) in *.
        set (s0 := St (<[nt := CMap ∅]> (hp s)) (S nt) (froms s) (tick s)) in *.
        assert (Hnt : hp s !! nt = None). { apply eq_None_not_Some. intros H. apply Hs in H. unfold nt in H. lia. }
        pose proof (stays_alloc s (CMap ∅) ∅ Hs) as Hst0. fold nt in Hst0. fold s0 in Hst0.
        assert (Hag0 : forall F0, (forall x, x ∈ F0 -> is_Some (hp s !! x)) -> agree F0 (hp s) (hp s0)). { intros F0 H. eapply stays_agree; [exact Hst0| |done]. apply disjoint_empty_r. }
        assert (Hoa0 : owns (hp s0) (VArr a n) (TArr ts) F1). { eapply owns_frame; [done|]. apply Hag0. intros x Hx. by eapply owns_live. }
        assert (Hnt0 : owns (hp s0) (VMap nt) (TObj []) {[nt]}).
        { replace ({[nt]} : gset nat) with ({[nt]} ∪ ∅ : gset nat) by apply (right_id_L ∅ (∪)). econstructor; [|constructor|apply not_elem_of_empty]. cbn. by rewrite lookup_insert. }
        assert (HntF1 : nt ∉ F1). { intros H. pose proof (owns_live _ _ _ _ _ Hoa H) as [c Hcx]. congruence. }
        assert (HntFv : nt ∉ Fv). { intros H. destruct (Hlv nt H) as [c Hcx]. congruence. }
        destruct (slice_ok is i s0 a n (VMap nt) (TObj []) {[nt]} ts F1) as (s1 & a1 & n1 & vF & G & He & Hv1 & HvG & Hfr & Hst & Hcl); [by destruct Hst0|done|done| |done|].
        { intros x Hx ->%elem_of_singleton. done. }
        unfold Heap.mbind in Hr. cbn [map] in He. rewrite He in Hr.
        assert (Hfar : forall x, x ∈ vF ∪ G -> x ∈ F1 \/ hp s !! x = None).
        { intros x H. destruct (Hfr x H) as [[H'| ->%elem_of_singleton]%elem_of_union|H']; [by left|by right|right]. cbn in H'. by apply lookup_insert_None in H' as [? _]. }
        assert (HlG : l ∉ vF ∪ G). { intros H. destruct (Hfar l H) as [H'|H']; [done|congruence]. }
        assert (HvG' : forall x, x ∈ vF ∪ G -> x ∉ Fv). { intros x H Hx. destruct (Hfar x H) as [H'|H']; [by apply (HF1v x)|]. destruct (Hlv x Hx) as [c Hcx]. congruence. }
        assert (Hst01 : stays s s1 F1).
        { eapply stays_trans; [eapply stays_mono; [exact Hst0|apply empty_subseteq]|exact Hst|]. intros x [H| ->%elem_of_singleton]%elem_of_union; [by left|by right]. }
        assert (Hl1 : hp s1 !! l = Some (CMap m)). { destruct Hst01 as [_ Hst']. rewrite Hst'; [done|done|by rewrite Hl]. }
        rewrite (map_set_eq _ _ _ _ _ Hl1) in Hr. set (s2 := St _ _ _ _) in Hr.
        assert (Hst12 : stays s1 s2 {[l]}). { apply stays_write; [by destruct Hst|by rewrite Hl1|by apply elem_of_singleton]. }
        assert (Hv2 : owns (hp s2) (VMap nt) (TObj (members_of (item_at i is ts))) vF).
        { assert (over (TObj []) (item_at i is ts) = TObj (members_of (item_at i is ts))) as <-.
          { destruct (item_at i is ts); try done. cbn [over members_of]. by rewrite merged_nil. }
          eapply owns_frame; [exact Hv1|]. eapply stays_agree; [exact Hst12| |intros x Hx; by eapply owns_live]. intros x Hx ->%elem_of_singleton. apply HlG. by apply elem_of_union_l. }
        assert (Hvv : owns (hp s2) v tv Fv).
        { eapply owns_frame; [exact Hv|]. intros x Hx. destruct Hst12 as [_ Hst12], Hst01 as [_ Hst01]. assert (x ∉ F1) by (intros H; by apply (HF1v x)).
          rewrite Hst12; [by apply Hst01; [|apply Hlv]| |rewrite Hst01; [by apply Hlv|done|by apply Hlv]]. rewrite elem_of_singleton. by intros ->. }
        assert (Hdv : vF ## Fv). { intros x Hx. apply HvG'. by apply elem_of_union_l. }
        specialize (IH false s2 nt _ vF v tv Fv ltac:(by destruct Hst12) Hv2 Hvv Hdv ltac:(done) Hp ltac:(done) ltac:(done) r Hr).
        change (match rest with [] => Done (over tv (item_at i is ts)) | _ :: _ => put (members_of (item_at i is ts)) rest tv end) with (put (members_of (item_at i is ts)) rest tv).
        destruct (put (members_of (item_at i is ts)) rest tv) as [t| |]; cbn [then_]; try done. destruct IH as (Hok & F' & Ho' & Hfr' & Hst').
        assert (HGl : forall x, x ∈ G -> is_Some (hp s1 !! x)).
        { intros x Hx. eapply owns_live; [eapply (Hcl (hp s1)); [by intros ? ?|exact Hv1|exact HvG]|]. by apply elem_of_union_r. }
        assert (Hfar2 : forall x, x ∈ F' -> (x ∈ vF \/ x ∈ Fv) \/ hp s1 !! x = None).
        { intros x Hx. destruct (Hfr' x Hx) as [[H|H]%elem_of_union|H]; [by left; left|by left; right|right]. cbn in H. by apply lookup_insert_None in H as [? _]. }
        split; [done|]. eapply close_map; try done.
        + destruct Hst' as [_ Hst']. rewrite Hst'; [cbn; by rewrite lookup_insert| |cbn; by rewrite lookup_insert]. intros [H|H]%elem_of_union; [|done]. apply HlG. by apply elem_of_union_l.
        + eapply stays_trans; [|exact Hst'|].
          * eapply stays_trans; [eapply stays_mono; [exact Hst01|]|exact Hst12|].
            -- intros x Hx. apply elem_of_union_r. by apply elem_of_union_l.
            -- intros x Hx. left. by apply elem_of_union_l.
          * intros x [H|H]%elem_of_union.
            -- destruct (Hfar x (elem_of_union_l _ _ _ H)) as [H'|H']; [left|by right]. apply elem_of_union_r. by apply elem_of_union_l.
            -- left. apply elem_of_union_r. by apply elem_of_union_r.
        + apply Hcl; [|exact Ho'|].
          * intros x Hx. assert (x <> l) as Hxl by (intros ->; apply HlG; by apply elem_of_union_r). assert (x ∉ vF ∪ Fv) as Hxn.
            { intros [H|H]%elem_of_union; [by apply (HvG x)|]. by apply (HvG' x (elem_of_union_r _ _ _ Hx)). }
            assert (hp s2 !! x = hp s1 !! x) as <- by (cbn; by rewrite lookup_insert_ne). destruct Hst' as [_ Hst']. apply Hst'; [done|]. cbn. rewrite lookup_insert_ne by done. by apply HGl.
          * intros x Hx Hx'. destruct (Hfar2 x Hx) as [[H|H]|H]; [by apply (HvG x)|by apply (HvG' x (elem_of_union_r _ _ _ Hx'))|]. destruct (HGl x Hx'). congruence.
        + intros x [Hx|Hx]%elem_of_union.
          * destruct (Hfar2 x Hx) as [[H|H]|H].
            -- destruct (Hfar x (elem_of_union_l _ _ _ H)) as [H'|H']; [left; by apply elem_of_union_l|by right].
            -- left. by apply elem_of_union_r.
            -- destruct (decide (x ∈ F1)) as [HxF|HxF]; [left; by apply elem_of_union_l|right]. apply eq_None_not_Some. intros Hsm. destruct Hst01 as [_ Hst01]. rewrite Hst01 in H by done. rewrite H in Hsm. by destruct Hsm.
          * destruct (Hfar x (elem_of_union_r _ _ _ Hx)) as [H'|H']; [left; by apply elem_of_union_l|by right]. }
    destruct (m !! k) as [w|] eqn:Ek.
    + destruct Hmk as (t & Ht & How). rewrite Ht. destruct w as [sc|l'|lo n|nn|nl].
      3: { assert (exists ts, t = TArr ts) as [ts ->] by (inversion How; eauto). eapply Hgo; [|exact How]. unfold get_slice, Heap.mbind, mheap. by rewrite (hmap_eq _ _ _ Hl), Ek. }
      all: assert (Hcr : get_slice l k s = (s, Panic)) by (unfold get_slice, Heap.mbind, mheap; by rewrite (hmap_eq _ _ _ Hl), Ek).
      all: assert (Hrp : r.2 = Panic) by (rewrite <- Hr; destruct (map step_text ρ); [unfold save_leaf; rewrite Hsp; cbn [map]|]; unfold Heap.mbind at 1; by rewrite Hcr).
      all: by inversion How; subst.
    + destruct Hmk as [-> ->]. eapply Hgo; [|constructor]. unfold get_slice, Heap.mbind, mheap. by rewrite (hmap_eq _ _ _ Hl), Ek.
Qed.

Lemma segs_app a b : segs (a ++ b) = segs a +:+ segs b.
Proof. clear. induction a as [|[k| |i] a IH]; cbn [app segs]; [done| | |]; rewrite IH, !app_assoc_s; done. Qed.
Lemma step_text_segs k is : step_text (k, is) = k +:+ segs (map Ix is).
Proof.
  clear. unfold step_text. cbn [fst snd]. revert k. induction is as [|i is IH]; intros k; [cbn; by rewrite sapp_nil_r|].
  change (map index_text (i :: is)) with (index_text i :: map index_text is). rewrite join_cons by done. rewrite IH. cbn [map segs]. unfold index_str, index_text. by rewrite !app_assoc_s.
Qed.
Lemma segs_step t ρ : segs (steps_path (t :: ρ)) = "." +:+ step_text t +:+ segs (steps_path ρ).
Proof. clear. destruct t as [k is]. unfold steps_path. cbn [map List.concat fst snd]. rewrite segs_app. cbn [segs]. rewrite step_text_segs. by rewrite !app_assoc_s. Qed.
Lemma path_split ρ : Forall plain_step ρ -> split (path_of (steps_path ρ)) "." = "$" :: map step_text ρ.
Proof.
  intros Hp. rewrite <- (split_join_chr "."%char ("$" :: map step_text ρ)); [|done|].
  - f_equal. unfold path_of. change (chr "."%char) with ".". rewrite (join_dot_cons "$" (map step_text ρ)). f_equal. clear. induction ρ as [|t ρ IH]; [done|]. rewrite segs_step, IH. done.
  - constructor; [done|]. apply Forall_map. eapply Forall_impl; [exact Hp|]. intros [k is] [(Hk & _) _]. rewrite step_text_segs, free_of_app. apply andb_true_iff. split.
    + rewrite free_of_str_in. unfold chr. cbn [fst] in Hk. by rewrite Hk.
    + clear. induction is as [|i is IH]; [done|]. cbn [map segs]. unfold index_str. rewrite !free_of_app, IH. rewrite (str_all_free is_digit _ (itoa (Z.of_nat i))) by (done || apply itoa_nat_digits). done.
Qed.

Theorem put_thm ρ v s l kvs F tv Fv : plain_steps ρ -> v <> VS SNil -> ok_st s -> owns (hp s) (VMap l) (TObj kvs) F -> owns (hp s) v tv Fv -> F ## Fv ->
  let r := save_in_tree W l (path_of (steps_path ρ)) v s in
  match put kvs ρ tv with
  | Done t => r.2 = Ok tt /\ (exists F', owns (hp r.1) (VMap l) t F') /\ forall x, x ∉ F ∪ Fv -> is_Some (hp s !! x) -> hp r.1 !! x = hp s !! x
  | Fails => r.2 = Err
  | Crashes => r.2 = Panic
  end.
Proof.
  intros (Hne & Hp & Hd) Hv Hs Ho Hov HF. cbv zeta. unfold save_in_tree. assert (vnil v = false) as -> by (destruct v as [[]| | | |]; done).
  rewrite path_split by done.
  change (save_splits W false l ("$" :: map step_text ρ) v s) with (match map step_text ρ with [] => mpanic | _ => save_splits W true l (map step_text ρ) v end s).
  destruct ρ as [|t ρ]; [done|]. change (match map step_text (t :: ρ) with [] => mpanic | _ => save_splits W true l (map step_text (t :: ρ)) v end) with (save_splits W true l (map step_text (t :: ρ)) v).
  pose proof (splits_ok (t :: ρ) true s l kvs F v tv Fv Hs Ho Hov HF Hne Hp) as H. specialize (H).
  assert (Hds : Forall (fun t => step_text t <> "$") (tail (t :: ρ))).
  { cbn [tail] in *. apply Forall_forall. intros [k is] Hin He. rewrite Forall_forall in Hd. specialize (Hd _ Hin). cbn in Hd. rewrite step_text_segs in He.
    apply Forall_cons in Hp as [_ Hp]. rewrite Forall_forall in Hp. destruct (Hp _ Hin) as [(_ & _ & Hk) _]. cbn [fst] in Hk.
    destruct k as [|c k]; [done|]. rewrite sapp_cons in He. injection He as -> He. destruct k; [by destruct Hd|by rewrite sapp_cons in He]. }
  specialize (H ltac:(done) ltac:(done) _ eq_refl). destruct (put kvs (t :: ρ) tv); try done. destruct H as (H1 & F' & H2 & _ & _ & H3). split_and!; [done|by exists F'|done].
Qed.
End put.

(** ** reading after saving *)
Lemma get_app t a b : get t (a ++ b) = match get t a with Some x => get x b | None => None end.
Proof.
  revert t. induction a as [|[k| |i] a IH]; intros t; [done| |done|]; cbn [app get].
  - destruct t; try done. destruct (member k kvs); [apply IH|done].
  - destruct t; try done. destruct (l !! i); [apply IH|done].
Qed.
Lemma member_set k k' t kvs : member k' (set_member k t kvs) = if decide (k = k') then Some t else member k' kvs.
Proof.
  induction kvs as [|[j u] kvs IH]; cbn; [done|]. destruct (decide (j = k)) as [->|N]; cbn.
  - by destruct (decide (k = k')).
  - rewrite IH. destruct (decide (j = k')) as [->|]; [by rewrite decide_False|done].
Qed.
Lemma item_at_get is : forall i ts, item_at i is ts = default null (get (TArr ts) (map Ix (i :: is))).
Proof.
  induction is as [|j is IH]; intros i ts; cbn [map item_at get]; [by destruct (ts !! i)|].
  rewrite IH. destruct (ts !! i) as [x|]; [|cbn; by rewrite lookup_nil]. cbn [default map get]. destruct x; cbn [items_of]; rewrite ?lookup_nil; done.
Qed.
Lemma padded_lookup i j ts x : padded i ts !! j = Some x -> ts !! j = Some x \/ (ts !! j = None /\ x = null).
Proof.
  unfold padded. intros [H|[H1 H2]]%lookup_app_Some; [by left|right]. split; [by apply lookup_ge_None_2|]. by apply lookup_replicate in H2 as [-> _].
Qed.
Lemma padded_keeps i j ts x : ts !! j = Some x -> padded i ts !! j = Some x.
Proof. intros H. unfold padded. by apply lookup_app_l_Some. Qed.
Lemma padded_length i ts : i < length (padded i ts).
Proof. unfold padded. rewrite app_length, replicate_length. lia. Qed.
Lemma get_set_item is : forall i ts t, get (TArr (set_item i is ts t)) (map Ix (i :: is)) = Some t.
Proof.
  induction is as [|j is IH]; intros i ts t; cbn [map get set_item]; rewrite list_lookup_insert by apply padded_length; [done|]. apply IH.
Qed.
Lemma get_null τ x : get null τ = Some x -> τ = [] /\ x = null.
Proof. destruct τ as [|[]]; [by intros [= <-]|done..]. Qed.
Lemma get_nil_arr τ x : τ <> [] -> get (TArr []) τ <> Some x.
Proof. destruct τ as [|[]]; done. Qed.
Lemma get_nil_obj τ x : τ <> [] -> get (TObj []) τ <> Some x.
Proof. destruct τ as [|[]]; done. Qed.
Lemma part_cons a b ρ τ : part_at (a :: ρ) (b :: τ) -> (a = b /\ part_at ρ τ) \/ (exists j k, a = Nm j /\ b = Nm k /\ j <> k) \/ (exists i j, a = Ix i /\ b = Ix j /\ i <> j).
Proof.
  intros (π & a' & b' & ρ' & τ' & H1 & H2 & H3). destruct π as [|c π]; cbn in H1, H2; simplify_eq.
  - right. destruct H3; eauto.
  - left. split; [done|]. by exists π, a', b', ρ', τ'.
Qed.
Lemma part_nil_l τ : ~ part_at [] τ.
Proof. intros (π & a' & b' & ρ' & τ' & H1 & _). by destruct π. Qed.
Lemma part_nil_r ρ : ~ part_at ρ [].
Proof. intros (π & a' & b' & ρ' & τ' & _ & H1 & _). by destruct π. Qed.
Definition kept (old new : option tree) : Prop := new = old \/ (old = None /\ new = Some null).
Lemma set_item_kept is : forall i ts t σ τ, part_at (map Ix (i :: is) ++ σ) τ ->
  (forall τ', part_at σ τ' -> kept (get (item_at i is ts) τ') (get t τ')) -> kept (get (TArr ts) τ) (get (TArr (set_item i is ts t)) τ).
Proof.
  induction is as [|j is IH]; intros i ts t σ τ Hp Hk; (destruct τ as [|b τ]; [by apply part_nil_r in Hp|]); cbn [map app] in Hp; apply part_cons in Hp as [[<- Hp]|[(?&?&?&_)|(i' & i2 & [= <-] & -> & Hne)]]; try done; cbn [get set_item].
  all: try (rewrite list_lookup_insert by apply padded_length).
  - specialize (Hk _ Hp). cbn [item_at] in Hk. destruct (ts !! i); [done|]. cbn [default] in Hk. destruct Hk as [Hk|Hk].
    + destruct (get null τ) eqn:E; [|by left]. apply get_null in E as [-> _]. by apply part_nil_r in Hp.
    + destruct Hk. by right.
  - rewrite list_lookup_insert_ne by done. destruct (ts !! i2) as [y|] eqn:E; [by rewrite (padded_keeps _ _ _ _ E); left|].
    destruct (padded i ts !! i2) as [y|] eqn:E2; [|by left]. apply padded_lookup in E2 as [E2|[_ ->]]; [congruence|]. destruct (get null τ) eqn:E3; [|by left]. apply get_null in E3 as [-> ->]. by right.
  - specialize (IH j (items_of (default null (ts !! i))) t σ τ Hp Hk).
    assert (get (TArr (items_of (default null (ts !! i)))) τ = match ts !! i with Some t' => get t' τ | None => None end) as <-; [|done].
    destruct τ as [|b τ]; [by apply part_nil_r in Hp|]. assert (exists k, b = Ix k) as [k ->].
    { apply part_cons in Hp as [[<- _]|[(?&?&?&_)|(? & ? & _ & -> & _)]]; [eauto|done|eauto]. }
    destruct (ts !! i) as [[]|]; done.
  - rewrite list_lookup_insert_ne by done. destruct (ts !! i2) as [y|] eqn:E; [by rewrite (padded_keeps _ _ _ _ E); left|].
    destruct (padded i ts !! i2) as [y|] eqn:E2; [|by left]. apply padded_lookup in E2 as [E2|[_ ->]]; [congruence|]. destruct (get null τ) eqn:E3; [|by left]. apply get_null in E3 as [-> ->]. by right.
Qed.
Lemma steps_cons k is ρ : steps_path ((k, is) :: ρ) = Nm k :: map Ix is ++ steps_path ρ.
Proof. done. Qed.
Lemma put_index kvs k i is ρ v : put kvs ((k, i :: is) :: ρ) v =
  match (match member k kvs with None => Some [] | Some (TArr ts) => Some ts | Some _ => None end) with
  | Some ts => then_ (match ρ with [] => Done (over v (item_at i is ts)) | _ => put (members_of (item_at i is ts)) ρ v end) (fun t => TObj (set_member k (TArr (set_item i is ts t)) kvs))
  | None => Crashes end.
Proof. change (put kvs ((k, i :: is) :: ρ) v) with (
      let at_ ts := then_ (match ρ with [] => Done (over v (item_at i is ts)) | _ => put (members_of (item_at i is ts)) ρ v end)
        (fun t => TObj (set_member k (TArr (set_item i is ts t)) kvs)) in
      match member k kvs with None => at_ [] | Some (TArr ts) => at_ ts | Some _ => Crashes end). cbv zeta. by destruct (member k kvs) as [[]|]. Qed.
Lemma put_name kvs k st ρ v : put kvs ((k, []) :: st :: ρ) v =
  match (match member k kvs with None | Some (TS SNil) => Some [] | Some (TObj o) => Some o | Some _ => None end) with
  | Some o => then_ (put o (st :: ρ) v) (fun t => TObj (set_member k t kvs))
  | None => Fails end.
Proof. change (put kvs ((k, []) :: st :: ρ) v) with (match member k kvs with
        | None | Some (TS SNil) => then_ (put [] (st :: ρ) v) (fun t => TObj (set_member k t kvs))
        | Some (TObj o) => then_ (put o (st :: ρ) v) (fun t => TObj (set_member k t kvs))
        | Some _ => Fails end). by destruct (member k kvs) as [[[]| | | |]|]. Qed.
(** a path that parts from one that begins with a name (an index) begins with a name (an index) *)
Lemma part_steps ρ τ : part_at (steps_path ρ) τ -> exists k τ', τ = Nm k :: τ'.
Proof.
  destruct ρ as [|[k is] ρ]; [by intros H%part_nil_l|]. rewrite steps_cons. destruct τ as [|b τ]; [by intros H%part_nil_r|].
  intros [[<- _]|[(?&?&_&->&_)|(?&?&?&_)]]%part_cons; [eauto|eauto|done].
Qed.
Lemma part_items i is σ τ : part_at (map Ix (i :: is) ++ σ) τ -> exists k τ', τ = Ix k :: τ'.
Proof.
  destruct τ as [|b τ]; [by intros H%part_nil_r|]. intros [[<- _]|[(?&?&?&_)|(?&?&_&->&_)]]%part_cons; [eauto|done|eauto].
Qed.
Lemma put_kept ρ : forall kvs v t τ, put kvs ρ v = Done t -> part_at (steps_path ρ) τ -> kept (get (TObj kvs) τ) (get t τ).
Proof.
  induction ρ as [|[k is] ρ IH]; intros kvs v t τ Hput Hp; [done|]. rewrite steps_cons in Hp. destruct τ as [|b τ]; [by apply part_nil_r in Hp|].
  assert (Hs : exists u, t = TObj (set_member k u kvs) /\ (part_at (map Ix is ++ steps_path ρ) τ -> kept (match member k kvs with Some y => get y τ | None => None end) (get u τ))).
  { clear Hp. destruct is as [|i is].
    - destruct ρ as [|st ρ].
      + injection Hput as <-. eexists. split; [done|]. intros Hp. by apply part_nil_l in Hp.
      + rewrite put_name in Hput. destruct (match member k kvs with None | Some (TS SNil) => Some [] | Some (TObj o) => Some o | Some _ => None end) as [o|] eqn:Em; [|done].
        match type of Hput with then_ ?X _ = _ => destruct X as [u| |] eqn:E end; try done. cbn [then_] in Hput. injection Hput as <-. exists u. split; [done|]. intros Hp. specialize (IH _ _ _ _ E Hp). apply part_steps in Hp as (k2 & τ' & ->).
        destruct (member k kvs) as [[[]| | | |]|]; by simplify_eq.
    - rewrite put_index in Hput. destruct (match member k kvs with None => Some [] | Some (TArr ts) => Some ts | Some _ => None end) as [ts|] eqn:Em; [|done].
      match type of Hput with then_ ?X _ = _ => destruct X as [w| |] eqn:E end; try done. cbn [then_] in Hput. injection Hput as <-.
      eexists. split; [done|]. intros Hp.
      assert (Hk : kept (get (TArr ts) τ) (get (TArr (set_item i is ts w)) τ)).
      { eapply set_item_kept; [exact Hp|]. intros τ' Hp'. destruct ρ as [|st ρ]; [by apply part_nil_l in Hp'|]. specialize (IH _ _ _ _ E Hp'). apply part_steps in Hp' as (k2 & τ2 & ->).
        by destruct (item_at i is ts). }
      apply part_items in Hp as (i2 & τ' & ->). destruct (member k kvs) as [[]|]; by simplify_eq. }
  destruct Hs as (u & -> & Hs). apply part_cons in Hp as [[<- Hp]|[(?&k2&[= <-]&->&Hne)|(?&?&?&_)]]; [| |done]; cbn [get]; rewrite member_set.
  - rewrite decide_True by done. by apply Hs.
  - rewrite decide_False by done. by left.
Qed.

(** the value is read back *)
Lemma put_back ρ : forall kvs v t, put kvs ρ v = Done t -> exists w, get t (steps_path ρ) = Some w /\
  (w = v \/ exists new old, v = TObj new /\ get (TObj kvs) (steps_path ρ) = Some (TObj old) /\ w = TObj (merged new old)).
Proof.
  induction ρ as [|[k is] ρ IH]; intros kvs v t Hput; [done|]. rewrite steps_cons. destruct is as [|i is].
  - destruct ρ as [|st ρ].
    + injection Hput as <-. exists v. cbn. rewrite member_set, decide_True by done. split; [done|by left].
    + rewrite put_name in Hput. destruct (match member k kvs with None | Some (TS SNil) => Some [] | Some (TObj o) => Some o | Some _ => None end) as [o|] eqn:Em; [|done].
      match type of Hput with then_ ?X _ = _ => destruct X as [u| |] eqn:E end; try done. cbn [then_] in Hput. injection Hput as <-. destruct (IH _ _ _ E) as (w & Hw & Hc). exists w. cbn [map app get]. rewrite member_set, decide_True by done. split; [done|].
      destruct Hc as [->|(new & old & -> & Hg & ->)]; [by left|right]. exists new, old. split_and!; try done. rewrite <- Hg. destruct st as [k2 is2]. rewrite steps_cons in Hg |- *.
      destruct (member k kvs) as [[[]| | | |]|]; by simplify_eq.
  - rewrite put_index in Hput. destruct (match member k kvs with None => Some [] | Some (TArr ts) => Some ts | Some _ => None end) as [ts|] eqn:Em; [|done].
    match type of Hput with then_ ?X _ = _ => destruct X as [w| |] eqn:E end; try done. cbn [then_] in Hput. injection Hput as <-.
    assert (Hold : forall σ x, get (TArr ts) (map Ix (i :: is) ++ σ) = Some x -> get (TObj kvs) (Nm k :: map Ix (i :: is) ++ σ) = Some x).
    { intros σ x Hx. cbn [get]. destruct (member k kvs) as [[]|]; by simplify_eq. }
    cbn [get]. rewrite member_set, decide_True by done. rewrite get_app, get_set_item. destruct ρ as [|st ρ].
    + injection E as <-. exists (over v (item_at i is ts)). split; [done|]. destruct v as [| |new| |]; try (by left). rewrite item_at_get. destruct (get (TArr ts) (map Ix (i :: is))) as [x|] eqn:Eg; [|by left].
      destruct x as [| |old| |]; try (by left). right. exists new, old. split_and!; try done. apply Hold. by rewrite get_app, Eg.
    + destruct (IH _ _ _ E) as (x & Hx & Hc). exists x. split; [done|]. destruct Hc as [->|(new & old & -> & Hg & ->)]; [by left|right]. exists new, old. split_and!; try done.
      apply Hold. rewrite get_app. rewrite item_at_get in Hg. destruct st as [k2 is2]. rewrite steps_cons in Hg |- *. destruct (get (TArr ts) (map Ix (i :: is))) as [y|] eqn:Eg; [|done].
      change (default null (Some y)) with y in Hg. by destruct y.
Qed.

(** ** when saving fails or crashes *)
Lemma put_empty ρ v : ρ <> [] -> exists t, put [] ρ v = Done t.
Proof.
  induction ρ as [|[k is] ρ IH]; [done|]. intros _. destruct is as [|i is].
  - destruct ρ as [|st ρ]; [by eexists|]. rewrite put_name. cbn [member]. destruct (IH ltac:(done)) as [t Ht]. eexists. match goal with |- then_ ?X _ = _ => replace X with (Done t) by (symmetry; exact Ht) end. reflexivity.
  - rewrite put_index. cbn [member]. assert (members_of (item_at i is []) = []) as Hm. { rewrite item_at_get. cbn [map get]. by rewrite lookup_nil. }
    destruct ρ as [|st ρ]; [by eexists|]. rewrite Hm. destruct (IH ltac:(done)) as [t Ht]. eexists. match goal with |- then_ ?X _ = _ => replace X with (Done t) by (symmetry; exact Ht) end. reflexivity.
Qed.
Lemma stopped_nil P ρ : ~ stopped P [] ρ.
Proof. intros (ρ1 & k & is & ρ2 & w & _ & H & _). destruct ρ1 as [|[k1 is1] ρ1]; done. Qed.
Lemma stopped_cons P kvs k is ρ : stopped P kvs ((k, is) :: ρ) <->
  (exists w, member k kvs = Some w /\ P is ρ w) \/ (exists o, get (TObj kvs) (Nm k :: map Ix is) = Some (TObj o) /\ stopped P o ρ).
Proof.
  split.
  - intros (ρ1 & k' & is' & ρ2 & w & He & Hg & HP). destruct ρ1 as [|st ρ1]; cbn [app] in He.
    + injection He as <- <- <-. left. exists w. split; [|done]. cbn in Hg. destruct (member k kvs); [by injection Hg as ->|done].
    + injection He as <- ->. right. rewrite steps_cons in Hg. change (Nm k :: map Ix is ++ steps_path ρ1) with ((Nm k :: map Ix is) ++ steps_path ρ1) in Hg. rewrite <- app_assoc, get_app in Hg.
      destruct (get (TObj kvs) (Nm k :: map Ix is)) as [x|]; [|done]. assert (exists o, x = TObj o) as [o ->].
      { destruct ρ1 as [|[k1 is1] ρ1]; (destruct x; [done|done|eauto|done|done]). }
      exists o. split; [done|]. by exists ρ1, k', is', ρ2, w.
  - intros [(w & Hm & HP)|(o & Ho & ρ1 & k' & is' & ρ2 & w & -> & Hg & HP)].
    + exists [], k, is, ρ, w. split_and!; try done. cbn. by rewrite Hm.
    + exists ((k, is) :: ρ1), k', is', ρ2, w. split_and!; try done. rewrite steps_cons. change (Nm k :: map Ix is ++ steps_path ρ1) with ((Nm k :: map Ix is) ++ steps_path ρ1). rewrite <- app_assoc, get_app. by rewrite Ho.
Qed.
Lemma then_out X f (A B C : Prop) : match X with Done _ => A | Fails => B | Crashes => C end -> match then_ X f with Done _ => A | Fails => B | Crashes => C end.
Proof. by destruct X. Qed.
Lemma put_stops ρ : forall kvs v, ρ <> [] ->
  match put kvs ρ v with
  | Done _ => ~ stopped no_object kvs ρ /\ ~ stopped no_array kvs ρ
  | Fails => stopped no_object kvs ρ
  | Crashes => stopped no_array kvs ρ
  end.
Proof.
  induction ρ as [|[k is] ρ IH]; intros kvs v Hne; [done|]. clear Hne. destruct is as [|i is].
  - destruct ρ as [|st ρ].
    + cbn [put]. split; rewrite stopped_cons; intros [(w & _ & H)|(o & _ & (ρ1 & ? & ? & ? & ? & H & _))]; try (by destruct ρ1); [by destruct H as (_ & H & _)|by destruct H].
    + assert (Hc : forall o, (member k kvs = None \/ member k kvs = Some null \/ member k kvs = Some (TObj o)) -> (forall o', member k kvs = Some (TObj o') -> o' = o) -> (forall P, stopped P o (st :: ρ) -> member k kvs = Some (TObj o)) ->
        match put o (st :: ρ) v with
        | Done _ => ~ stopped no_object kvs ((k, []) :: st :: ρ) /\ ~ stopped no_array kvs ((k, []) :: st :: ρ)
        | Fails => stopped no_object kvs ((k, []) :: st :: ρ) | Crashes => stopped no_array kvs ((k, []) :: st :: ρ) end).
      { intros o Hm Hu Hs. specialize (IH o v ltac:(done)).
        assert (Hgo : forall P, stopped P o (st :: ρ) -> stopped P kvs ((k, []) :: st :: ρ)).
        { intros P HP. apply stopped_cons. right. exists o. split; [|done]. cbn. by rewrite (Hs P HP). }
        assert (Hback : forall P, (forall w, member k kvs = Some w -> ~ P [] (st :: ρ) w) -> ~ stopped P o (st :: ρ) -> ~ stopped P kvs ((k, []) :: st :: ρ)).
        { intros P HP HS. rewrite stopped_cons. intros [(w & Hw & Hpw)|(o' & Ho' & Hst)]; [by apply (HP w)|]. cbn in Ho'. destruct (member k kvs) as [y|] eqn:Ey; [|done]. injection Ho' as ->. by rewrite (Hu o') in Hst. }
        destruct (put o (st :: ρ) v); [|by apply Hgo..]. destruct IH as [H1 H2]. split; apply Hback; try done.
        - intros w Hw (_ & _ & Hw1 & Hw2). destruct Hm as [Hm|[Hm|Hm]]; rewrite Hw in Hm; simplify_eq. by apply (Hw2 o).
        - intros w Hw (H & _). done. }
      rewrite put_name. destruct (member k kvs) as [y|] eqn:Ey.
      * destruct y as [sc|a|o|n|n].
        2,4,5: apply stopped_cons; left; eexists; split; [exact Ey|]; split_and!; done.
        -- destruct sc; try (apply stopped_cons; left; eexists; split; [exact Ey|]; split_and!; done).
           apply then_out. apply (Hc []); [auto|done|]. intros P HP. by apply stopped_nil in HP.
        -- apply then_out. apply (Hc o); [auto|congruence|done].
      * apply then_out. apply (Hc []); [auto|done|]. intros P HP. by apply stopped_nil in HP.
  - rewrite put_index.
    assert (Hbad : forall w, member k kvs = Some w -> (forall ts, w <> TArr ts) -> stopped no_array kvs ((k, i :: is) :: ρ)).
    { intros w Hw Hn. apply stopped_cons. left. exists w. by split_and!. }
    assert (Hc : forall ts, (member k kvs = None /\ ts = [] \/ member k kvs = Some (TArr ts)) -> match then_ (match ρ with [] => Done (over v (item_at i is ts)) | _ => put (members_of (item_at i is ts)) ρ v end) (fun t => TObj (set_member k (TArr (set_item i is ts t)) kvs)) with
        | Done _ => ~ stopped no_object kvs ((k, i :: is) :: ρ) /\ ~ stopped no_array kvs ((k, i :: is) :: ρ)
        | Fails => stopped no_object kvs ((k, i :: is) :: ρ) | Crashes => stopped no_array kvs ((k, i :: is) :: ρ) end).
    { intros ts Hm. assert (Hit : forall o, get (TObj kvs) (Nm k :: map Ix (i :: is)) = Some (TObj o) <-> item_at i is ts = TObj o).
      { intros o. rewrite item_at_get. cbn [get]. destruct Hm as [[-> ->]| ->]; [cbn [map get]; by rewrite lookup_nil|]. destruct (get (TArr ts) (map Ix (i :: is))) as [y|]; [|done]. split; [by intros [= ->]|]. change (default null (Some y)) with y. by intros ->. }
      assert (Hback : forall P, (forall w, member k kvs = Some w -> ~ P (i :: is) ρ w) -> (forall o, item_at i is ts = TObj o -> ~ stopped P o ρ) -> ~ stopped P kvs ((k, i :: is) :: ρ)).
      { intros P HP HS. rewrite stopped_cons. intros [(w & Hw & Hpw)|(o' & Ho' & Hst)]; [by apply (HP w)|]. apply Hit in Ho'. by apply (HS o'). }
      assert (HP1 : forall w, member k kvs = Some w -> ~ no_object (i :: is) ρ w) by (by intros w _ [? _]).
      assert (HP2 : forall w, member k kvs = Some w -> ~ no_array (i :: is) ρ w). { intros w Hw [_ H]. destruct Hm as [[Hm _]|Hm]; rewrite Hw in Hm; simplify_eq. by apply (H ts). }
      destruct ρ as [|st ρ].
      - cbn [then_]. split; apply Hback; try done; intros o _ (ρ1 & ? & ? & ? & ? & H & _); by destruct ρ1.
      - specialize (IH (members_of (item_at i is ts)) v ltac:(done)).
        assert (Hgo : forall P, stopped P (members_of (item_at i is ts)) (st :: ρ) -> stopped P kvs ((k, i :: is) :: st :: ρ)).
        { intros P HP. apply stopped_cons. right. destruct (item_at i is ts) as [| |o| |] eqn:Ei; try (by apply stopped_nil in HP). exists o. split; [by apply Hit|done]. }
        apply then_out. match goal with |- match ?X with _ => _ end => set (x := X); change (match x with Done _ => ~ stopped no_object (members_of (item_at i is ts)) (st :: ρ) /\ ~ stopped no_array (members_of (item_at i is ts)) (st :: ρ) | Fails => stopped no_object (members_of (item_at i is ts)) (st :: ρ) | Crashes => stopped no_array (members_of (item_at i is ts)) (st :: ρ) end) in IH; destruct x end; [|by apply Hgo..]. destruct IH as [H1 H2].
        split; apply Hback; try done; intros o Ho; rewrite Ho in H1, H2; done. }
    destruct (member k kvs) as [y|] eqn:Ey.
    + destruct y as [sc|a|o|n|n]; try (by eapply Hbad). apply Hc. by right.
    + apply Hc. by left.
Qed.
Lemma stopped_once ρ : forall kvs, stopped no_object kvs ρ -> stopped no_array kvs ρ -> False.
Proof.
  induction ρ as [|[k is] ρ IH]; intros kvs; [intros (ρ1 & ? & ? & ? & ? & H & _); by destruct ρ1|]. rewrite !stopped_cons.
  intros [(w & Hw & -> & _ & _ & Hno)|(o & Ho & H1)] [(w' & Hw' & Hne & Hna)|(o' & Ho' & H2)].
  - done.
  - cbn in Ho'. rewrite Hw in Ho'. injection Ho' as ->. by apply (Hno o').
  - cbn [get] in Ho. rewrite Hw' in Ho. destruct is as [|i is]; [done|]. cbn [map get] in Ho. destruct w'; try done. by apply (Hna l).
  - rewrite Ho in Ho'. injection Ho' as <-. by apply (IH o).
Qed.
Theorem save_doc_thm W ρ v s l kvs F tv Fv : plain_steps ρ -> v <> VS SNil -> ok_st s -> owns (hp s) (VMap l) (TObj kvs) F -> owns (hp s) v tv Fv -> F ## Fv ->
  let r := save_in_tree W l (path_of (steps_path ρ)) v s in
  (stopped no_object kvs ρ -> r.2 = Err) /\
  (stopped no_array kvs ρ -> r.2 = Panic) /\
  (~ stopped no_object kvs ρ -> ~ stopped no_array kvs ρ -> r.2 = Ok tt /\
    (exists t F', owns (hp r.1) (VMap l) t F' /\
      (exists w, get t (steps_path ρ) = Some w /\
        (w = tv \/ exists new old, tv = TObj new /\ get (TObj kvs) (steps_path ρ) = Some (TObj old) /\ w = TObj (merged new old))) /\
      (forall τ, part_at (steps_path ρ) τ -> get t τ = get (TObj kvs) τ \/ (get (TObj kvs) τ = None /\ get t τ = Some null))) /\
    (forall x, x ∉ F ∪ Fv -> is_Some (hp s !! x) -> hp r.1 !! x = hp s !! x)).
Proof.
  intros Hp Hv Hs Ho Hov HF. pose proof (put_thm W ρ v s l kvs F tv Fv Hp Hv Hs Ho Hov HF) as H. cbv zeta in *. destruct Hp as (Hne & _). pose proof (put_stops ρ kvs tv Hne) as Hst.
  pose proof (stopped_once ρ kvs) as Hx. pose proof (put_back ρ kvs tv) as Hb. pose proof (put_kept ρ kvs tv) as Hk. destruct (put kvs ρ tv) as [t| |].
  - destruct Hst as [H1 H2]. split_and!; [done|done|]. intros _ _. destruct H as (HA & (F' & HB) & HC). split_and!; [done| |done]. exists t, F'. split_and!; [done|by apply Hb|]. intros τ Hτ. exact (Hk _ _ eq_refl Hτ).
  - split_and!; [done|intros H'; by destruct (Hx Hst H')|]. intros H'. by destruct H'.
  - split_and!; [intros H'; by destruct (Hx H' Hst)|done|]. intros _ H'. by destruct H'.
Qed.

(** Programs do not depend on which locations the allocator picks: the runs of a program on two heaps that differ
    in the names of locations stay in step. *)
From stdpp Require Import strings list gmap.
From Coq Require Import Ascii ZArith Lia.
From Verif Require Import GoStr GoStrL Val Conv Instr Heap Api Param HeapL Conc.

Section rel.
(** [Z]: arrays of scalars that exist from the beginning; [flat]: no array is ever changed, else the arrays of [Z] are
    empty; [F]: the From lists, which do not change *)
Context (Z : nat -> Prop) (F : gmap nat (list instr)) (flat : bool).
Notation world := (gmap nat nat).

Inductive vR (ρ : world) : val -> val -> Prop :=
| vR_s s : vR ρ (VS s) (VS s)
| vR_map l l' : ρ !! l = Some l' -> vR ρ (VMap l) (VMap l')
| vR_none n : vR ρ (VArr None n) (VArr None n)
| vR_arr l l' n : ρ !! l = Some l' -> vR ρ (VArr (Some l) n) (VArr (Some l') n)
| vR_shared l n : Z l -> (flat = false -> n = 0) -> vR ρ (VArr (Some l) n) (VArr (Some l) n)
| vR_node n : vR ρ (VNode n) (VNode n)
| vR_nodes l : vR ρ (VNodes l) (VNodes l).
Definition mR (ρ : world) (m m' : gmap string val) : Prop := forall k, option_Forall2 (vR ρ) (m !! k) (m' !! k).
Inductive cR (ρ : world) : cell -> cell -> Prop :=
| cR_map m m' : mR ρ m m' -> cR ρ (CMap m) (CMap m')
| cR_arr l l' : Forall2 (vR ρ) l l' -> cR ρ (CArr l) (CArr l').
Definition hR (ρ : world) (h h' : gmap nat cell) : Prop :=
  (forall l l', ρ !! l = Some l' -> exists c c', h !! l = Some c /\ h' !! l' = Some c' /\ cR ρ c c') /\
  (forall l, Z l -> exists ss, h !! l = Some (CArr (VS <$> ss)) /\ h' !! l = Some (CArr (VS <$> ss)) /\ (flat = false -> ss = [])).
Definition sR (ρ : world) (s s' : slice) : Prop := vR ρ (slice_val s) (slice_val s').

Lemma vR_mono ρ ρ' v v' : ρ ⊆ ρ' -> vR ρ v v' -> vR ρ' v v'.
Proof. intros Hs []; try (by constructor); constructor; by eapply lookup_weaken. Qed.
Lemma mR_mono ρ ρ' m m' : ρ ⊆ ρ' -> mR ρ m m' -> mR ρ' m m'.
Proof. intros Hs H k. destruct (H k); constructor. by eapply vR_mono. Qed.
Lemma vsR_mono ρ ρ' l l' : ρ ⊆ ρ' -> Forall2 (vR ρ) l l' -> Forall2 (vR ρ') l l'.
Proof. intros Hs H. eapply Forall2_impl; [exact H|]. intros. by eapply vR_mono. Qed.
Lemma cR_mono ρ ρ' c c' : ρ ⊆ ρ' -> cR ρ c c' -> cR ρ' c c'.
Proof. intros Hs []; constructor; [by eapply mR_mono|by eapply vsR_mono]. Qed.
Lemma gR_mono ρ ρ' g g' : ρ ⊆ ρ' -> grel (vR ρ) g g' -> grel (vR ρ') g g'.
Proof.
  intros Hs. revert g'. induction g as [v|s|l IH|l] using gval_ind'; intros g' H; inversion H; subst; constructor.
  - by eapply vR_mono.
  - clear H. match goal with H : Forall2 _ _ _ |- _ => rename H into HF end.
    induction HF as [|x y l1 l2 Hxy HF IHF]; constructor; inversion IH; subst; auto.
Qed.

Lemma hmap_R ρ h h' l l' : hR ρ h h' -> ρ !! l = Some l' -> mR ρ (hmap h l) (hmap h' l').
Proof.
  intros [H _] Hl. destruct (H l l' Hl) as (c & c' & Ec & Ec' & Hc). unfold hmap. rewrite Ec, Ec'.
  destruct Hc; [done|]. intros k. rewrite !lookup_empty. constructor.
Qed.
Lemma harr_R ρ h h' l l' : hR ρ h h' -> ρ !! l = Some l' -> Forall2 (vR ρ) (harr h (Some l)) (harr h' (Some l')).
Proof.
  intros [H _] Hl. destruct (H l l' Hl) as (c & c' & Ec & Ec' & Hc). unfold harr. rewrite Ec, Ec'.
  destruct Hc; [constructor|done].
Qed.
Lemma scal_R ρ ss : Forall2 (vR ρ) (VS <$> ss) (VS <$> ss).
Proof. induction ss; constructor; [constructor|done]. Qed.
Lemma slice_R ρ h h' s s' : hR ρ h h' -> sR ρ s s' -> s.2 = s'.2 /\ Forall2 (vR ρ) (harr h s.1) (harr h' s'.1).
Proof.
  intros Hh Hs. destruct s as [l n], s' as [l' n']. unfold sR, slice_val in Hs. cbn in *. inversion Hs; subst; (split; [done|]).
  - constructor.
  - by eapply harr_R.
  - destruct Hh as [_ Hz]. cbn. destruct (Hz l0 ltac:(done)) as (ss & -> & -> & _). apply scal_R.
Qed.
Lemma view_R ρ h h' v v' : hR ρ h h' -> vR ρ v v' -> vrel (vR ρ) (view h v) (view h' v').
Proof.
  intros Hh Hv. destruct v as [s|l|l n|n|l], v' as [s'|l'|l' n'|n'|l']; try (inversion Hv; subst; constructor; done).
  - inversion Hv; subst. constructor. by eapply hmap_R.
  - destruct (slice_R ρ h h' (l, n) (l', n') Hh Hv) as [E H]. cbn in *. subst n'. constructor. by apply Forall2_take.
Qed.

(** related programs; [R] relates their results *)
Section prl.
Context {A B : Type} (R : world -> A -> B -> Prop).
Inductive prl : world -> prog A -> prog B -> Prop :=
| prl_ret ρ r r' : rrel (R ρ) r r' -> prl ρ (PRet r) (PRet r')
| prl_alloc ρ c c' k k' : cR ρ c c' -> (forall l l', ρ !! l = None -> prl (<[l := l']> ρ) (k l) (k' l')) -> prl ρ (PAlloc c k) (PAlloc c' k')
| prl_write ρ l l' c c' k k' : ρ !! l = Some l' -> cR ρ c c' -> prl ρ k k' -> prl ρ (PWrite l c k) (PWrite l' c' k')
| prl_heap ρ k k' : (forall h h', hR ρ h h' -> prl ρ (k h) (k' h')) -> prl ρ (PHeap k) (PHeap k')
| prl_from ρ id k k' : prl ρ (k (default [] (F !! id))) (k' (default [] (F !! id))) -> prl ρ (PFrom id k) (PFrom id k')
| prl_set ρ id fr k k' : fr = default [] (F !! id) -> prl ρ k k' -> prl ρ (PSet id fr k) (PSet id fr k')
| prl_iter ρ n k k' : (forall o, o ≡ₚ List.seq 0 n -> prl ρ (k o) (k' o)) -> prl ρ (PIter n k) (PIter n k').
End prl.

Lemma prl_bind {A B C D} (R : world -> A -> B -> Prop) (S : world -> C -> D -> Prop) ρ p p' k k' : prl R ρ p p' ->
  (forall ρ' a b, ρ ⊆ ρ' -> R ρ' a b -> prl S ρ' (k a) (k' b)) -> prl S ρ (pbind p k) (pbind p' k').
Proof.
  intros Hp. revert k k'. induction Hp as [ρ r r' Hr|ρ c c' q q' Hc Hq IH|ρ l l' c c' q q' Hl Hc Hq IH|ρ q q' Hq IH|ρ id q q' Hq IH|ρ id fr q q' Hfr Hq IH|ρ n q q' Hq IH];
    intros k k' Hk.
  - destruct Hr; cbn; [by apply Hk|by constructor; constructor|by constructor; constructor].
  - cbn. constructor; [done|]. intros l l' Hl. apply IH; [done|]. intros ρ' a b Hs. apply Hk. etrans; [|exact Hs]. by apply insert_subseteq.
  - cbn. constructor; [done|done|]. by apply IH.
  - cbn. constructor. intros h h' Hh. by apply IH.
  - cbn. constructor. by apply IH.
  - cbn. constructor; [done|]. by apply IH.
  - cbn. constructor. intros o Ho. by apply IH.
Qed.
Lemma prl_try {A B} (R : world -> A -> B -> Prop) ρ p p' : prl R ρ p p' -> prl (fun ρ => option_Forall2 (R ρ)) ρ (ptry p) (ptry p').
Proof.
  induction 1 as [ρ r r' Hr|ρ c c' q q' Hc Hq IH|ρ l l' c c' q q' Hl Hc Hq IH|ρ q q' Hq IH|ρ id q q' Hq IH|ρ id fr q q' Hfr Hq IH|ρ n q q' Hq IH];
    cbn; try by constructor.
  destruct Hr; repeat constructor. done.
Qed.
Lemma prl_pret {A B} (R : world -> A -> B -> Prop) ρ a b : R ρ a b -> prl R ρ (pret a) (pret b).
Proof. intros. by repeat constructor. Qed.
Lemma prl_fail {A B} (R : world -> A -> B -> Prop) ρ : prl R ρ pfail pfail.
Proof. by repeat constructor. Qed.
Lemma prl_panic {A B} (R : world -> A -> B -> Prop) ρ : prl R ρ ppanic ppanic.
Proof. by repeat constructor. Qed.
Lemma prl_pheap {A B} (R : world -> A -> B -> Prop) ρ k k' : (forall h h', hR ρ h h' -> prl R ρ (k h) (k' h')) -> prl R ρ (pbind pheap k) (pbind pheap k').
Proof. intros H. cbn. by constructor. Qed.
Lemma prl_palloc {A B} (R : world -> A -> B -> Prop) ρ c c' k k' : cR ρ c c' ->
  (forall ρ' l l', ρ ⊆ ρ' -> ρ' !! l = Some l' -> prl R ρ' (k l) (k' l')) -> prl R ρ (pbind (palloc c) k) (pbind (palloc c') k').
Proof. intros Hc H. cbn. constructor; [done|]. intros l l' Hl. apply H; [by apply insert_subseteq|]. apply lookup_insert. Qed.
Lemma prl_pwrite ρ l l' c c' : ρ !! l = Some l' -> cR ρ c c' -> prl (fun _ _ _ => True) ρ (pwrite l c) (pwrite l' c').
Proof. intros. by repeat constructor. Qed.

Notation unitR := (fun (_ : world) (_ _ : unit) => True).
Lemma map_set_R ρ l l' k v v' : ρ !! l = Some l' -> vR ρ v v' -> prl unitR ρ (pmap_set l k v) (pmap_set l' k v').
Proof.
  intros Hl Hv. apply prl_pheap. intros h h' Hh. apply prl_pwrite; [done|]. constructor.
  intros j. pose proof (hmap_R _ _ _ _ _ Hh Hl j). destruct (decide (j = k)) as [->|Hj].
  - rewrite !lookup_insert. by constructor.
  - by rewrite !lookup_insert_ne.
Qed.
Context (W : oracles) (HW : jpath_parametric W).
Lemma nils_R ρ n : Forall2 (vR ρ) (replicate n (VS SNil)) (replicate n (VS SNil)).
Proof. apply Forall2_replicate. constructor. Qed.
Lemma append1_R ρ s s' v v' : flat = false -> sR ρ s s' -> vR ρ v v' -> prl sR ρ (pappend1 W s v) (pappend1 W s' v').
Proof.
  intros Hfl Hs Hv. apply prl_pheap. intros h h' Hh. destruct (slice_R _ _ _ _ _ Hh Hs) as [En Hb]. cbv zeta.
  destruct s as [l n], s' as [l' n']. cbn [fst snd] in *. subst n'.
  assert (Hgrow : forall j, prl sR ρ (l' <~~ palloc (CArr (take j (harr h l) ++ [v] ++ replicate (o_grow W (S j) - S j) (VS SNil))) ;; pret (Some l', S j))
     (l'0 <~~ palloc (CArr (take j (harr h' l') ++ [v'] ++ replicate (o_grow W (S j) - S j) (VS SNil))) ;; pret (Some l'0, S j))).
  { intros j. apply prl_palloc.
    - constructor. apply Forall2_app; [by apply Forall2_take|]. apply Forall2_app; [by constructor|apply nils_R].
    - intros ρ' a a' _ Ha. apply prl_pret. by constructor. }
  inversion Hs; subst.
  - apply prl_palloc.
    + constructor. constructor; [done|apply nils_R].
    + intros ρ' a a' _ Ha. apply prl_pret. by constructor.
  - rewrite <- (Forall2_length _ _ _ Hb). case_decide; [|apply Hgrow].
    eapply prl_bind.
    + apply prl_pwrite; [done|]. constructor. by apply Forall2_insert.
    + intros ρ' [] [] Hsub _. apply prl_pret. constructor. by eapply lookup_weaken.
  - rewrite <- (Forall2_length _ _ _ Hb). destruct Hh as [_ Hz]. cbn [harr]. destruct (Hz l0 ltac:(done)) as (ss & -> & -> & Hss). rewrite (Hss Hfl). assert (n = 0) as -> by auto.
    apply prl_palloc.
    + constructor. cbn. constructor; [done|]. apply nils_R.
    + intros ρ' a a' _ Ha. apply prl_pret. by constructor.
Qed.
Lemma append_nils_R k : flat = false -> forall ρ s s', sR ρ s s' -> prl sR ρ (pappend_nils W k s) (pappend_nils W k s').
Proof.
  intros Hfl. induction k as [|k IH]; intros ρ s s' Hs; cbn [pappend_nils]; [by apply prl_pret|].
  eapply prl_bind; [apply append1_R; [done|done|constructor]|]. intros ρ' a b _ Hab. by apply IH.
Qed.
Lemma slice_set_R ρ s s' i v v' : flat = false -> sR ρ s s' -> vR ρ v v' -> prl unitR ρ (pslice_set s i v) (pslice_set s' i v').
Proof.
  intros Hfl Hs Hv. apply prl_pheap. intros h h' Hh. destruct (slice_R _ _ _ _ _ Hh Hs) as [En Hb].
  destruct s as [l n], s' as [l' n']. cbn [fst snd] in *. subst n'. inversion Hs; subst.
  - apply prl_panic.
  - case_decide; [|apply prl_panic]. apply prl_pwrite; [done|]. constructor. by apply Forall2_insert.
  - assert (n = 0) as -> by auto. case_decide; [lia|]. apply prl_panic.
Qed.
Lemma lookup_R ρ l l' i : Forall2 (vR ρ) l l' -> option_Forall2 (vR ρ) (l !! i) (l' !! i).
Proof.
  intros H. destruct (l !! i) as [x|] eqn:E.
  - destruct (Forall2_lookup_l _ _ _ _ _ H E) as (y & -> & Hy). by constructor.
  - apply lookup_ge_None_1 in E. rewrite (Forall2_length _ _ _ H) in E. rewrite lookup_ge_None_2 by done. constructor.
Qed.
Lemma slice_get_R ρ s s' i : sR ρ s s' -> prl vR ρ (pslice_get s i) (pslice_get s' i).
Proof.
  intros Hs. apply prl_pheap. intros h h' Hh. destruct (slice_R _ _ _ _ _ Hh Hs) as [En Hb]. rewrite <- En.
  destruct (lookup_R ρ (take s.2 (harr h s.1)) (take s.2 (harr h' s'.1)) i); [by apply Forall2_take|by apply prl_pret|apply prl_panic].
Qed.
Lemma union_R ρ m1 m1' m2 m2' : mR ρ m1 m1' -> mR ρ m2 m2' -> mR ρ (m1 ∪ m2) (m1' ∪ m2').
Proof.
  intros H1 H2 k. rewrite !lookup_union. destruct (H1 k); destruct (H2 k); cbn; by constructor.
Qed.
Lemma merge_old_R ρ v v' o o' : vR ρ v v' -> vR ρ o o' -> prl unitR ρ (pmerge_old v o) (pmerge_old v' o').
Proof.
  intros Hv Ho. destruct Hv; try (by apply prl_pret). destruct Ho; try (by apply prl_pret).
  apply prl_pheap. intros h h' Hh. apply prl_pwrite; [done|]. constructor. apply union_R; by eapply hmap_R.
Qed.
Lemma save_in_slice_R splits : flat = false -> forall ρ cur cur' v v', sR ρ cur cur' -> vR ρ v v' ->
  prl sR ρ (psave_in_slice W cur splits v) (psave_in_slice W cur' splits v').
Proof.
  intros Hfl. induction splits as [|sp rest IH]; intros ρ cur cur' v v' Hc Hv; cbn [psave_in_slice]; [apply prl_panic|].
  destruct (atoi _) as [index|]; [|apply prl_fail].
  eapply prl_bind with (R := sR).
  { destruct cur as [l n], cur' as [l' n']. unfold sR, slice_val in Hc. cbn [fst snd] in *. inversion Hc; subst; [|by apply prl_pret|by apply prl_pret].
    destruct (_ <? 0)%Z; [apply prl_panic|]. apply prl_palloc; [constructor; apply nils_R|]. intros ρ' a a' _ Ha. apply prl_pret. by constructor. }
  intros ρ1 c1 c1' S1 H1. assert (En : c1.2 = c1'.2) by (unfold sR, slice_val in H1; by inversion H1). rewrite <- En.
  eapply prl_bind; [by apply append_nils_R|]. intros ρ2 c2 c2' S2 H2.
  destruct (_ <? 0)%Z; [apply prl_panic|]. cbv zeta.
  assert (Hv2 : vR ρ2 v v') by (eapply vR_mono; [|exact Hv]; by etrans).
  destruct rest as [|sp2 rest].
  - eapply prl_bind; [by apply slice_get_R|]. intros ρ3 o o' S3 Ho.
    eapply prl_bind; [apply merge_old_R; [by eapply vR_mono|done]|]. intros ρ4 [] [] S4 _.
    eapply prl_bind; [apply slice_set_R; [done| |]|].
    + unfold sR in *. eapply vR_mono; [|exact H2]. by etrans.
    + eapply vR_mono; [|exact Hv2]. by etrans.
    + intros ρ5 [] [] S5 _. apply prl_pret. unfold sR in *. eapply vR_mono; [|exact H2]. etrans; [exact S3|]. by etrans.
  - eapply prl_bind; [by apply slice_get_R|]. intros ρ3 o o' S3 Ho.
    eapply prl_bind.
    + apply prl_try. apply IH; [|by eapply vR_mono]. destruct Ho; try (unfold sR, slice_val; cbn; by constructor).
    + intros ρ4 r r' S4 Hr. eapply prl_bind; [apply slice_set_R; [done| |]|].
      * unfold sR in *. eapply vR_mono; [|exact H2]. by etrans.
      * destruct Hr; [done|constructor].
      * intros ρ5 [] [] S5 _. apply prl_pret. unfold sR in *. eapply vR_mono; [|exact H2]. etrans; [exact S3|]. by etrans.
Qed.
Lemma get_slice_R ρ t t' k : ρ !! t = Some t' -> prl sR ρ (pget_slice t k) (pget_slice t' k).
Proof.
  intros Ht. apply prl_pheap. intros h h' Hh. destruct (hmap_R _ _ _ _ _ Hh Ht k) as [v v' Hv|]; [|apply prl_pret; constructor].
  destruct Hv; try apply prl_panic; apply prl_pret; by constructor.
Qed.
(** a part of a path without an index *)
Definition plain (s : string) : Prop := exists x, split s "[" = [x].
Lemma flat_or : flat = true \/ flat = false.
Proof. clear. destruct flat; auto. Qed.
Lemma save_leaf_R ρ t t' p v v' : (flat = true -> plain p) -> ρ !! t = Some t' -> vR ρ v v' -> prl unitR ρ (psave_leaf W t p v) (psave_leaf W t' p v').
Proof.
  intros Hpl Ht Hv. unfold psave_leaf, plain in *. destruct (split p "[") as [|a [|a2 rest]]; [apply prl_panic|by apply map_set_R|].
  destruct flat_or as [Hfl|Hfl]; [by destruct (Hpl Hfl)|].
  eapply prl_bind; [by apply get_slice_R|]. intros ρ1 s s' S1 Hs.
  eapply prl_bind; [apply save_in_slice_R; [done|done|by eapply vR_mono]|]. intros ρ2 n n' S2 Hn.
  apply map_set_R; [|done]. eapply lookup_weaken; [exact Ht|]. by etrans.
Qed.
Lemma save_splits_R splits : (flat = true -> Forall plain splits) -> forall ρ b t t' v v', ρ !! t = Some t' -> vR ρ v v' ->
  prl unitR ρ (psave_splits W b t splits v) (psave_splits W b t' splits v').
Proof.
  induction splits as [|sp rest IH]; intros Hpl ρ b t t' v v' Ht Hv; cbn [psave_splits]; [apply prl_panic|].
  assert (Hpl2 : flat = true -> Forall plain rest) by (intros H; by specialize (Hpl H); inversion Hpl).
  specialize (IH Hpl2). assert (Hpl1 : flat = true -> plain sp) by (intros H; by specialize (Hpl H); inversion Hpl).
  destruct (negb b && _); [destruct rest; [apply prl_panic|by apply IH]|]. destruct rest as [|sp2 rest]; [by apply save_leaf_R|].
  unfold plain in Hpl1. destruct (split sp "[") as [|a [|a2 asp]]; [apply prl_panic| |].
  - apply prl_pheap. intros h h' Hh. eapply prl_bind with (R := fun ρ l l' => ρ !! l = Some l').
    { pose proof (hmap_R _ _ _ _ _ Hh Ht sp) as Hm.
      assert (Hal : prl (fun ρ l l' => ρ !! l = Some l') ρ (palloc (CMap ∅)) (palloc (CMap ∅))).
      { unfold palloc. constructor; [constructor; intros k; rewrite !lookup_empty; constructor|]. intros l l' Hl. apply prl_pret. apply lookup_insert. }
      destruct Hm as [x x' Hx|]; [|done]. destruct Hx as [sc| | | | | |]; try apply prl_fail; [|by apply prl_pret]. destruct sc; try apply prl_fail. done. }
    intros ρ1 nt nt' S1 Hn. eapply prl_bind; [apply map_set_R; [by eapply lookup_weaken|by constructor]|]. intros ρ2 [] [] S2 _.
    apply IH; [by eapply lookup_weaken|]. eapply vR_mono; [|exact Hv]. by etrans.
  - destruct flat_or as [Hfl|Hfl]; [by destruct (Hpl1 Hfl)|]. eapply prl_bind; [by apply get_slice_R|]. intros ρ1 s s' S1 Hs.
    apply prl_palloc; [constructor; intros k; rewrite !lookup_empty; constructor|]. intros ρ2 nt nt' S2 Hn.
    eapply prl_bind; [apply save_in_slice_R; [done| |by constructor]|]. { unfold sR in *. by eapply vR_mono. }
    intros ρ3 n n' S3 Hnn. eapply prl_bind.
    + apply map_set_R; [|exact Hnn]. eapply lookup_weaken; [exact Ht|]. etrans; [exact S1|]. by etrans.
    + intros ρ4 [] [] S4 _. apply IH; [eapply lookup_weaken; [exact Hn|]; by etrans|].
      eapply vR_mono; [|exact Hv]. etrans; [exact S1|]. etrans; [exact S2|]. by etrans.
Qed.
Lemma vnil_R ρ v v' : vR ρ v v' -> vnil v = vnil v'.
Proof. by intros []. Qed.
(** a path without indices *)
Definition plainp (p : string) : Prop := Forall plain (split p ".").
Lemma save_in_tree_R ρ t t' p v v' : (flat = true -> plainp p) -> ρ !! t = Some t' -> vR ρ v v' -> prl unitR ρ (psave_in_tree W t p v) (psave_in_tree W t' p v').
Proof.
  intros Hp Ht Hv. unfold psave_in_tree. rewrite <- (vnil_R _ _ _ Hv). destruct (vnil v); [by apply prl_pret|by apply save_splits_R].
Qed.
Lemma inject_R : forall g g' ρ, grel (vR ρ) g g' -> prl vR ρ (pinject g) (pinject g').
Proof.
  induction g as [v|s|l IH|l] using gval_ind'; intros g' ρ Hg; inversion Hg; subst; cbn [pinject].
  - by apply prl_pret.
  - apply prl_pret. constructor.
  - match goal with H : Forall2 _ _ _ |- _ => rename H into HF end. clear Hg.
    eapply prl_bind with (R := fun ρ => Forall2 (vR ρ)).
    + revert ρ l2 HF. induction l as [|g l IHl]; intros ρ l2 HF; inversion HF as [|? g2 ? l3 Hg HF']; subst; [apply prl_pret; constructor|].
      inversion IH as [|? ? IH1 IH2]; subst. eapply prl_bind; [by apply IH1|]. intros ρ1 v v' S1 Hv. eapply prl_bind.
      * apply IHl; [done|]. eapply Forall2_impl; [exact HF'|]. intros. by eapply gR_mono.
      * intros ρ3 vs vs' S3 Hvs. apply prl_pret. constructor; [by eapply vR_mono|done].
    + intros ρ1 vs vs' S1 Hvs. apply prl_palloc; [by constructor|]. intros ρ2 a a' S2 Ha. apply prl_pret.
      rewrite (Forall2_length _ _ _ Hvs). by constructor.
  - apply prl_pret. constructor.
Qed.

Context (f : fmt).
(** `last` with two or more entries changes From *)
Definition calm_ts (ts : option tis) : Prop :=
  match ts with Some t => ti_meth t = MLast -> length (default [] (F !! ti_id t)) <= 1 | None => True end.
Lemma run_opt_R ρ ts input input' ft m : calm_ts ts -> vR ρ input input' ->
  prl vR ρ (prun_opt_tis W f ts input ft m) (prun_opt_tis W f ts input' ft m).
Proof.
  intros Hc Hi. destruct ts as [t|]; [|apply prl_pret; constructor]. cbn. constructor. constructor.
  { cbn in Hc. destruct (ti_meth t); try done. specialize (Hc eq_refl). destruct (default [] (F !! ti_id t)) as [|x [|]]; cbn in *; [done|done|lia]. }
  constructor. constructor. intros h h' Hh.
  destruct (tis_run_rel W HW (vR ρ) (view h) (view h') (fun a b => view_R ρ h h' a b Hh) f t t
    (match ti_meth t with MLast => rev (default [] (F !! ti_id t)) | _ => default [] (F !! ti_id t) end) input input' ft m Hi eq_refl eq_refl);
    [by apply inject_R|apply prl_fail|apply prl_panic].
Qed.
Lemma heap_get_R ρ p input input' : vR ρ input input' -> prl (fun ρ => option_Forall2 (grel (vR ρ))) ρ (pheap_get W p input) (pheap_get W p input').
Proof.
  intros Hi. apply prl_pheap. intros h h' Hh. apply prl_pret. apply (jget_rel W (vR ρ) (view h) (view h') p input input' HW); [|done]. intros a b. by apply view_R.
Qed.
Lemma convert_R ρ h h' jt g g' : hR ρ h h' -> grel (vR ρ) g g' -> option_Forall2 (prel (vR ρ)) (convert W (view h) jt g) (convert W (view h') jt g').
Proof. intros Hh Hg. apply convert_rel; [|done]. intros a b. by apply view_R. Qed.
Lemma is_nil_R ρ h h' g g' : hR ρ h h' -> grel (vR ρ) g g' -> is_nil (view h) g = is_nil (view h') g'.
Proof. intros Hh Hg. apply (is_nil_rel (vR ρ)); [|done]. intros a b. by apply view_R. Qed.
Lemma scal_json_R ρ p jt d ts input input' m : calm_ts ts -> vR ρ input input' -> (forall ρ, vR ρ d d) ->
  prl vR ρ (pscal_json W f p jt d ts input m) (pscal_json W f p jt d ts input' m).
Proof.
  intros Hc Hi Hd. eapply prl_bind; [by apply run_opt_R|]. intros ρ1 v v' S1 Hv. rewrite <- (vnil_R _ _ _ Hv).
  destruct (negb (vnil v)); [by apply prl_pret|]. eapply prl_bind; [apply heap_get_R; by eapply vR_mono|]. intros ρ2 r r' S2 Hr.
  destruct Hr as [g g' Hg|]; [|by apply prl_pret]. apply prl_pheap. intros h h' Hh.
  destruct (convert_R ρ2 h h' jt g g' Hh Hg) as [[nv e] [nv' e'] [Hn He]|]; [|apply prl_panic]. cbn in Hn, He. subst e'.
  rewrite <- (is_nil_R _ _ _ _ _ Hh Hn). destruct (is_nil (view h) nv); [by apply prl_pret|]. destruct e; [apply prl_fail|by apply inject_R].
Qed.
Lemma scal_xml_R ρ jt d ts input input' m : calm_ts ts -> vR ρ input input' -> (forall ρ, vR ρ d d) ->
  prl vR ρ (pscal_xml W f jt d ts input m) (pscal_xml W f jt d ts input' m).
Proof.
  intros Hc Hi Hd. eapply prl_bind; [by apply run_opt_R|]. intros ρ1 v v' S1 Hv. rewrite <- (vnil_R _ _ _ Hv).
  destruct (negb (vnil v)); by apply prl_pret.
Qed.
Lemma as_slice_R ρ v v' : vR ρ v v' -> prl sR ρ (pas_slice v) (pas_slice v').
Proof.
  intros Hv. assert (Ha : prl sR ρ (l <~~ palloc (CArr [v]) ;; pret (Some l, 1)) (l <~~ palloc (CArr [v']) ;; pret (Some l, 1))).
  { apply prl_palloc; [constructor; by constructor|]. intros ρ1 l l' _ Hl. apply prl_pret. by constructor. }
  destruct Hv; try exact Ha; apply prl_pret; by constructor.
Qed.
Definition bR (ρ : world) (x y : slice * bool) : Prop := sR ρ x.1 y.1 /\ x.2 = y.2.
Definition dflt_R (d : option slice) : Prop := forall s, d = Some s -> forall ρ, sR ρ s s.
Lemma dflt_R_default ρ d : dflt_R d -> sR ρ (default (None, 0) d) (default (None, 0) d).
Proof. intros H. destruct d as [s|]; [by apply H|constructor]. Qed.
Lemma base_json_R ρ p d ts input input' m : calm_ts ts -> dflt_R d -> vR ρ input input' ->
  prl bR ρ (pbase_json W f p d ts input m) (pbase_json W f p d ts input' m).
Proof.
  intros Hc Hd Hi. eapply prl_bind; [by apply run_opt_R|]. intros ρ1 v v' S1 Hv. rewrite <- (vnil_R _ _ _ Hv).
  destruct (negb (vnil v)).
  { eapply prl_bind; [by apply as_slice_R|]. intros ρ2 s s' _ Hs. by apply prl_pret. }
  eapply prl_bind; [apply heap_get_R; by eapply vR_mono|]. intros ρ2 r r' S2 Hr. apply prl_pheap. intros h h' Hh.
  destruct Hr as [g g' Hg|]; [|apply prl_pret; split; [by apply dflt_R_default|done]].
  rewrite <- (is_nil_R _ _ _ _ _ Hh Hg). destruct (negb (is_nil (view h) g)); [|apply prl_pret; split; [by apply dflt_R_default|done]].
  eapply prl_bind; [by apply inject_R|]. intros ρ3 x x' S3 Hx. eapply prl_bind; [by apply as_slice_R|]. intros ρ4 s s' _ Hs. by apply prl_pret.
Qed.
Lemma base_xml_R ρ d ts input input' m : calm_ts ts -> dflt_R d -> vR ρ input input' ->
  prl bR ρ (pbase_xml W f d ts input m) (pbase_xml W f d ts input' m).
Proof.
  intros Hc Hd Hi. eapply prl_bind; [by apply run_opt_R|]. intros ρ1 v v' S1 Hv.
  assert (Ha : prl bR ρ1 (s <~~ pas_slice v ;; pret (s, true)) (s <~~ pas_slice v' ;; pret (s, true))).
  { eapply prl_bind; [by apply as_slice_R|]. intros ρ2 s s' _ Hs. by apply prl_pret. }
  destruct Hv as [s|l l'|n|l l' n|l|n|l]; try exact Ha.
  - destruct s; try exact Ha. apply prl_pret. split; [by apply dflt_R_default|done].
  - apply prl_palloc.
    + constructor. apply Forall2_fmap. apply Forall_Forall2_diag. apply Forall_forall. intros; constructor.
    + intros ρ2 a a' _ Hl. apply prl_pret. split; [by constructor|done].
Qed.
Lemma items_R k : forall i ρ it it', (forall ρ' i, ρ ⊆ ρ' -> prl vR ρ' (it i) (it' i)) -> prl (fun ρ => Forall2 (vR ρ)) ρ (pitems k i it) (pitems k i it').
Proof.
  induction k as [|k IH]; intros i ρ it it' H; cbn [pitems]; [apply prl_pret; constructor|].
  eapply prl_bind; [by apply H|]. intros ρ1 v v' S1 Hv. eapply prl_bind.
  - apply IH. intros ρ' j Hs. apply H. by etrans.
  - intros ρ2 vs vs' S2 Hvs. apply prl_pret. rewrite <- (vnil_R _ _ _ Hv). destruct (vnil v); [done|]. constructor; [by eapply vR_mono|done].
Qed.
Lemma new_array_R ρ n vs vs' : Forall2 (vR ρ) vs vs' -> prl vR ρ (pnew_array n vs) (pnew_array n vs').
Proof.
  intros H. unfold pnew_array. pose proof (Forall2_length _ _ _ H) as El. destruct H as [|v v' vs vs' Hv H]; [apply prl_pret; constructor|].
  rewrite <- El. apply prl_palloc.
  - constructor. apply Forall2_app; [by constructor|apply nils_R].
  - intros ρ1 a a' _ Ha. apply prl_pret. by constructor.
Qed.
(** an evaluation that keeps in step *)
(** modifiers that only concern items *)
Definition mod_ok (m : modifier) : Prop := flat = true -> Forall (fun on => str_in "[" on.1 = true) m.
Definition exR (ex : val -> modifier -> prog val) : Prop :=
  forall ρ input input' m, mod_ok m -> vR ρ input input' -> prl vR ρ (ex input m) (ex input' m).
Lemma mod_plain m p : mod_ok m -> flat = true -> str_in "[" p = false -> apply_mod m p = p.
Proof.
  intros Hm Hf Hp. specialize (Hm Hf). unfold apply_mod. induction Hm as [|[old new] m Ho _ IH]; [done|]. cbn [foldl fst snd] in *.
  rewrite replace1_absent; [done|]. destruct (str_in old p) eqn:E; [|done]. apply str_in_spec in E as (a & b & ->).
  rewrite (str_in_app_r "[" a) in Hp; [done|]. by apply str_in_app_l.
Qed.
Lemma mod_more m p s : mod_ok m -> mod_ok (path_replace (p +:+ "[*]") s m).
Proof.
  intros H Hf. unfold path_replace. apply Forall_app. split; [by apply H|]. repeat constructor. cbn. by apply str_in_app_r.
Qed.
Lemma sR_mono ρ ρ' s s' : ρ ⊆ ρ' -> sR ρ s s' -> sR ρ' s s'.
Proof. intros Hs H. by eapply vR_mono. Qed.
Lemma sR_len ρ s s' : sR ρ s s' -> s.2 = s'.2.
Proof. unfold sR, slice_val. intros H. by inversion H. Qed.
Lemma arr_json_R ρ p d ts c input input' m : calm_ts ts -> dflt_R d -> (forall ex, c = Some ex -> exR ex) -> mod_ok m -> (flat = true -> str_in "[" p = false /\ plainp p) -> vR ρ input input' ->
  prl vR ρ (parr_json W f p d ts c input m) (parr_json W f p d ts c input' m).
Proof.
  intros Hc Hd Hex Hm Hp Hi. unfold parr_json. cbv zeta. eapply prl_bind; [by apply base_json_R|].
  intros ρ1 [b ch] [b' ch'] S1 [Hb Hch]. cbn in Hb, Hch. subst ch'.
  eapply prl_bind with (R := vR).
  { destruct ch; [|apply prl_pret; by eapply vR_mono]. case_decide; [by apply prl_pret|].
    destruct (vR_mono _ _ _ _ S1 Hi) as [| l l' Hl| | | | |]; try apply prl_fail.
    eapply prl_bind; [apply save_in_tree_R; [|done|done]|].
    { intros Hf. destruct (Hp Hf) as [Hp1 Hp2]. by rewrite (mod_plain m p Hm Hf Hp1). }
    intros ρ2 [] [] S2 _. apply prl_pret. constructor. by eapply lookup_weaken. }
  intros ρ2 i2 i2' S2 Hi2. destruct c as [ex|]; [|apply prl_pret; by eapply sR_mono].
  rewrite <- (sR_len _ _ _ Hb). eapply prl_bind.
  - apply items_R. intros ρ' i Hs. apply (Hex ex eq_refl); [by apply mod_more|by eapply vR_mono].
  - intros ρ3 vs vs' S3 Hvs. by apply new_array_R.
Qed.
Lemma arr_xml_R ρ p d ts c input input' m : calm_ts ts -> dflt_R d -> (forall ex, c = Some ex -> exR ex) -> mod_ok m -> vR ρ input input' ->
  prl vR ρ (parr_xml W f p d ts c input m) (parr_xml W f p d ts c input' m).
Proof.
  intros Hc Hd Hex Hm Hi. unfold parr_xml. cbv zeta. eapply prl_bind; [by apply base_xml_R|].
  intros ρ1 [b ch] [b' ch'] S1 [Hb Hch]. cbn in Hb, Hch. subst ch'. cbn [fst snd].
  destruct c as [ex|]; [|by apply prl_pret].
  rewrite <- (sR_len _ _ _ Hb). eapply prl_bind.
  - apply items_R. intros ρ' i Hs. eapply prl_bind; [apply slice_get_R; by eapply sR_mono|]. intros ρ2 v v' S2 Hv.
    destruct Hv; try (apply prl_pret; by constructor). apply (Hex ex eq_refl); [by apply mod_more|constructor].
  - intros ρ3 vs vs' S3 Hvs. by apply new_array_R.
Qed.
(** the action of a child of an object at [op] *)
Definition actR (op : string) (a : string * (val -> modifier -> prog val)) : Prop :=
  exR a.2 /\ (flat = true -> plainp (replace1 a.1 op "$")).
Lemma save_children_R op acts : Forall (actR op) acts -> forall ρ l l' input input' m, mod_ok m -> ρ !! l = Some l' -> vR ρ input input' ->
  prl unitR ρ (psave_children W op l acts input m) (psave_children W op l' acts input' m).
Proof.
  induction 1 as [|[c ex] acts [Hex Hpl] _ IH]; intros ρ l l' input input' m Hm Hl Hi; cbn [psave_children]; [by apply prl_pret|].
  eapply prl_bind; [by apply Hex|]. intros ρ1 v v' S1 Hv.
  eapply prl_bind; [apply save_in_tree_R; [done|by eapply lookup_weaken|done]|]. intros ρ2 [] [] S2 _.
  apply IH; [done|eapply lookup_weaken; [exact Hl|]; by etrans|]. eapply vR_mono; [|exact Hi]. by etrans.
Qed.
Lemma finish_R ρ l l' : ρ !! l = Some l' -> prl vR ρ (pfinish_obj l) (pfinish_obj l').
Proof.
  intros Hl. apply prl_pheap. intros h h' Hh. pose proof (hmap_R _ _ _ _ _ Hh Hl) as Hm.
  assert (E : hmap h l = ∅ <-> hmap h' l' = ∅).
  { split; intros E; apply map_empty; intros k; specialize (Hm k); rewrite E, lookup_empty in Hm; by inversion Hm. }
  destruct (decide (hmap h l = ∅)) as [H1|H1], (decide (hmap h' l' = ∅)) as [H2|H2]; try (exfalso; tauto); apply prl_pret; by constructor.
Qed.
Lemma members_R op acts ρ l l' input input' m : Forall (actR op) acts -> mod_ok m -> ρ !! l = Some l' -> vR ρ input input' ->
  prl vR ρ (acts' <~~ pshuffle acts ;; psave_children W op l acts' input m ;~; pfinish_obj l)
           (acts' <~~ pshuffle acts ;; psave_children W op l' acts' input' m ;~; pfinish_obj l').
Proof.
  intros Ha Hm Hl Hi. cbn. constructor. intros o Ho. eapply prl_bind.
  - apply save_children_R; [|done|done|done]. apply Forall_forall. intros x Hx. apply elem_of_list_omap in Hx as (i & _ & Hx).
    rewrite Forall_forall in Ha. apply Ha. by eapply elem_of_list_lookup_2.
  - intros ρ1 [] [] S1 _. apply finish_R. by eapply lookup_weaken.
Qed.
Lemma alloc_obj_R {A} (R : world -> A -> A -> Prop) ρ k k' : (forall ρ' l l', ρ ⊆ ρ' -> ρ' !! l = Some l' -> prl R ρ' (k l) (k' l')) ->
  prl R ρ (pbind (palloc (CMap ∅)) k) (pbind (palloc (CMap ∅)) k').
Proof. intros H. apply prl_palloc; [|done]. constructor. intros j. rewrite !lookup_empty. constructor. Qed.
Lemma obj_json_R ρ p ts acts input input' m : calm_ts ts -> Forall (actR p) acts -> mod_ok m -> vR ρ input input' ->
  prl vR ρ (pobj_json W f p None ts acts input m) (pobj_json W f p None ts acts input' m).
Proof.
  intros Hc Ha Hm Hi. unfold pobj_json. eapply prl_bind; [by apply run_opt_R|]. intros ρ1 v v' S1 Hv.
  assert (Hi1 : vR ρ1 input input') by (by eapply vR_mono).
  destruct Hv as [s|l l' Hl| | | | |]; try apply prl_fail.
  - destruct s; try apply prl_fail. apply alloc_obj_R. intros ρ2 l l' S2 Hl. apply members_R; [done|done|done|by eapply vR_mono].
  - by apply members_R.
Qed.
Lemma obj_xml_R ρ p ts acts input input' m : calm_ts ts -> Forall (actR p) acts -> mod_ok m -> vR ρ input input' ->
  prl vR ρ (pobj_xml W f p None ts acts input m) (pobj_xml W f p None ts acts input' m).
Proof.
  intros Hc Ha Hm Hi. unfold pobj_xml. cbv zeta.
  assert (Hr : forall ρ input input', vR ρ input input' -> prl vR ρ
      (l <~~ palloc (CMap ∅) ;; acts' <~~ pshuffle acts ;; psave_children W p l acts' input m ;~; pfinish_obj l)
      (l <~~ palloc (CMap ∅) ;; acts' <~~ pshuffle acts ;; psave_children W p l acts' input' m ;~; pfinish_obj l)).
  { intros ρ1 i1 i1' H1. apply alloc_obj_R. intros ρ2 l l' S2 Hl. apply members_R; [done|done|done|by eapply vR_mono]. }
  destruct ts as [t|]; [|by apply Hr]. eapply prl_bind; [exact (run_opt_R ρ (Some t) input input' "object" m Hc Hi)|]. intros ρ1 v v' S1 Hv.
  destruct Hv as [s|l l' Hl| | | |n|l]; try apply prl_fail.
  - destruct s; try apply prl_fail; try (apply prl_pret; constructor). case_match; [apply prl_pret; constructor|apply prl_fail].
  - apply Hr. constructor.
  - apply Hr. destruct l; [by eapply vR_mono|constructor].
Qed.
Lemma load_R : forall t ρ, prl vR ρ (pload t) (pload t).
Proof.
  fix IH 1. intros [sc|ts|kvs|n|l] ρ; cbn [pload]; [apply prl_pret; constructor| | |apply prl_pret; constructor|apply prl_pret; constructor].
  - eapply prl_bind with (R := fun ρ => Forall2 (vR ρ)).
    + revert ρ. induction ts as [|t ts IHt]; intros ρ; [apply prl_pret; constructor|]. eapply prl_bind; [apply IH|]. intros ρ1 v v' S1 Hv.
      eapply prl_bind; [apply IHt|]. intros ρ2 vs vs' S2 Hvs. apply prl_pret. constructor; [eapply vR_mono; [exact S2|exact Hv]|exact Hvs].
    + intros ρ1 vs vs' S1 Hvs. apply prl_palloc; [constructor; exact Hvs|]. intros ρ2 a a' S2 Ha. apply prl_pret.
      rewrite (Forall2_length _ _ _ Hvs). constructor. exact Ha.
  - eapply prl_bind with (R := mR).
    + revert ρ. induction kvs as [|[k t] kvs IHt]; intros ρ; [apply prl_pret; intros j; rewrite !lookup_empty; constructor|].
      eapply prl_bind; [apply IH|]. intros ρ1 v v' S1 Hv.
      eapply prl_bind; [apply IHt|]. intros ρ2 vs vs' S2 Hvs. apply prl_pret. intros j. destruct (decide (j = k)) as [->|Hj].
      * rewrite !lookup_insert. constructor. eapply vR_mono; [exact S2|exact Hv].
      * rewrite !lookup_insert_ne by congruence. apply Hvs.
    + intros ρ1 vs vs' S1 Hvs. apply prl_palloc; [constructor; exact Hvs|]. intros ρ2 a a' S2 Ha. apply prl_pret. constructor. exact Ha.
Qed.
Lemma reify_R ρ h h' n : hR ρ h h' -> forall v v', vR ρ v v' -> reify n h v = reify n h' v'.
Proof.
  intros Hh. induction n as [|n IH]; intros v v' Hv; [done|]. 
  assert (Hl : forall l l', Forall2 (vR ρ) l l' -> mapM (reify n h) l = mapM (reify n h') l').
  { induction 1 as [|x y l l' Hxy _ IHl]; [done|]. cbn. rewrite (IH x y Hxy). by rewrite IHl. }
  destruct Hv as [s|l l' Hm|k|l l' k Ha|l k Hz Hk|k|l]; cbn [reify]; try done.
  - cbv zeta. pose proof (hmap_R _ _ _ _ _ Hh Hm) as HM. 
    assert (Ed : dom (hmap h l) = dom (hmap h' l')).
    { apply set_eq. intros k. rewrite !elem_of_dom. destruct (HM k); split; intros [? ?]; try done; by eexists. }
    rewrite <- Ed. f_equal. induction (elements (dom (hmap h l))) as [|k ks IHk]; [done|]. cbn.
    destruct (HM k) as [x y Hxy|]; cbn; [|done]. rewrite (IH x y Hxy). destruct (reify n h' y); cbn; [|done]. by rewrite IHk.
  - f_equal. apply Hl. apply Forall2_take. by eapply harr_R.
  - f_equal. apply Hl. apply Forall2_take. destruct Hh as [_ Hz2]. destruct (Hz2 l Hz) as (ss & E1 & E2 & _). unfold harr. rewrite E1, E2. apply scal_R.
Qed.
Lemma marshal_R ρ v v' : vR ρ v v' -> prl (fun _ => eq) ρ (pmarshal W v) (pmarshal W v').
Proof.
  intros Hv. apply prl_pheap. intros h h' Hh. rewrite <- (reify_R ρ h h' _ Hh v v' Hv).
  destruct (reify _ h v) as [t|]; [|apply prl_fail]. destruct (tree_ok t); [by apply prl_pret|apply prl_fail].
Qed.
End rel.

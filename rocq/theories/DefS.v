(** A new transformer's defaults can be set apart from the rest of the heap. *)
From stdpp Require Import strings list gmap.
From Coq Require Import Ascii ZArith Lia.
From Verif Require Import GoStr GoStrL Val Conv Instr Heap Schema Build Api SpecPath PathL Den Param HeapL Refine Top
  SpecSchema BuildL SpecProj ProjL SpecRun RunL DefD DefB.

Section drop.
Context (H : gmap nat cell) (fr : gmap nat (list instr)) (D : list nat).
Definition rest : gmap nat cell := filter (fun lc : nat * cell => lc.1 ∉ D) H.
Hypothesis Hun : forall a c l, H !! a = Some c -> l ∈ D -> ~ refs c l.
Hypothesis Hmap : forall l, l ∈ D -> exists m, H !! l = Some (CMap m).
Lemma rest_sub : rest ⊆ H.
Proof. apply map_filter_subseteq. Qed.
Lemma rest_at l c : H !! l = Some c -> l ∉ D -> rest !! l = Some c.
Proof. intros E Hl. by apply map_filter_lookup_Some. Qed.
Lemma rest_none l : l ∈ D -> rest !! l = None.
Proof. intros Hl. apply map_filter_lookup_None. right. intros x _ Hn. by apply Hn. Qed.
Definition free (v : val) : Prop := forall l, v = VMap l -> l ∉ D.
Lemma repr_drop t : forall v, repr H v t -> free v -> repr rest v t.
Proof.
  induction t as [s|ts IH|kvs IH|nn|ll] using tree_ind'; intros v Hv Hf; try exact Hv.
  - apply repr_arr in Hv as (l & n & b & -> & Hl & Hn & HF). apply repr_arr. exists l, n, b. split; [done|]. split.
    { apply rest_at; [done|]. intros Hin. destruct (Hmap l Hin) as [m E]. congruence. }
    split; [done|].
    assert (Hfree : Forall free (take n b)).
    { apply Forall_forall. intros v Hv l' -> Hin. apply (Hun l (CArr b) l' Hl Hin). cbn.
      apply elem_of_take in Hv as (j & E & _). by eapply elem_of_list_lookup_2. }
    clear Hn. revert HF Hfree. generalize (take n b). intros vs HF Hfree.
    induction HF as [|v t vs ts Hvt HF IHF]; [constructor|]. inversion Hfree; subst. inversion IH as [|? ? IH1 IH2]; subst.
    constructor; [by apply IH1|by apply IHF].
  - apply repr_obj in Hv as (l & m & -> & Hl & Hnd & HF). apply repr_obj. exists l, m. split; [done|]. split.
    { apply rest_at; [done|]. by apply Hf. }
    split; [done|]. intros k. specialize (HF k).
    destruct (m !! k) as [v|] eqn:E1, (tmap kvs !! k) as [t|] eqn:E2; inversion HF; subst; constructor.
    apply elem_of_list_to_map_2 in E2. 
    rewrite Forall_forall in IH. apply (IH (k, t) E2); [done|].
    intros l' -> Hin. apply (Hun l (CMap m) l' Hl Hin). cbn. eauto.
Qed.
Lemma irel_drop p : forall i, irel H fr i p -> (forall l, l ∈ maps i -> l ∉ D) -> irel rest fr i p.
Proof.
  induction p as [q jt d ts|q d ts cs IH|q d ts c IH] using pitr_ind'; intros i Hi Hm.
  - destruct i as [q' jt' d' ts'| |]; try done. cbn [irel] in *. destruct Hi as (? & ? & Hd & ?). split_and!; try done.
    apply repr_drop; [done|]. intros l ->. apply Hm. by left.
  - destruct i as [|q' d' ts' cs'|]; try done. cbn [irel] in *. destruct Hi as (-> & Hts & Hd & Hcs).
    split; [done|]. split; [done|]. split.
    { destruct d as [kvs|], d' as [a|]; try done. apply repr_drop; [done|]. intros l [= <-]. apply Hm. by left. }
    cbn [maps] in Hm.
    assert (Hm' : forall l, l ∈ cmaps cs' -> l ∉ D) by (intros l Hl; apply Hm, elem_of_app; by right).
    clear Hm Hd Hts. revert cs' Hcs Hm'. induction IH as [|[k c] cs IH1 _ IHcs]; intros [|[k' c'] cs'] Hcs Hm'; try done.
    destruct Hcs as [[-> Hc] Hcs]. split; [split; [done|]|].
    + apply IH1; [done|]. intros l Hl. apply Hm'. unfold cmaps. cbn. apply elem_of_app. by left.
    + apply IHcs; [done|]. intros l Hl. apply Hm'. unfold cmaps. cbn. apply elem_of_app. by right.
  - destruct i as [| |q' d' ts' [c'|]]; try done. cbn [irel] in *. destruct Hi as (-> & Hts & Hd & Hc).
    split; [done|]. split; [done|]. split; [|by apply IH].
    destruct d as [ls|], d' as [[a n]|]; try done. apply repr_drop; [done|]. intros l [=].
Qed.
End drop.

Lemma defs_maps i : defs i `sublist_of` maps i.
Proof.
  revert i. fix IH 1. intros [q jt d ts|q [a|] ts cs|q d ts c]; cbn [defs]; [apply sublist_nil_l| | |apply sublist_nil_l].
  - cbn. apply sublist_skip, sublist_nil_l.
  - cbn. induction cs as [|[k c] cs IHcs]; [constructor|]. cbn. apply sublist_app; [apply IH|apply IHcs].
Qed.
Lemma defs_in i l : l ∈ defs i -> l ∈ maps i.
Proof. intros Hl. assert (Hs := sublist_submseteq _ _ (defs_maps i)). by eapply elem_of_submseteq. Qed.
Lemma defs_cmaps (H : gmap nat cell) fr p : forall i l, irel H fr i p -> l ∈ defs i -> exists m, H !! l = Some (CMap m).
Proof.
  induction p as [q jt d ts|q d ts cs IH|q d ts c IH] using pitr_ind'; intros i l Hi Hl.
  - destruct i; try done. by apply elem_of_nil in Hl.
  - destruct i as [|q' d' ts' cs'|]; try done. cbn [irel] in Hi. destruct Hi as (_ & _ & Hd & Hcs). destruct d' as [a|].
    + cbn in Hl. apply elem_of_list_singleton in Hl as ->. destruct d as [kvs|]; [|done].
      apply repr_obj in Hd as (l & m & [= <-] & Hl & _). eauto.
    + cbn [defs] in Hl. clear Hd. revert cs' Hcs Hl. induction IH as [|[k c] cs IH1 _ IHcs]; intros [|[k' c'] cs'] Hcs Hl; try done.
      * by apply elem_of_nil in Hl.
      * destruct Hcs as [[-> Hc] Hcs]. cbn in Hl. apply elem_of_app in Hl as [Hl|Hl]; [by eapply IH1|by eapply IHcs].
  - destruct i; try done. by apply elem_of_nil in Hl.
Qed.
Lemma drel_drop H fr D (Hun : forall a c l, H !! a = Some c -> l ∈ D -> ~ refs c l)
    (Hmap : forall l, l ∈ D -> exists m, H !! l = Some (CMap m)) p : forall i,
  irel H fr i p -> (forall l, l ∈ defs i -> l ∈ D) -> (forall l, l ∈ maps i -> l ∈ D -> l ∈ defs i) -> NoDup (maps i) ->
  drel H (rest H D) fr i p.
Proof.
  induction p as [q jt d ts|q d ts cs IH|q d ts c IH] using pitr_ind'; intros i Hi H1 H2 Hnd.
  - cbn [drel]. apply irel_drop; [done..|]. intros l Hl HlD. specialize (H2 l Hl HlD). destruct i; try done.
    by apply elem_of_nil in H2.
  - destruct i as [|q' d' ts' cs'|]; try (by destruct d). 
    assert (Hi' := Hi). cbn [irel] in Hi'. destruct Hi' as (-> & Hts & Hd & Hcs).
    destruct d as [kvs|], d' as [a|]; try done.
    + cbn [drel]. split; [done|]. split; [done|].
      assert (Ha : a ∈ D) by (apply H1; by left).
      split.
      * apply repr_obj in Hd as (l & m & [= <-] & Hl & Hk & HF). exists m. split; [done|]. split; [by apply rest_none|].
        split; [done|]. intros k. specialize (HF k). inversion HF as [v t Hvt E1 E2|]; [|constructor].
        constructor. apply repr_drop; [done..|]. intros l ->. intros HlD. apply (Hun a _ l Hl HlD). cbn. eauto.
      * cbn [maps] in Hnd, H2. cbn in Hnd. apply NoDup_cons in Hnd as [Hna Hnd].
        assert (Hm' : forall l, l ∈ cmaps cs' -> l ∉ D).
        { intros l Hl HlD. assert (l ∈ defs (IObj q (Some a) ts' cs')) as Hx.
          { apply H2; [|done]. cbn. by right. }
          cbn in Hx. apply elem_of_list_singleton in Hx as ->. by apply Hna. }
        clear - Hcs Hm' Hun Hmap. revert cs' Hcs Hm'. induction cs as [|[k c] cs IHcs]; intros [|[k' c'] cs'] Hcs Hm'; try done.
        destruct Hcs as [[-> Hc] Hcs]. constructor.
        -- split; [done|]. apply irel_drop; [done..|]. intros l Hl. apply Hm'. unfold cmaps. cbn. apply elem_of_app. by left.
        -- apply IHcs; [done|]. intros l Hl. apply Hm'. unfold cmaps. cbn. apply elem_of_app. by right.
    + apply drel_obj. split; [done|]. split; [done|]. cbn [maps defs] in *. cbn in Hnd, H2.
      clear Hi Hd Hts. revert cs' Hcs H1 H2 Hnd. induction IH as [|[k c] cs IH1 _ IHcs]; intros [|[k' c'] cs'] Hcs H1 H2 Hnd; try done.
      destruct Hcs as [[-> Hc] Hcs]. cbn in H1, H2, Hnd. apply NoDup_app in Hnd as (N1 & N12 & N2). constructor.
      * split; [done|]. apply IH1; [done| | |done].
        -- intros l Hl. apply H1, elem_of_app. by left.
        -- intros l Hl HlD. assert (Hx := H2 l). rewrite !elem_of_app in Hx. destruct (Hx (or_introl Hl) HlD) as [?|Hy]; [done|].
           exfalso. apply (N12 l Hl). revert Hy. clear.
           induction cs' as [|[k c] cs' IHc]; [done|]. cbn. rewrite !elem_of_app. intros [Hy|Hy]; [left|right; by apply IHc].
           by apply defs_in.
      * apply IHcs; [done| | |done].
        -- intros l Hl. apply H1, elem_of_app. by right.
        -- intros l Hl HlD. assert (Hx := H2 l). rewrite !elem_of_app in Hx. destruct (Hx (or_intror Hl) HlD) as [Hy|?]; [|done].
           exfalso. apply (N12 l); [|done]. by apply defs_in.
  - cbn [drel]. apply irel_drop; [done..|]. intros l Hl HlD. specialize (H2 l Hl HlD). destruct i; try done.
    by apply elem_of_nil in H2.
Qed.
Lemma new_drel s i p : apart s i -> irel (hp s) (froms s) i p ->
  NoDup (defs i) /\ rest (hp s) (defs i) ⊆ hp s /\ drel (hp s) (rest (hp s) (defs i)) (froms s) i p.
Proof.
  intros (Ht & Hnd & Hl) Hi. split.
  { destruct (submseteq_Permutation _ _ (sublist_submseteq _ _ (defs_maps i))) as [k Hk]. rewrite Hk in Hnd.
    by apply NoDup_app in Hnd as (? & _). } split; [apply rest_sub|].
  apply drel_drop; try done.
  - intros a c l Ha Hin. destruct (Hl l (defs_in _ _ Hin)) as [_ Hr]. by eapply Hr.
  - intros l Hin. by eapply defs_cmaps.
Qed.

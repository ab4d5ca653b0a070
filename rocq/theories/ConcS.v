(** Goroutines that keep in step with runs of their own. *)
From stdpp Require Import strings list gmap.
From Coq Require Import Ascii ZArith Lia.
From Verif Require Import GoStr Val Conv Instr Heap Api SpecRun Param HeapL Conc ConcL ConcR.

(** ** runs without interruption *)
Definition acc1 {A} (x y : st * prog A) : Prop := access x.1 x.2 y.1 y.2.
Lemma pseq_ext {A} perm perm' (p : prog A) : forall s, (forall t n, tick s <= t -> perm t n = perm' t n) -> pseq perm p s = pseq perm' p s.
Proof.
  induction p as [r|c q IH|l c q IH|q IH|i q IH|i fr q IH|n q IH]; intros s H; cbn; [done|apply IH; exact H|apply IH; exact H|apply IH; exact H|apply IH; exact H|apply IH; exact H|].
  rewrite (H (tick s) n) by done. apply IH. cbn. intros t k Ht. apply H. lia.
Qed.
Lemma alone_pseq {A} (x y : st * prog A) r : rtc acc1 x y -> y.2 = PRet r -> exists perm, orders perm /\ pseq perm x.2 x.1 = (y.1, r).
Proof.
  induction 1 as [[s p]|[s p] [s1 p1] z Ha _ IH]; intros Hr.
  - cbn in *. subst. exists (fun _ n => List.seq 0 n). split; [by intros t n|done].
  - destruct (IH Hr) as (perm & Ho & Hp). unfold acc1 in Ha. cbn in Ha, Hp |- *.
    inversion Ha; subst; try (exists perm; by split).
    exists (fun t m => if decide (t = tick s /\ m = n) then o else perm t m). split.
    + intros t m. case_decide as Hd; [destruct Hd as [-> ->]; done|apply Ho].
    + cbn. rewrite decide_True by done. erewrite pseq_ext; [exact Hp|]. cbn. intros t m Ht. rewrite decide_False; [done|lia].
Qed.
Lemma pseq_alone {A} perm (p : prog A) : orders perm -> forall s, rtc acc1 (s, p) ((pseq perm p s).1, PRet (pseq perm p s).2).
Proof.
  intros Ho. induction p as [r|c q IH|l c q IH|q IH|i q IH|i fr q IH|n q IH]; intros s; cbn [pseq]; [apply rtc_refl|..];
    (eapply rtc_l; [|apply IH]; unfold acc1; cbn [fst snd]; constructor). apply Ho.
Qed.

(** ** one goroutine *)
Section sim.
Context (Z : nat -> Prop) (F : gmap nat (list instr)) (flat : bool) (n0 : nat).
Context (HZ : forall l, Z l -> l < n0).
Definition frR (g : gmap nat (list instr)) : Prop := forall id, default [] (g !! id) = default [] (F !! id).
Record own (t s : st) (ρ : gmap nat nat) : Prop := {
  own_hp : hR Z flat ρ (hp t) (hp s);
  own_dom : forall l l', ρ !! l = Some l' -> n0 <= l < nxt t;
  own_ran : forall l l', ρ !! l = Some l' -> n0 <= l' < nxt s;
  own_inj : forall l1 l2 l', ρ !! l1 = Some l' -> ρ !! l2 = Some l' -> l1 = l2;
  own_ft : frR (froms t);
  own_n0 : n0 <= nxt t }.
Lemma cell_insert ρ h h' l l' c c' : hR Z flat ρ h h' -> ρ !! l = Some l' -> cR Z flat ρ c c' ->
  (forall l1 l2 l', ρ !! l1 = Some l' -> ρ !! l2 = Some l' -> l1 = l2) -> n0 <= l -> n0 <= l' -> hR Z flat ρ (<[l := c]> h) (<[l' := c']> h').
Proof.
  intros [H1 H2] Hl Hc Hinj Hn Hn'. split.
  - intros x x' Hx. destruct (decide (x = l)) as [->|Hne].
    + rewrite Hl in Hx. injection Hx as <-. exists c, c'. by rewrite !lookup_insert.
    + destruct (H1 x x' Hx) as (d & d' & A & B & C). exists d, d'. rewrite lookup_insert_ne by done.
      rewrite lookup_insert_ne; [done|]. intros ->. apply Hne. by eapply Hinj.
  - intros x Hx. pose proof (HZ x Hx). rewrite !lookup_insert_ne by lia. by apply H2.
Qed.
Lemma cell_new ρ h h' l l' c c' : hR Z flat ρ h h' -> ρ !! l = None -> (forall x, ρ !! x <> Some l') -> cR Z flat ρ c c' -> n0 <= l -> n0 <= l' ->
  hR Z flat (<[l := l']> ρ) (<[l := c]> h) (<[l' := c']> h').
Proof.
  intros [H1 H2] Hl Hl' Hc Hn Hn'. split.
  - intros x x' Hx. destruct (decide (x = l)) as [->|Hne].
    + rewrite lookup_insert in Hx. injection Hx as <-. exists c, c'. rewrite !lookup_insert. split; [done|]. split; [done|].
      eapply cR_mono; [|exact Hc]. by apply insert_subseteq.
    + rewrite lookup_insert_ne in Hx by done. destruct (H1 x x' Hx) as (d & d' & A & B & C). exists d, d'. rewrite lookup_insert_ne by done.
      rewrite lookup_insert_ne; [|intros ->; by eapply Hl'; eauto]. split; [done|]. split; [done|]. eapply cR_mono; [|exact C]. by apply insert_subseteq.
  - intros x Hx. pose proof (HZ x Hx). rewrite !lookup_insert_ne by lia. by apply H2.
Qed.
(** what an access may change: the goroutine's own locations *)
Definition mine (s s' : st) (ρ : gmap nat nat) : Prop :=
  (forall x, (forall l, ρ !! l <> Some x) -> hp s' !! x = hp s !! x) /\ nxt s <= nxt s' /\ frR (froms s').
Lemma one_access {A B} (R : gmap nat nat -> A -> B -> Prop) ρ t s q p s' p' : prl Z F flat R ρ q p -> own t s ρ -> frR (froms s) -> n0 <= nxt s -> access s p s' p' ->
  exists t' q' ρ', access t q t' q' /\ prl Z F flat R ρ' q' p' /\ own t' s' ρ' /\ mine s s' ρ' /\ ρ ⊆ ρ' /\
    (forall x l, ρ' !! l = Some x -> ρ !! l = Some x \/ x = nxt s /\ nxt s < nxt s').
Proof.
  intros Hp Ho Hf Hn Ha. destruct Ha as [s c k|s l c k|s k|s id k|s id fr k|s n k o Hperm]; inversion Hp; subst.
  - exists (St (<[nxt t := c0]> (hp t)) (S (nxt t)) (froms t) (tick t)), (k0 (nxt t)), (<[nxt t := nxt s]> ρ).
    assert (Hfresh : ρ !! nxt t = None).
    { destruct (ρ !! nxt t) as [x|] eqn:E; [|done]. apply (own_dom _ _ _ Ho) in E. lia. }
    assert (Hfr' : forall x, ρ !! x <> Some (nxt s)) by (intros x E; apply (own_ran _ _ _ Ho) in E; lia).
    split; [constructor|]. split; [auto|]. split; [split; cbn|split; [|split; [by apply insert_subseteq|]]].
    + apply cell_new; try done; [apply Ho|apply Ho].
    + intros l l'. pose proof (own_n0 _ _ _ Ho). destruct (decide (l = nxt t)) as [->|Hne]; [lia|]. rewrite lookup_insert_ne by done. intros E. apply (own_dom _ _ _ Ho) in E. lia.
    + intros l l'. destruct (decide (l = nxt t)) as [->|Hne]; [rewrite lookup_insert; intros [= <-]; lia|]. rewrite lookup_insert_ne by done. intros E. apply (own_ran _ _ _ Ho) in E. lia.
    + intros l1 l2 l'. destruct (decide (l1 = nxt t)) as [->|H1], (decide (l2 = nxt t)) as [->|H2]; rewrite ?lookup_insert, ?lookup_insert_ne by done; try done.
      * intros [= <-] E. by apply Hfr' in E.
      * intros E [= <-]. by apply Hfr' in E.
      * apply (own_inj _ _ _ Ho).
    + apply Ho.
    + pose proof (own_n0 _ _ _ Ho). lia.
    + split; [|split; [cbn; lia|done]]. cbn. intros x Hx. destruct (decide (x = nxt s)) as [->|Hne]; [by destruct (Hx (nxt t)); apply lookup_insert|].
      by rewrite lookup_insert_ne.
    + intros x l. destruct (decide (l = nxt t)) as [->|Hne]; [rewrite lookup_insert; intros [= <-]; right; cbn; split; [done|lia]|]. rewrite lookup_insert_ne by done. by left.
  - match goal with H : ρ !! l0 = Some l |- _ => rename H into Hl end.
    exists (St (<[l0 := c0]> (hp t)) (nxt t) (froms t) (tick t)), k0, ρ.
    split; [constructor|]. split; [done|]. split; [split; cbn; try apply Ho|split; [|split; [done|]]].
    + apply cell_insert; try done; [apply Ho|apply Ho|by apply (own_dom _ _ _ Ho) in Hl as []|by apply (own_ran _ _ _ Ho) in Hl as []].
    + split; [|split; [done|done]]. cbn. intros x Hx. destruct (decide (x = l)) as [->|Hne]; [by destruct (Hx l0)|]. by rewrite lookup_insert_ne.
    + by left.
  - exists t, (k0 (hp t)), ρ. split; [constructor|]. split; [match goal with H : forall h h', _ |- _ => apply H end; apply Ho|]. split; [done|]. split; [|split; [done|by left]]. split; [done|]. by split.
  - exists t, (k0 (default [] (froms t !! id))), ρ. split; [constructor|]. rewrite Hf, (own_ft _ _ _ Ho). split; [done|]. split; [done|]. split; [|split; [done|by left]]. split; [done|]. by split.
  - assert (Hfr2 : forall g, frR g -> frR (<[id := default [] (F !! id)]> g)).
    { intros g Hg j. destruct (decide (j = id)) as [->|Hne]; [by rewrite lookup_insert|]. rewrite lookup_insert_ne by done. apply Hg. }
    exists (St (hp t) (nxt t) (<[id := default [] (F !! id)]> (froms t)) (tick t)), k0, ρ. split; [constructor|]. split; [done|]. split; [split; cbn; try apply Ho|split; [|split; [done|by left]]].
    + apply Hfr2, Ho.
    + split; [done|]. split; [done|]. cbn. by apply Hfr2.
  - exists (St (hp t) (nxt t) (froms t) (S (tick t))), (k0 o), ρ. split; [by constructor|]. split; [auto|]. split; [split; cbn; apply Ho|]. split; [|split; [done|by left]]. split; [done|]. by split.
Qed.

(** ** all goroutines *)
Context {A : Type} (s0 : st) (ps0 : list (prog A)).
Context (Hn0 : n0 = nxt s0) (HF : F = froms s0) (Hz0 : forall l, Z l -> exists ss, hp s0 !! l = Some (CArr (VS <$> ss)) /\ (flat = false -> ss = [])).
Notation thread := (st * prog A * gmap nat nat)%type.
Definition joint (s : st) (ps : list (prog A)) (ts : list thread) : Prop :=
  length ps = length ps0 /\
  (forall j p, ps !! j = Some p -> exists p0 t q ρ, ps0 !! j = Some p0 /\ ts !! j = Some (t, q, ρ) /\
     rtc acc1 (s0, p0) (t, q) /\ prl Z F flat (fun _ => eq) ρ q p /\ own t s ρ) /\
  (forall j k xj xk l1 l2 x, ts !! j = Some xj -> ts !! k = Some xk -> xj.2 !! l1 = Some x -> xk.2 !! l2 = Some x -> j = k) /\
  length ts = length ps0 /\
  n0 <= nxt s /\ frR (froms s) /\ (forall l, l < n0 -> hp s !! l = hp s0 !! l).
Definition grown (ts ts' : list thread) : Prop := forall k x, ts !! k = Some x -> exists x', ts' !! k = Some x' /\ x.2 ⊆ x'.2.
Lemma joint_turn s ps ts s' ps' : joint s ps ts -> turn (s, ps) (s', ps') -> exists ts', joint s' ps' ts' /\ grown ts ts'.
Proof.
  intros (Hlen & Hth & Hdis & Hlt & Hn & Hf & Hold) Ht. inversion Ht as [s1 ps1 j p s1' p' Hj Ha E1 E2]. subst. clear Ht.
  destruct (Hth j p Hj) as (p0 & t & q & ρ & Hp0 & Htj & Hrun & Hrel & Hown).
  destruct (one_access _ ρ t s q p s' p' Hrel Hown Hf Hn Ha) as (t' & q' & ρ' & Hq & Hrel' & Hown' & (Hm & Hnx & Hf') & Hsub & Hnew).
  exists (<[j := (t', q', ρ')]> ts).
  assert (Hjl : j < length ts) by (by eapply lookup_lt_Some).
  assert (Hold2 : forall l, l < n0 -> hp s' !! l = hp s !! l) by (intros l Hl; apply Hm; intros l1 Hl1; apply (own_ran _ _ _ Hown') in Hl1; lia).
  assert (Hothers : forall k xk l2 x, k <> j -> ts !! k = Some xk -> xk.2 !! l2 = Some x -> forall l1, ρ' !! l1 = Some x -> False).
  { intros k [[tk qk] ρk] l2 x Hkj Hk Hx l1 H1. destruct (Hnew x l1 H1) as [H2|[-> H2]].
    - apply Hkj. symmetry. eapply (Hdis j k); [exact Htj|exact Hk|exact H2|exact Hx].
    - assert (exists pk, ps !! k = Some pk) as [pk Hpk].
      { destruct (ps !! k) eqn:E; [by eexists|]. apply lookup_ge_None_1 in E. apply lookup_lt_Some in Hk. lia. }
      destruct (Hth k pk Hpk) as (? & ? & ? & ? & _ & Hk' & _ & _ & Ho). rewrite Hk in Hk'. injection Hk' as <- <- <-. apply (own_ran _ _ _ Ho) in Hx. lia. }
  split.
  2: { intros k x Hk. destruct (decide (k = j)) as [->|Hkj].
       - exists (t', q', ρ'). split; [by apply list_lookup_insert|]. rewrite Htj in Hk. by injection Hk as <-.
       - exists x. by rewrite list_lookup_insert_ne. }
  split; [by rewrite insert_length|]. split; [|split; [|split; [|split; [|split]]]].
  - intros k pk Hk. destruct (decide (k = j)) as [->|Hkj].
    + rewrite list_lookup_insert in Hk by (by eapply lookup_lt_Some). injection Hk as <-.
      exists p0, t', q', ρ'. split; [done|]. split; [by apply list_lookup_insert|]. split; [by eapply rtc_r|]. by split.
    + rewrite list_lookup_insert_ne in Hk by done. destruct (Hth k pk Hk) as (pk0 & tk & qk & ρk & A1 & A2 & A3 & A4 & A5).
      exists pk0, tk, qk, ρk. split; [done|]. split; [by rewrite list_lookup_insert_ne|]. split; [done|]. split; [done|].
      assert (Hsame : forall x l, ρk !! l = Some x -> hp s' !! x = hp s !! x).
      { intros x l Hx. apply Hm. intros l1 Hl1. by eapply (Hothers k (tk, qk, ρk)). }
      split; try apply A5.
      * destruct (own_hp _ _ _ A5) as [B1 B2]. split.
        -- intros l l' Hl. destruct (B1 l l' Hl) as (c & c' & C1 & C2 & C3). exists c, c'. by rewrite (Hsame l' l Hl).
        -- intros l Hl. destruct (B2 l Hl) as (ss & C1 & C2 & C3). exists ss. split; [done|]. split; [|done]. rewrite Hold2; [done|by apply HZ].
      * intros l l' Hl. apply (own_ran _ _ _ A5) in Hl. lia.
  - intros k1 k2 x1 x2 l1 l2 x H1 H2 H3 H4. destruct (decide (k1 = j)) as [->|D1], (decide (k2 = j)) as [->|D2]; [done| | |].
    + exfalso. rewrite list_lookup_insert in H1 by done. injection H1 as <-. rewrite list_lookup_insert_ne in H2 by done. cbn in H3. by eapply (Hothers k2).
    + exfalso. rewrite list_lookup_insert in H2 by done. injection H2 as <-. rewrite list_lookup_insert_ne in H1 by done. cbn in H4. by eapply (Hothers k1).
    + rewrite list_lookup_insert_ne in H1, H2 by done. by eapply Hdis.
  - by rewrite insert_length.
  - lia.
  - done.
  - intros l Hl. rewrite <- Hold by done. apply Hm. intros l1 Hl1. apply (own_ran _ _ _ Hown') in Hl1. lia.
Qed.
Lemma joint_start : (forall p, p ∈ ps0 -> prl Z F flat (fun _ => eq) ∅ p p) -> joint s0 ps0 ((fun p => (s0, p, ∅)) <$> ps0).
Proof.
  intros Hps. split; [done|]. split; [|split; [|split; [|split; [|split]]]].
  - intros j p Hj. exists p, s0, p, ∅. split; [done|]. split; [by rewrite list_lookup_fmap, Hj|]. split; [constructor|]. split; [apply Hps; by eapply elem_of_list_lookup_2|].
    split; try (intros *; rewrite lookup_empty; done).
    + split; [intros *; by rewrite lookup_empty|]. intros l Hl. destruct (Hz0 l Hl) as (ss & E1 & E2). by exists ss.
    + intros id. by rewrite HF.
    + by rewrite Hn0.
  - intros j k xj xk l1 l2 x Hj _ H. rewrite list_lookup_fmap in Hj. destruct (ps0 !! j); [|done]. injection Hj as <-. cbn in H. by rewrite lookup_empty in H.
  - by rewrite fmap_length.
  - by rewrite Hn0.
  - intros id. by rewrite HF.
  - done.
Qed.
Lemma joint_go s ps ts s' ps' : joint s ps ts -> rtc turn (s, ps) (s', ps') -> exists ts', joint s' ps' ts' /\ grown ts ts'.
Proof.
  intros Hj Hrun.
  assert (H : forall x y : st * list (prog A), rtc turn x y -> forall ts, joint x.1 x.2 ts -> exists ts', joint y.1 y.2 ts' /\ grown ts ts').
  { induction 1 as [|[s1 ps1] [s2 ps2] y Ht _ IH]; intros ts1 Hts; [exists ts1; split; [done|]; intros k x1 Hk; by exists x1|].
    destruct (joint_turn _ _ _ _ _ Hts Ht) as (ts2 & H2 & G2). destruct (IH ts2 H2) as (ts3 & H3 & G3). exists ts3. split; [done|].
    intros k x1 Hk. destruct (G2 k x1 Hk) as (x2 & Hx2 & S2). destruct (G3 k x2 Hx2) as (x3 & Hx3 & S3). exists x3. split; [done|]. by etrans. }
  by eapply (H _ _ Hrun).
Qed.
Lemma joint_run s ps : (forall p, p ∈ ps0 -> prl Z F flat (fun _ => eq) ∅ p p) -> rtc turn (s0, ps0) (s, ps) -> exists ts, joint s ps ts.
Proof. intros Hps Hrun. destruct (joint_go _ _ _ _ _ (joint_start Hps) Hrun) as (ts & H & _). by exists ts. Qed.
(** a goroutine writes only to its own locations *)
Lemma joint_write s ps ts j l c k : joint s ps ts -> ps !! j = Some (PWrite l c k) ->
  exists x l0, ts !! j = Some x /\ x.2 !! l0 = Some l /\ n0 <= l < nxt s.
Proof.
  intros (_ & Hth & _) Hj. destruct (Hth j _ Hj) as (p0 & t & q & ρ & Hp0 & Ht & Hrun & Hrel & Hown).
  inversion Hrel; subst. match goal with H : ρ !! _ = Some l |- _ => rename H into Hl end. eexists _, _. split; [exact Ht|]. split; [exact Hl|]. by apply (own_ran _ _ _ Hown) in Hl.
Qed.
Lemma writes_apart s1 ps1 s2 ps2 j1 j2 l c1 c2 k1 k2 : (forall p, p ∈ ps0 -> prl Z F flat (fun _ => eq) ∅ p p) ->
  rtc turn (s0, ps0) (s1, ps1) -> rtc turn (s1, ps1) (s2, ps2) ->
  ps1 !! j1 = Some (PWrite l c1 k1) -> ps2 !! j2 = Some (PWrite l c2 k2) -> j1 = j2.
Proof.
  intros Hps R1 R2 H1 H2. destruct (joint_run _ _ Hps R1) as (ts1 & J1). destruct (joint_go _ _ _ _ _ J1 R2) as (ts2 & J2 & G).
  destruct (joint_write _ _ _ _ _ _ _ J1 H1) as (x1 & l1 & A1 & A2 & _). destruct (joint_write _ _ _ _ _ _ _ J2 H2) as (x2 & l2 & B1 & B2 & _).
  destruct (G _ _ A1) as (x1' & C1 & C2). destruct J2 as (_ & _ & Hdis & _). eapply (Hdis j1 j2); [exact C1|exact B1| |exact B2]. eapply lookup_weaken; [exact A2|exact C2].
Qed.
(** ... and leaves From as it was *)
Lemma joint_set s ps ts j id fr k : joint s ps ts -> ps !! j = Some (PSet id fr k) -> fr = default [] (froms s !! id).
Proof.
  intros (_ & Hth & _ & _ & _ & Hf & _) Hj. destruct (Hth j _ Hj) as (p0 & t & q & ρ & Hp0 & Ht & Hrun & Hrel & Hown).
  inversion Hrel; subst. by rewrite Hf.
Qed.
Lemma joint_answer s ps ts j r : joint s ps ts -> ps !! j = Some (PRet r) ->
  exists p0 perm, ps0 !! j = Some p0 /\ orders perm /\ (pseq perm p0 s0).2 = r.
Proof.
  intros (_ & Hth & _) Hj. destruct (Hth j _ Hj) as (p0 & t & q & ρ & Hp0 & _ & Hrun & Hrel & _).
  inversion Hrel as [? r' ? Hr| | | | | |]; subst.
  destruct (alone_pseq _ _ r' Hrun eq_refl) as (perm & Ho & Hp). exists p0, perm. split; [done|]. split; [done|]. cbn in Hp. rewrite Hp. cbn.
  by destruct Hr; subst.
Qed.
End sim.

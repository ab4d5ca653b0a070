(** What the cache machine's invariants say about its events, and when loads return. *)
From stdpp Require Import strings list gmap.
From Verif Require Import Cache SpecCache CacheL.

Section thms.
Context {V E : Type} (deps : string -> list string).
Notation state := (state V E). Notation load := (load V E). Notation pc := (pc V E). Notation event := (event V E). Notation outcome := (outcome V E).
Implicit Types (s : state) (ld : load) (p : pc) (r : outcome).

Definition flags p : bool * option V := (building p, storing p).
Definition idle_pc p : Prop := flags p = (false, None).
Lemma in_phase_same s s' k ph : s_data s' !! k = s_data s !! k ->
  (forall l ld, s_loads s !! l = Some ld -> l_key ld = k -> ~ idle_pc (l_pc ld) -> exists ld', s_loads s' !! l = Some ld' /\ l_key ld' = k /\ flags (l_pc ld') = flags (l_pc ld)) ->
  (forall l ld, s_loads s' !! l = Some ld -> l_key ld = k -> ~ idle_pc (l_pc ld) -> exists ld', s_loads s !! l = Some ld' /\ l_key ld' = k /\ flags (l_pc ld') = flags (l_pc ld)) ->
  in_phase s k ph -> in_phase s' k ph.
Proof.
  intros Ed F B H. destruct ph as [|l|v]; cbn in *; rewrite Ed.
  - destruct H as [H1 H2]. split; [done|]. intros l ld Hl Hk.
    destruct (decide (building (l_pc ld) = false)) as [Hb|Hb].
    + destruct (storing (l_pc ld)) eqn:Es; [|done]. destruct (B l ld Hl Hk) as (ld' & Hl' & Hk' & Hf); [unfold idle_pc, flags; congruence|].
      destruct (H2 _ _ Hl' Hk') as [? Hs]. injection Hf as Hf1 Hf2. congruence.
    + destruct (B l ld Hl Hk) as (ld' & Hl' & Hk' & Hf); [unfold idle_pc, flags; congruence|].
      destruct (H2 _ _ Hl' Hk') as [? Hs]. injection Hf as Hf1 Hf2. congruence.
  - destruct H as (H1 & ld & Hl & Hk & Hb). split; [done|]. destruct (F l ld Hl Hk) as (ld' & Hl' & Hk' & Hf); [unfold idle_pc, flags; congruence|].
    exists ld'. injection Hf as Hf1 Hf2. split; [done|]. split; [done|congruence].
  - destruct H as [H|(H1 & l & ld & Hl & Hk & Hb)]; [by left|right]. split; [done|]. destruct (F l ld Hl Hk) as (ld' & Hl' & Hk' & Hf); [unfold idle_pc, flags; congruence|].
    exists l, ld'. injection Hf as Hf1 Hf2. split; [done|]. split; [done|congruence].
Qed.
Lemma in_phase_go s l ld p k ph fl cs n : s_loads s !! l = Some ld -> l_key ld <> k \/ flags p = flags (l_pc ld) -> in_phase s k ph ->
  in_phase (State (s_data s) fl cs (<[l := at_pc p ld]> (s_loads s)) n) k ph.
Proof.
  intros Hl Hp. apply in_phase_same; [done|..]; cbn [s_loads].
  - intros x y Hx Hk Hi. destruct (decide (x = l)) as [->|N]; [|exists y; by rewrite lookup_insert_ne]. assert (y = ld) as -> by congruence.
    destruct Hp as [Hp|Hp]; [done|]. exists (at_pc p ld). by rewrite lookup_insert.
  - intros x y. rewrite lookup_insert_Some. intros [[<- <-]|[_ Hx]] Hk Hi; [|by exists y]. destruct Hp as [Hp|Hp]; [done|]. by exists ld.
Qed.
Lemma in_phase_enter s k' up k ph : (forall ld, s_loads s !! s_next s <> Some ld) -> in_phase s k ph -> in_phase (enter k' up s) k ph.
Proof.
  intros Hn. apply in_phase_same; [done|..]; cbn [enter s_loads].
  - intros x y Hx Hk Hi. exists y. rewrite lookup_insert_ne; [done|]. intros <-. by apply (Hn y).
  - intros x y. rewrite lookup_insert_Some. intros [[<- <-]|[_ Hx]] Hk Hi; [by destruct Hi|]. by exists y.
Qed.
Lemma in_phase_leave s l ld r k ph fl cs n : s_loads s !! l = Some ld -> idle_pc (l_pc ld) -> in_phase s k ph ->
  in_phase (State (s_data s) fl cs (leave l ld r (s_loads s)) n) k ph.
Proof.
  intros Hl Hp. apply in_phase_same; [done|..]; cbn [s_loads].
  - intros x y Hx Hk Hi. assert (N : x <> l) by (intros ->; congruence). destruct (decide (l_up ld = Some x)) as [Eu|Nu].
    + exists (resume r y). split; [apply leave_lookup; split; [done|right; split; [done|by exists y]]|]. rewrite resume_key. split; [done|].
      unfold flags. by rewrite resume_building, resume_storing.
    + exists y. split; [apply leave_lookup; split; [done|by left]|done].
  - intros x y (y0 & Hx & N & [->| ->])%leave_old Hk Hi; [by exists y0|]. exists y0. rewrite resume_key in Hk. split; [done|]. split; [done|].
    unfold flags. by rewrite resume_building, resume_storing.
Qed.
Lemma fresh_next tr s : exec deps tr s -> forall ld, s_loads s !! s_next s <> Some ld.
Proof. intros H ld Hl. pose proof (st_next _ _ (stacked_exec deps tr s H) _ _ Hl). lia. Qed.
Lemma phases_one (k : string) (p0 p1 p2 : phase V) tr e : phases (E := E) k p0 tr p1 -> phase_step k p1 e p2 -> phases k p0 (tr ++ [e]) p2.
Proof. apply phases_snoc. Qed.

Lemma phased tr s : exec deps tr s -> forall k, exists ph, phases k Idle tr ph /\ in_phase s k ph.
Proof.
  induction 1 as [|tr s k' H IH|tr s es s' H IH (l & ld & Hl & Hst)]; intros k.
  - exists Idle. split; [constructor|]. split; [done|]. intros l ld. cbn. by rewrite lookup_empty.
  - destruct (IH k) as (ph & Hph & Hin). exists ph. split; [|apply in_phase_enter; [by eapply fresh_next|done]]. eapply phases_one; [done|].
    destruct (decide (k' = k)) as [->|N]; [constructor|by apply ph_other].
  - destruct (IH k) as (ph & Hph & Hin). pose proof (led_exec deps _ _ H) as HL. pose proof (valued_exec deps _ _ H) as [W1 W2 W3 W4].
    assert (Huniq : forall x y, s_loads s !! x = Some y -> l_key y = l_key ld -> (exists c', lead_call (l_pc y) = Some c') -> (exists c, lead_call (l_pc ld) = Some c) -> x = l).
    { intros x y Hx Ek [c' Hc'] [c Hc]. exact (lead_unique s x l y ld c' c HL Hx Hl Ek Hc' Hc). }
    destruct Hst as [c Hp Hf|Hp Hf|c v Hp Hd|c Hp Hd|c d ds Hp|c v Hp|c ds ok r Hp Hds Hk|c v Hp|c r Hp|c k' r Hp Hc].
    + exists ph. rewrite app_nil_r. split; [done|]. apply in_phase_go; [done| |done]. right. by rewrite Hp.
    + exists ph. rewrite app_nil_r. split; [done|]. apply in_phase_go; [done| |done]. right. by rewrite Hp.
    + exists ph. rewrite app_nil_r. split; [done|]. apply in_phase_go; [done| |done]. right. by rewrite Hp.
    + destruct (decide (l_key ld = k)) as [Ek|N].
      2:{ exists ph. split; [eapply phases_one; [done|by apply ph_other]|]. apply in_phase_go; [done|by left|done]. }
      assert (ph = Idle) as ->.
      { destruct ph as [|l0|v]; [done|exfalso|exfalso]; cbn in Hin.
        - destruct Hin as (_ & ld0 & Hl0 & Hk0 & Hb). assert (l0 = l) as ->.
          { apply (Huniq l0 ld0 Hl0); [congruence|by apply building_leads|rewrite Hp; by eexists]. } assert (ld0 = ld) as -> by congruence. by rewrite Hp in Hb.
        - destruct Hin as [Hin|(_ & l0 & ld0 & Hl0 & Hk0 & Hb)]; [congruence|]. assert (l0 = l) as ->.
          { apply (Huniq l0 ld0 Hl0); [congruence|by eapply storing_leads|rewrite Hp; by eexists]. } assert (ld0 = ld) as -> by congruence. by rewrite Hp in Hb. }
      exists (Running l). rewrite Ek. split; [eapply phases_one; [done|constructor]|]. cbn. split; [congruence|]. eexists. rewrite lookup_insert. done.
    + exists ph. split; [eapply phases_one; [done|]; destruct (decide (d = k)) as [->|N]; [constructor|by apply ph_other]|].
      apply in_phase_enter.
      * intros x. cbn. intros Hx. apply lookup_insert_Some in Hx as [[Hx _]|[_ Hx]]; [|by eapply fresh_next].
        pose proof (st_next _ _ (stacked_exec deps tr s H) _ _ Hl). lia.
      * apply in_phase_go; [done| |done]. right. by rewrite Hp.
    + assert (Hd : s_data s !! l_key ld = None) by (eapply W1; [done|by rewrite Hp]). destruct (decide (l_key ld = k)) as [Ek|N].
      2:{ exists ph. split; [eapply phases_one; [done|by apply ph_other]|]. apply in_phase_go; [done|by left|done]. }
      assert (ph = Running l) as ->.
      { destruct ph as [|l0|v0]; cbn in Hin.
        - destruct Hin as [_ Hin]. destruct (Hin l ld Hl Ek) as [Hb _]. by rewrite Hp in Hb.
        - destruct Hin as (_ & ld0 & Hl0 & Hk0 & Hb). f_equal. apply (Huniq l0 ld0 Hl0); [congruence|by apply building_leads|rewrite Hp; by eexists].
        - exfalso. destruct Hin as [Hin|(_ & l0 & ld0 & Hl0 & Hk0 & Hb)]; [congruence|]. assert (l0 = l) as ->.
          { apply (Huniq l0 ld0 Hl0); [congruence|by eapply storing_leads|rewrite Hp; by eexists]. } assert (ld0 = ld) as -> by congruence. by rewrite Hp in Hb. }
      exists (Built v). rewrite Ek. split; [eapply phases_one; [done|constructor]|]. cbn. right. split; [congruence|]. exists l. eexists. rewrite lookup_insert. done.
    + assert (Hd : s_data s !! l_key ld = None) by (eapply W1; [done|by rewrite Hp]). destruct (decide (l_key ld = k)) as [Ek|N].
      2:{ exists ph. split; [eapply phases_one; [done|by apply ph_other]|]. apply in_phase_go; [done|by left|done]. }
      assert (ph = Running l) as ->.
      { destruct ph as [|l0|v0]; cbn in Hin.
        - destruct Hin as [_ Hin]. destruct (Hin l ld Hl Ek) as [Hb _]. by rewrite Hp in Hb.
        - destruct Hin as (_ & ld0 & Hl0 & Hk0 & Hb). f_equal. apply (Huniq l0 ld0 Hl0); [congruence|by apply building_leads|rewrite Hp; by eexists].
        - exfalso. destruct Hin as [Hin|(_ & l0 & ld0 & Hl0 & Hk0 & Hb)]; [congruence|]. assert (l0 = l) as ->.
          { apply (Huniq l0 ld0 Hl0); [congruence|by eapply storing_leads|rewrite Hp; by eexists]. } assert (ld0 = ld) as -> by congruence. by rewrite Hp in Hb. }
      exists Idle. rewrite Ek. split; [eapply phases_one; [done|by constructor]|]. cbn. split; [congruence|]. intros x y Hx Hk'.
      apply lookup_insert_Some in Hx as [[<- <-]|[N Hx]]; [done|]. destruct (decide (building (l_pc y) = false)) as [Hb|Hb].
      * split; [done|]. destruct (storing (l_pc y)) eqn:Es; [|done]. destruct N. symmetry. apply (Huniq x y Hx); [congruence|by eapply storing_leads|rewrite Hp; by eexists].
      * apply not_false_is_true in Hb. destruct N. symmetry. apply (Huniq x y Hx); [congruence|by eapply building_leads|rewrite Hp; by eexists].
    + assert (Hd : s_data s !! l_key ld = None) by (eapply W2; [done|by rewrite Hp]). exists ph. rewrite app_nil_r. split; [done|].
      destruct (decide (l_key ld = k)) as [Ek|N].
      2:{ apply (in_phase_go s l ld (PFin c (OOk v)) k ph (s_flight s) (s_calls s) (s_next s) Hl) in Hin; [|by left].
          eapply in_phase_same; [..|exact Hin]; cbn [s_data s_loads]; [by rewrite lookup_insert_ne|..]; intros x y Hx Hk Hi; by exists y. }
      destruct ph as [|l0|v0]; cbn in Hin.
      * exfalso. destruct Hin as [_ Hin]. destruct (Hin l ld Hl Ek) as [_ Hb]. by rewrite Hp in Hb.
      * exfalso. destruct Hin as (_ & ld0 & Hl0 & Hk0 & Hb). assert (l0 = l) as ->.
        { apply (Huniq l0 ld0 Hl0); [congruence|by apply building_leads|rewrite Hp; by eexists]. } assert (ld0 = ld) as -> by congruence. by rewrite Hp in Hb.
      * destruct Hin as [Hin|(_ & l0 & ld0 & Hl0 & Hk0 & Hb)]; [congruence|]. assert (l0 = l) as ->.
        { apply (Huniq l0 ld0 Hl0); [congruence|by eapply storing_leads|rewrite Hp; by eexists]. } assert (ld0 = ld) as -> by congruence.
        rewrite Hp in Hb. injection Hb as <-. cbn. left. rewrite Ek. apply lookup_insert.
    + exists ph. split; [|apply in_phase_leave; [done|by rewrite Hp|done]]. eapply phases_one; [done|].
      destruct (decide (l_key ld = k)) as [Ek|N]; [|by apply ph_other]. destruct r as [v|e|]; [|rewrite Ek; by apply ph_error|rewrite Ek; by apply ph_error].
      pose proof (W3 _ _ _ _ Hl Hp) as Hd. destruct ph as [|l0|v0]; cbn in Hin.
      * destruct Hin. congruence.
      * destruct Hin. congruence.
      * destruct Hin as [Hin|[Hin _]]; [|congruence]. assert (v0 = v) as -> by congruence. rewrite Ek. constructor.
    + exists ph. split; [|apply in_phase_leave; [done|by rewrite Hp|done]]. eapply phases_one; [done|].
      destruct (decide (l_key ld = k)) as [Ek|N]; [|by apply ph_other]. destruct r as [v|e|]; [|rewrite Ek; by apply ph_error|rewrite Ek; by apply ph_error].
      assert (Hk : k' = l_key ld).
      { destruct (led_wait _ _ _ _ HL l (l_key ld) None c) as [r' Hr']; [rewrite lookup_fmap, Hl; cbn; unfold role_of; by rewrite Hp|]. rewrite Hc in Hr'. by injection Hr'. }
      pose proof (W4 _ _ _ Hc) as Hd. rewrite Hk in Hd. destruct ph as [|l0|v0]; cbn in Hin.
      * destruct Hin. congruence.
      * destruct Hin. congruence.
      * destruct Hin as [Hin|[Hin _]]; [|congruence]. assert (v0 = v) as -> by congruence. rewrite Ek. constructor.
Qed.

(** ** failures are fresh *)
Definition fresh (tr : list event) (l : nat) (k : string) r : Prop :=
  exists l' a b, End l' k r ∈ tr /\ tr = a ++ Call l k :: b /\ Ret l' k r ∈ b.
Lemma fresh_snoc tr es l k r : fresh tr l k r -> fresh (tr ++ es) l k r.
Proof.
  intros (l' & a & b & H1 & -> & H2). exists l', a, (b ++ es). split; [rewrite elem_of_app; by left|]. split; [by rewrite <- app_assoc|]. rewrite elem_of_app. by left.
Qed.
Record told (tr : list event) s : Prop := Told {
  td_call l ld : s_loads s !! l = Some ld -> Call l (l_key ld) ∈ tr;
  td_fin l ld c r : s_loads s !! l = Some ld -> l_pc ld = PFin c r -> is_ok r = false -> End l (l_key ld) r ∈ tr;
  td_wait l ld c r : s_loads s !! l = Some ld -> l_pc ld = PWait c -> s_calls s !! c = Some (l_key ld, Some r) -> is_ok r = false -> fresh tr l (l_key ld) r
}.
Lemma told_exec tr s : exec deps tr s -> told tr s.
Proof.
  induction 1 as [|tr s k' H IH|tr s es s' H IH (l & ld & Hl & Hst)].
  - split; intros *; cbn; by rewrite ?lookup_empty.
  - destruct IH as [H1 H2 H3]. split; cbn [enter s_loads s_calls].
    + intros x y. rewrite lookup_insert_Some, elem_of_app, elem_of_list_singleton. intros [[<- <-]|[_ Hx]]; [by right|left; by apply H1].
    + intros x y c r. rewrite lookup_insert_Some, elem_of_app. intros [[<- <-]|[_ Hx]]; [done|]. intros. left. by eapply H2.
    + intros x y c r. rewrite lookup_insert_Some. intros [[<- <-]|[_ Hx]]; [done|]. intros. apply fresh_snoc. by eapply H3.
  - pose proof (led_exec deps _ _ H) as HL. destruct IH as [H1 H2 H3].
    assert (Go : forall p fl es n, (forall c r, p = PFin c r -> is_ok r = false -> End l (l_key ld) r ∈ tr ++ es) ->
      (forall c r, p = PWait c -> s_calls s !! c = Some (l_key ld, Some r) -> is_ok r = false -> False) ->
      forall da cs, (forall c k r, cs !! c = Some (k, Some r) -> s_calls s !! c = Some (k, Some r)) ->
      told (tr ++ es) (State da fl cs (<[l := at_pc p ld]> (s_loads s)) n)).
     { intros p fl es0 n G1 G2 da cs Gc. split; cbn [go s_loads s_calls].
      - intros x y. rewrite lookup_insert_Some, elem_of_app. intros [[<- <-]|[_ Hx]]; left; [by apply (H1 l ld)|by apply H1].
      - intros x y c r. rewrite lookup_insert_Some. intros [[<- <-]|[_ Hx]]; [apply G1|]. intros. rewrite elem_of_app. left. by eapply H2.
      - intros x y c r. rewrite lookup_insert_Some. intros [[<- <-]|[_ Hx]] Hy Hc Hr; [|apply fresh_snoc; eapply H3; [done|done|by apply Gc|done]].
        by destruct (G2 _ _ Hy (Gc _ _ _ Hc) Hr). }
    destruct Hst as [c Hp Hf|Hp Hf|c v Hp Hd|c Hp Hd|c d ds Hp|c v Hp|c ds ok r Hp Hds Hk|c v Hp|c r Hp|c k' r Hp Hc].
    + apply Go; try done. intros c' r [= <-] Hc _. destruct (led_flight _ _ _ _ HL _ _ Hf) as (l2 & w2 & Hl2). apply (led_open _ _ _ _ HL) in Hl2. congruence.
    + apply Go; try done. intros c k r Hc. apply lookup_app_Some in Hc as [Hc|[_ Hc]]; [done|]. by destruct (c - _) as [|[|]].
    + apply Go; try done. by intros ? ? [= _ <-].
    + by apply Go.
    + assert (HT : told (tr ++ [Call (s_next s) d]) (go l ld (PNest c ds) s)) by (by apply Go). destruct HT as [G1 G2 G3].
      split; cbn [enter s_loads s_calls] in *.
      * intros x y. rewrite lookup_insert_Some. intros [[<- <-]|[_ Hx]]; [rewrite elem_of_app, elem_of_list_singleton; by right|by apply G1].
      * intros x y c' r. rewrite lookup_insert_Some. intros [[<- <-]|[_ Hx]]; [done|]. by eapply G2.
      * intros x y c' r. rewrite lookup_insert_Some. intros [[<- <-]|[_ Hx]]; [done|]. by eapply G3.
    + by apply Go.
    + apply Go; try done. intros c' r' [= _ <-] _. rewrite elem_of_app, elem_of_list_singleton. by right.
    + apply Go; try done. by intros ? ? [= _ <-].
    + split; cbn [s_loads s_calls].
      * intros x y (y0 & Hx & N & Hy)%leave_old. rewrite elem_of_app. left. destruct Hy as [->| ->]; rewrite ?resume_key; by apply H1.
      * intros x y c' r' (y0 & Hx & N & Hy)%leave_old Hpc Hr. rewrite elem_of_app. left. destruct Hy as [->| ->]; rewrite ?resume_key; [by eapply H2|]. apply resume_fin in Hpc. by eapply H2.
      * intros x y c' r' (y0 & Hx & N & Hy)%leave_old Hpc Hc' Hr.
        assert (Hpc0 : l_pc y0 = PWait c') by (destruct Hy as [->| ->]; [done|by apply resume_wait in Hpc]).
        assert (Hk0 : l_key y = l_key y0) by (destruct Hy as [->| ->]; [done|by rewrite resume_key]). rewrite Hk0 in *.
        apply list_lookup_insert_Some in Hc' as [(-> & [= Ek ->] & _)|[_ Hc']]; [|apply fresh_snoc; by eapply H3].
        pose proof (H1 _ _ Hx) as Hin. apply elem_of_list_split in Hin as (a & b & Htr). exists l, a, (b ++ [Ret l (l_key ld) r']).
        pose proof (H2 _ _ _ _ Hl Hp Hr) as Hend. rewrite <- Ek. split; [rewrite elem_of_app; by left|]. split; [rewrite Htr at 1; by rewrite <- app_assoc, Ek|].
        rewrite elem_of_app, elem_of_list_singleton. by right.
    + split; cbn [s_loads s_calls].
      * intros x y (y0 & Hx & N & Hy)%leave_old. rewrite elem_of_app. left. destruct Hy as [->| ->]; rewrite ?resume_key; by apply H1.
      * intros x y c' r' (y0 & Hx & N & Hy)%leave_old Hpc Hr. rewrite elem_of_app. left. destruct Hy as [->| ->]; rewrite ?resume_key; [by eapply H2|]. apply resume_fin in Hpc. by eapply H2.
      * intros x y c' r' (y0 & Hx & N & Hy)%leave_old Hpc Hc' Hr. apply fresh_snoc. destruct Hy as [->| ->]; rewrite ?resume_key in *; [by eapply H3|]. apply resume_wait in Hpc. by eapply H3.
Qed.
Lemma snoc_split {A} (tr es a b : list A) x : tr ++ es = a ++ x :: b -> length es <= 1 -> (exists b', tr = a ++ x :: b') \/ (es = [x] /\ tr = a /\ b = []).
Proof.
  intros Heq Hlen. destruct es as [|e [|]]; cbn in Hlen; [left; exists b; by rewrite app_nil_r in Heq| |lia].
  destruct (exists_last (l := x :: b)) as (b' & y & Hb); [done|]. rewrite Hb, app_assoc in Heq. apply app_inj_tail in Heq as [-> ->].
  destruct b' as [|z b']; [injection Hb as -> ->; right; by rewrite app_nil_r|]. injection Hb as <- ->. left. by exists b'.
Qed.
Lemma moves_one s es s' : moves deps s es s' -> length es <= 1.
Proof. intros (l & ld & _ & H). destruct H; cbn; lia. Qed.
Lemma failures_fresh tr s : exec deps tr s -> forall tr1 tr2 l k r, tr = tr1 ++ Ret l k r :: tr2 -> is_ok r = false ->
  (exists a b, tr1 = a ++ Call l k :: b) /\ (End l k r ∈ tr1 \/ fresh tr1 l k r).
Proof.
  induction 1 as [|tr s k' H IH|tr s es s' H IH Hm]; intros tr1 tr2 l k r Htr Hr; [by destruct tr1| |].
  - destruct (snoc_split _ _ _ _ _ Htr) as [[b' Hb]|([=] & _)]; [cbn; lia|]. by eapply IH.
  - destruct (snoc_split _ _ _ _ _ Htr) as [[b' Hb]|(-> & -> & ->)]; [by eapply moves_one|by eapply IH|]. clear Htr IH.
    pose proof (told_exec _ _ H) as [H1 H2 H3]. pose proof (led_exec deps _ _ H) as HL. destruct Hm as (l' & ld & Hl & Hst). inversion Hst as [| | | | | | | |c r' Hp|c k'' r' Hp Hc]; subst.
    + split; [by apply elem_of_list_split, H1|]. left. by eapply H2.
    + split; [by apply elem_of_list_split, H1|]. right. eapply H3; [done|done| |done].
      destruct (led_wait _ _ _ _ HL l (l_key ld) None c) as [r' Hr']; [rewrite lookup_fmap, Hl; cbn; unfold role_of; by rewrite Hp|]. by rewrite Hc in *; injection Hr' as -> <-.
Qed.
End thms.

(** The life of one load, and building again after a failure. *)
From stdpp Require Import strings list gmap.
From Verif Require Import Cache SpecCache CacheL CacheT CacheP.

Section st.
Context {V E : Type}.
Lemma stages_inv (l : nat) (p q : stage V E) (tr : list (event V E)) : stages l p tr q ->
  (tr = [] /\ q = p) \/ exists tr' p' e, tr = tr' ++ [e] /\ stages l p tr' p' /\ stage_step l p' e q.
Proof. intros H. destruct H as [p|p tr p' e p'' H1 H2]; [by left|right]. by exists tr, p', e. Qed.
Lemma stages_app (l : nat) (p q : stage V E) (a b : list (event V E)) : stages l p (a ++ b) q -> exists m, stages l p a m /\ stages l m b q.
Proof.
  revert q. induction b as [|e b IH] using rev_ind; intros q H; [exists q; rewrite app_nil_r in H; split; [done|constructor]|].
  rewrite app_assoc in H. apply stages_inv in H as [[Hn _]|(tr & p' & e' & Ht & H1 & H2)]; [by apply app_nil in Hn as [_ [=]]|].
  apply app_inj_tail in Ht as [<- <-]. destruct (IH _ H1) as (m & Hm & Hb). exists m. split; [done|]. by eapply stages_snoc.
Qed.
Lemma stages_cons (l : nat) (p q : stage V E) e (b : list (event V E)) : stages l p (e :: b) q -> exists m, stage_step l p e m /\ stages l m b q.
Proof.
  intros H. apply (stages_app l p q [e] b) in H as (m & H1 & H2). exists m. split; [|done].
  apply stages_inv in H1 as [[[=] _]|(tr & p' & e' & Ht & H3 & H4)]. destruct tr as [|x tr]; [|by destruct tr]. injection Ht as ->.
  apply stages_inv in H3 as [[_ ->]|(tr & p2 & e2 & Ht & _)]; [done|]. by destruct tr.
Qed.
(** how far a load is *)
Definition far (g : stage V E) : nat := match g with New => 0 | Called _ => 1 | Building _ => 2 | Ended _ _ => 3 | Gone => 4 end.
Definition after (e : event V E) : nat := match e with Call _ _ => 1 | Start _ _ => 2 | End _ _ _ => 3 | Ret _ _ _ => 4 end.
Lemma far_step (l : nat) (p q : stage V E) e : stage_step l p e q -> far p <= far q /\ (load_of e = l -> far p < after e /\ far q = after e).
Proof. intros H. destruct H; cbn; (split; [lia|]); intros; try lia; done. Qed.
Lemma far_stages (l : nat) (p q : stage V E) tr : stages l p tr q -> far p <= far q /\ forall e, e ∈ tr -> load_of e = l -> far p < after e <= far q.
Proof.
  induction 1 as [p|p tr p' e p'' H [IH1 IH2] Hs]; [split; [done|]; by intros e []%elem_of_nil|].
  apply far_step in Hs as [H1 H2]. split; [lia|]. intros e'. rewrite elem_of_app, elem_of_list_singleton. intros [Hin| ->] Hl; [specialize (IH2 _ Hin Hl); lia|specialize (H2 Hl); lia].
Qed.
End st.

Section ret.
Context {V E : Type} (deps : string -> list string).
Notation state := (state V E). Notation load := (load V E). Notation pc := (pc V E). Notation event := (event V E). Notation outcome := (outcome V E).
Implicit Types (s : state) (ld : load) (p : pc) (r : outcome).

Definition in_stage s (l : nat) (g : stage V E) : Prop :=
  match g with
  | New => s_next s <= l
  | Called k => exists ld, s_loads s !! l = Some ld /\ l_key ld = k /\ building (l_pc ld) = false
  | Building k => exists ld, s_loads s !! l = Some ld /\ l_key ld = k /\ building (l_pc ld) = true
  | Ended k r => exists ld, s_loads s !! l = Some ld /\ l_key ld = k /\
      ((exists c v, l_pc ld = PStore c v /\ r = OOk v) \/ (exists c, l_pc ld = PFin c r))
  | Gone => s_loads s !! l = None /\ l < s_next s
  end.
Lemma in_stage_other s s' l g : in_stage s l g -> (g = New -> s_next s' <= l) -> s_next s <= s_next s' ->
  (forall ld, s_loads s !! l = Some ld -> exists r, s_loads s' !! l = Some ld \/ s_loads s' !! l = Some (resume r ld)) ->
  (l < s_next s -> s_loads s !! l = None -> s_loads s' !! l = None) -> in_stage s' l g.
Proof.
  intros H Hnew Hn Hs Hnone. destruct g as [|k|k|k r|]; cbn in *.
  - by apply Hnew.
  - destruct H as (ld & Hl & Hk & Hb). destruct (Hs _ Hl) as (r & [Hl'|Hl']); [by exists ld|]. exists (resume r ld). by rewrite resume_key, resume_building.
  - destruct H as (ld & Hl & Hk & Hb). destruct (Hs _ Hl) as (r & [Hl'|Hl']); [by exists ld|]. exists (resume r ld). by rewrite resume_key, resume_building.
  - destruct H as (ld & Hl & Hk & Hb). destruct (Hs _ Hl) as (r0 & [Hl'|Hl']); [by exists ld|]. exists (resume r0 ld). rewrite resume_key. split; [done|]. split; [done|].
    destruct Hb as [(c & v & Hp & Hr)|(c & Hp)]; [left; exists c, v|right; exists c]; unfold resume; by rewrite Hp.
  - destruct H as [H1 H2]. split; [by apply Hnone|lia].
Qed.
Lemma in_stage_key s l ld g : s_loads s !! l = Some ld -> l < s_next s -> in_stage s l g ->
  g = Called (l_key ld) /\ building (l_pc ld) = false \/ g = Building (l_key ld) /\ building (l_pc ld) = true \/
  exists r, g = Ended (l_key ld) r /\ ((exists c v, l_pc ld = PStore c v /\ r = OOk v) \/ (exists c, l_pc ld = PFin c r)).
Proof.
  intros Hl Hn H. destruct g as [|k|k|k r|]; cbn in H.
  - lia.
  - destruct H as (ld' & Hl' & <- & Hb). assert (ld' = ld) as -> by congruence. by left.
  - destruct H as (ld' & Hl' & <- & Hb). assert (ld' = ld) as -> by congruence. right. by left.
  - destruct H as (ld' & Hl' & <- & Hb). assert (ld' = ld) as -> by congruence. right. right. by exists r.
  - destruct H as [H _]. congruence.
Qed.
Lemma staged tr s : exec deps tr s -> forall l, exists g, stages l New tr g /\ in_stage s l g.
Proof.
  induction 1 as [|tr s k H IH|tr s es s' H IH (l & ld & Hl & Hst)]; intros l0.
  - exists New. split; [constructor|]. cbn. lia.
  - destruct (IH l0) as (g & Hg & Hin). destruct (decide (l0 = s_next s)) as [->|N].
    + assert (g = New) as ->.
      { destruct g as [|k'|k'|k' r|]; [done|..]; cbn in Hin; [by destruct Hin as (ld & Hld & _); destruct (fresh_next deps _ _ H ld)..|lia]. }
      exists (Called k). split; [eapply stages_snoc; [done|constructor]|]. cbn. eexists. rewrite lookup_insert. done.
    + exists g. split; [eapply stages_snoc; [done|]; apply stg_other; cbn; done|].
      apply (in_stage_other s); [done|..]; cbn.
      * intros ->. cbn in Hin. lia.
      * lia.
      * intros ld Hl. exists OPanic. left. by rewrite lookup_insert_ne.
      * intros _ Hl. by rewrite lookup_insert_ne.
  - destruct (IH l0) as (g & Hg & Hin). pose proof (stacked_exec deps _ _ H) as [G1 G2 G2' G3 G4]. pose proof (G1 _ _ Hl) as Hln.
    destruct (decide (l0 = l)) as [->|N].
    + pose proof (in_stage_key s l ld g Hl Hln Hin) as Hkey.
      assert (Hret : forall r, (exists c, l_pc ld = PFin c r) \/ (exists c, l_pc ld = PWait c) -> stage_step l g (Ret l (l_key ld) r) Gone).
      { intros r Hp. destruct Hkey as [(-> & Hb)|[(-> & Hb)|(r' & -> & Hr)]]; [apply stg_told|by destruct Hp as [[c Hp]|[c Hp]]; rewrite Hp in Hb|].
        destruct Hp as [[c Hp]|[c Hp]]; rewrite Hp in Hr; destruct Hr as [(c' & v & [=] & _)|(c' & [=])]; subst. apply stg_ret. }
      assert (Hgone : forall r, leave l ld r (s_loads s) !! l = None).
      { intros r. destruct (leave l ld r (s_loads s) !! l) as [y|] eqn:Ey; [|done]. apply leave_lookup in Ey as [[] _]. done. }
      assert (Hsame : forall p fl cs da, building p = building (l_pc ld) -> (building p = false -> g = Called (l_key ld) \/ exists c v, l_pc ld = PStore c v /\ p = PFin c (OOk v)) ->
        in_stage (State da fl cs (<[l := at_pc p ld]> (s_loads s)) (s_next s)) l g).
      { intros p fl cs da Hb Hcase. destruct Hkey as [(-> & Hb')|[(-> & Hb')|(r' & -> & Hr)]]; cbn.
        - exists (at_pc p ld). rewrite lookup_insert. split; [done|]. split; [done|]. cbn. congruence.
        - exists (at_pc p ld). rewrite lookup_insert. split; [done|]. split; [done|]. cbn. congruence.
        - exists (at_pc p ld). rewrite lookup_insert. split; [done|]. split; [done|]. cbn. destruct Hcase as [[=]|(c & v & Hp & ->)].
          { rewrite Hb. by destruct Hr as [(c & v & -> & _)|(c & ->)]. }
          right. exists c. rewrite Hp in Hr. destruct Hr as [(c' & v' & [= <- <-] & ->)|(c' & [=])]. done. }
      destruct Hst as [c Hp Hf|Hp Hf|c v Hp Hd|c Hp Hd|c d ds Hp|c v Hp|c ds ok r Hp Hds Hk|c v Hp|c r Hp|c k r Hp Hc].
      * rewrite app_nil_r. exists g. split; [done|]. apply Hsame; [by rewrite Hp|]. intros _. left.
        destruct Hkey as [(-> & _)|[(_ & Hb)|(r & _ & [(c' & v & Hx & _)|(c' & Hx)])]]; [done|by rewrite Hp in Hb|congruence|congruence].
      * rewrite app_nil_r. exists g. split; [done|]. apply Hsame; [by rewrite Hp|]. intros _. left.
        destruct Hkey as [(-> & _)|[(_ & Hb)|(r & _ & [(c' & v & Hx & _)|(c' & Hx)])]]; [done|by rewrite Hp in Hb|congruence|congruence].
      * rewrite app_nil_r. exists g. split; [done|]. apply Hsame; [by rewrite Hp|]. intros _. left.
        destruct Hkey as [(-> & _)|[(_ & Hb)|(r & _ & [(c' & v' & Hx & _)|(c' & Hx)])]]; [done|by rewrite Hp in Hb|congruence|congruence].
      * exists (Building (l_key ld)). split.
        { eapply stages_snoc; [done|]. destruct Hkey as [(-> & _)|[(_ & Hb)|(r & _ & [(c' & v' & Hx & _)|(c' & Hx)])]]; [constructor|by rewrite Hp in Hb|congruence|congruence]. }
        cbn. eexists. rewrite lookup_insert. done.
      * exists g. split; [eapply stages_snoc; [done|]; apply stg_other; cbn; lia|].
        destruct Hkey as [(-> & Hb)|[(-> & Hb)|(r' & -> & [(c' & v' & Hx & _)|(c' & Hx)])]]; [by rewrite Hp in Hb| |congruence|congruence].
        cbn. eexists. rewrite lookup_insert_ne by lia. rewrite lookup_insert. done.
      * exists (Ended (l_key ld) (OOk v)). split.
        { eapply stages_snoc; [done|]. destruct Hkey as [(-> & Hb)|[(-> & Hb)|(r & _ & [(c' & v' & Hx & _)|(c' & Hx)])]]; [by rewrite Hp in Hb|constructor|congruence|congruence]. }
        cbn. eexists. rewrite lookup_insert. split; [done|]. split; [done|]. left. by eexists _, _.
      * exists (Ended (l_key ld) r). split.
        { eapply stages_snoc; [done|]. destruct Hkey as [(-> & Hb)|[(-> & Hb)|(r' & _ & [(c' & v' & Hx & _)|(c' & Hx)])]]; [by rewrite Hp in Hb|constructor|congruence|congruence]. }
        cbn. eexists. rewrite lookup_insert. split; [done|]. split; [done|]. right. by eexists.
      * rewrite app_nil_r. exists g. split; [done|]. apply Hsame; [by rewrite Hp|]. intros _. right. by exists c, v.
      * exists Gone. split; [eapply stages_snoc; [done|]; apply Hret; left; by exists c|]. cbn. by rewrite Hgone.
      * exists Gone. split; [eapply stages_snoc; [done|]; apply Hret; right; by exists c|]. cbn. by rewrite Hgone.
    + assert (Hev : forall e, load_of e = l \/ load_of e <> l0 -> stages l0 New (tr ++ [e]) g).
      { intros e He. eapply stages_snoc; [done|]. apply stg_other. destruct He as [->|He]; done. }
      assert (Hgo : forall p fl cs da, in_stage (State da fl cs (<[l := at_pc p ld]> (s_loads s)) (s_next s)) l0 g).
      { intros p fl cs da. apply (in_stage_other s); [done|by intros ->|done|..]; cbn.
        - intros ld0 Hl0. exists OPanic. left. by rewrite lookup_insert_ne.
        - intros _ Hl0. by rewrite lookup_insert_ne. }
      assert (Hlv : forall r fl cs da, in_stage (State da fl cs (leave l ld r (s_loads s)) (s_next s)) l0 g).
      { intros r fl cs da. apply (in_stage_other s); [done|by intros ->|done|..]; cbn.
        - intros ld0 Hl0. exists r. destruct (decide (l_up ld = Some l0)) as [Eu|Nu].
          + right. apply leave_lookup. split; [done|]. right. split; [done|]. by exists ld0.
          + left. apply leave_lookup. split; [done|]. by left.
        - intros _ Hl0. destruct (leave l ld r (s_loads s) !! l0) as [y|] eqn:Ey; [|done]. apply leave_old in Ey as (y0 & Hy & _). congruence. }
      destruct Hst as [c Hp Hf|Hp Hf|c v Hp Hd|c Hp Hd|c d ds Hp|c v Hp|c ds ok r Hp Hds Hk|c v Hp|c r Hp|c k r Hp Hc];
        try (exists g; rewrite app_nil_r; split; [done|]; apply Hgo); try (exists g; split; [apply Hev; by left|]; apply Hgo); try (exists g; split; [apply Hev; by left|]; apply Hlv).
      destruct (decide (l0 = s_next s)) as [->|N'].
      * assert (g = New) as ->.
        { destruct g as [|k'|k'|k' r|]; [done|..]; cbn in Hin; [by destruct Hin as (ld' & Hld & _); destruct (fresh_next deps _ _ H ld')..|lia]. }
        exists (Called d). split; [eapply stages_snoc; [done|constructor]|]. cbn. eexists. rewrite lookup_insert. done.
      * exists g. split; [apply Hev; right; cbn; done|]. apply (in_stage_other s); [done|..]; cbn.
        -- intros ->. cbn in Hin. lia.
        -- lia.
        -- intros ld0 Hl0. exists OPanic. left. by rewrite !lookup_insert_ne.
        -- intros _ Hl0. by rewrite !lookup_insert_ne.
Qed.

(** a load that is called when all earlier loads of its key have returned without success builds again *)
Lemma idle_stays (k : string) (q : phase V) (tr : list event) : phases k Idle tr q -> (forall l, ~ Start l k ∈ tr) ->
  q = Idle /\ (forall l r, ~ End l k r ∈ tr) /\ (forall l v, ~ Ret l k (OOk v) ∈ tr).
Proof.
  remember (@Idle V) as p eqn:Hp. intros H. induction H as [|p tr p' e p'' H IH Hs]; intros Hno; [subst; split; [done|]; split; intros * []%elem_of_nil|].
  destruct (IH Hp) as (-> & H2 & H3); [intros l Hin; apply (Hno l); rewrite elem_of_app; by left|]. subst p.
  assert (Hs' : p'' = Idle /\ (forall l r, e <> End l k r) /\ (forall l w, e <> Ret l k (OOk w))).
  { inversion Hs as [l|l w|l r|l w|l r q Hr|l q|e0 q Hk]; subst.
    - destruct (Hno l). rewrite elem_of_app, elem_of_list_singleton. by right.
    - split; [done|]. split; intros *; [done|]. intros Hx. injection Hx as -> ->. done.
    - done.
    - split; [done|]. split; intros * Hx; subst e; done. }
  destruct Hs' as (-> & G2 & G3). split; [done|]. split; intros *; rewrite elem_of_app, elem_of_list_singleton; intros [Hx|Hx].
  - by eapply H2.
  - by eapply G2.
  - by eapply H3.
  - by eapply G3.
Qed.
Lemma running_from (k : string) (p : phase V) l (tr : list event) : phases k p tr (Running l) -> p = Running l /\ (forall l' r, ~ End l' k r ∈ tr) \/
  exists a b, tr = a ++ Start l k :: b /\ forall l' r, ~ End l' k r ∈ b.
Proof.
  remember (Running l) as q eqn:Hq. intros H. revert l Hq. induction H as [|p tr p' e p'' H IH Hs]; intros l Hq; [left; split; [done|]; intros * []%elem_of_nil|]. subst.
  assert (Hs' : (p' = Running l /\ forall l' r, e <> End l' k r) \/ e = Start l k).
  { inversion Hs as [l'|l' w|l' r|l' w|l' r q Hr|l' q|e0 q Hk]; subst; try (by right); left; (split; [done|]); intros * Hx; try done. by subst e. }
  destruct Hs' as [[-> He]| ->].
  - destruct (IH l eq_refl) as [[-> Hno]|(a & b & -> & Hno)]; [left; split; [done|]|right; exists a, (b ++ [e]); split; [by rewrite <- app_assoc|]];
      intros l' r; rewrite elem_of_app, elem_of_list_singleton; (intros [Hx|Hx]; [by eapply Hno|by eapply He]).
  - right. exists tr, []. split; [done|]. intros * []%elem_of_nil.
Qed.
Lemma key_stages (l : nat) (g : stage V E) (tr : list event) e : stages l New tr g -> e ∈ tr -> load_of e = l -> Call l (key_of e) ∈ tr.
Proof.
  intros H. remember (@New V E) as g0 eqn:Hg.
  assert (HH : match g with New => True | Called k | Building k | Ended k _ => Call l k ∈ tr | Gone => exists k, Call l k ∈ tr end /\ forall e, e ∈ tr -> load_of e = l -> Call l (key_of e) ∈ tr).
  { induction H as [g|g tr p' e0 p'' H IH Hs]; [split; [by subst|]; intros * []%elem_of_nil|]. destruct (IH Hg) as [H1 H2]. subst g.
    assert (Hw : forall e, e ∈ tr -> load_of e = l -> Call l (key_of e) ∈ tr ++ [e0]) by (intros; rewrite elem_of_app; left; by apply H2).
    assert (Hs' : match p'' with New => True | Called k | Building k | Ended k _ => Call l k ∈ tr ++ [e0] | Gone => exists k, Call l k ∈ tr ++ [e0] end /\ (load_of e0 = l -> Call l (key_of e0) ∈ tr ++ [e0])).
    { inversion Hs as [k|k|k r|k r|k r|e1 g1 Hne]; subst; cbn.
      - split; intros; rewrite elem_of_app, elem_of_list_singleton; by right.
      - split; intros; rewrite elem_of_app; by left.
      - split; intros; rewrite elem_of_app; by left.
      - split; [exists k|intros]; rewrite elem_of_app; by left.
      - split; [exists k|intros]; rewrite elem_of_app; by left.
      - split; [|done]. destruct p''; try done; [rewrite elem_of_app; by left..|]. destruct H1 as [k H1]. exists k. rewrite elem_of_app. by left. }
    destruct Hs' as [G1 G2]. split; [done|]. intros e1 [Hin| ->%elem_of_list_singleton]%elem_of_app; [by apply Hw|done]. }
  by apply HH.
Qed.
Lemma rebuilds tr s a b l k r : exec deps tr s -> tr = a ++ Call l k :: b ++ [Ret l k r] ->
  (forall l', Call l' k ∈ a -> exists r', Ret l' k r' ∈ a) -> (forall l' v, ~ End l' k (OOk v) ∈ a) -> exists l', Start l' k ∈ b.
Proof.
  intros H Htr Hall Hnos. destruct (phased deps tr s H k) as (ph & Hph & _). rewrite Htr in Hph.
  apply phases_app in Hph as (m & H1 & H2). apply phases_cons in H2 as (m1 & Hc & H2). apply phases_app in H2 as (m2 & H2 & H3).
  assert (m1 = m) as ->. { by inversion Hc. }
  assert (m = Idle) as ->.
  { destruct m as [|l'|v]; [done| |].
    - exfalso. apply running_from in H1 as [[[=] _]|(a1 & a2 & Ha & Hno)].
      destruct (staged tr s H l') as (g & Hg & _). rewrite Htr, Ha in Hg.
      rewrite <- app_assoc in Hg. apply stages_app in Hg as (g1 & Hg1 & Hg2). cbn in Hg2. apply stages_cons in Hg2 as (g2 & Hg2 & Hg3).
      apply stages_app in Hg3 as (g4 & Hg4 & _).
      assert (g1 = Called k /\ g2 = Building k) as [-> ->] by (inversion Hg2; subst; done).
      destruct (far_stages _ _ _ _ Hg1) as [_ F1]. destruct (far_stages _ _ _ _ Hg4) as [_ F4].
      assert (Hcall : Call l' k ∈ a).
      { assert (Hst : stages l' New (a1 ++ [Start l' k]) (Building k)) by (by eapply stages_snoc). pose proof (key_stages l' _ _ (Start l' k) Hst) as Hx. cbn in Hx.
        rewrite Ha. assert (Call l' k ∈ a1 ++ [Start l' k]) as Hy by (apply Hx; [rewrite elem_of_app, elem_of_list_singleton; by right|done]).
        rewrite elem_of_app, elem_of_list_singleton in Hy. destruct Hy as [Hy|[=]]. rewrite elem_of_app. by left. }
      destruct (Hall _ Hcall) as [r' Hr']. rewrite Ha, elem_of_app, elem_of_cons in Hr'. destruct Hr' as [Hr'|[[=]|Hr']]; [specialize (F1 _ Hr' eq_refl); cbn in F1; lia|].
      (* from Building to Ret there is an End *)
      clear -Hg4 Hno Hr'. apply elem_of_list_split in Hr' as (x & y & ->). apply stages_app in Hg4 as (g & Hg & Hy). apply stages_cons in Hy as (g' & Hy & _).
      assert (Hx : g = Building k \/ exists r, End l' k r ∈ x).
      { remember (@Building V E k) as g0 eqn:E0. assert (Hno' : forall l'' r, End l'' k r ∉ x) by (intros l'' r Hx; apply (Hno l'' r); rewrite elem_of_app; by left). clear Hno Hy. revert Hno'.
        induction Hg as [g0|g0 tr p' e p'' Hg IH Hs]; intros Hno; [by left|]. subst.
        destruct (IH eq_refl) as [->|[r2 Hr2]]; [intros l'' r2 Hx; apply (Hno l'' r2); rewrite elem_of_app; by left| |right; exists r2; rewrite elem_of_app; by left].
        inversion Hs; subst; [right; eexists; rewrite elem_of_app, elem_of_list_singleton; by right|by left]. }
      destruct Hx as [->|[r2 Hr2]]; [inversion Hy; subst; done|]. eapply Hno. rewrite elem_of_app. left. exact Hr2.
    - destruct (built_from _ _ _ _ H1) as [[=]|[l' Hl']]. by destruct (Hnos l' v). }
  destruct (existsb (fun e => match e with Start _ k' => bool_decide (k' = k) | _ => false end) b) eqn:Hex.
  - apply existsb_exists in Hex as (e & Hin & He). destruct e as [|l' k'| |]; try done. apply bool_decide_eq_true_1 in He as ->. exists l'. by apply elem_of_list_In.
  - exfalso. assert (Hns : forall l', ~ Start l' k ∈ b). { intros l' Hin. apply not_true_iff_false in Hex. apply Hex, existsb_exists. exists (Start l' k). split; [by apply elem_of_list_In|by apply bool_decide_eq_true_2]. }
    destruct (idle_stays _ _ _ H2 Hns) as (-> & Hne & _). apply phases_cons in H3 as (m3 & H3 & _).
    assert (Hr : is_ok r = false) by (inversion H3; subst; done).
    destruct (staged tr s H l) as (g & Hg & _). rewrite Htr in Hg. apply stages_app in Hg as (g1 & Hg1 & Hg2). apply stages_cons in Hg2 as (g2 & Hg2 & Hg3).
    assert (g1 = New) as -> by (inversion Hg2; subst; done). destruct (far_stages _ _ _ _ Hg1) as [_ F1]. assert (Hla : forall e, e ∈ a -> load_of e <> l). { intros e He Hl. specialize (F1 _ He Hl). cbn in F1. destruct e; cbn in *; lia. }
    destruct (failures_fresh deps tr s H (a ++ Call l k :: b) [] l k r) as (_ & [Hend|Hfr]); [by rewrite Htr, <- app_assoc|done|..].
    + rewrite elem_of_app, elem_of_cons in Hend. destruct Hend as [Hend|[[=]|Hend]]; [by destruct (Hla _ Hend)|by destruct (Hne l r)].
    + destruct Hfr as (l' & a' & b' & Hend & Hab & Hret).
      assert (Hab' : a' = a /\ b' = b).
      { destruct (staged tr s H l) as (g' & Hg' & _). rewrite Htr in Hg'. apply stages_app in Hg' as (x1 & Hx1 & Hx2). apply stages_cons in Hx2 as (x2 & Hx2 & Hx3). apply stages_app in Hx3 as (x3 & Hx3 & _).
        assert (x2 = Called k) as -> by (inversion Hx2; subst; done). destruct (far_stages _ _ _ _ Hx3) as [_ F3].
        assert (Hlb : ~ Call l k ∈ b) by (intros Hin; specialize (F3 _ Hin eq_refl); cbn in F3; lia).
        apply app_eq_inv in Hab as [(c & Ha & Hb)|(c & Ha & Hb)].
        - destruct c as [|x c]; [cbn in Hb; injection Hb as Hb; rewrite app_nil_r in Ha; split; congruence|]. injection Hb as <- Hb. exfalso.
          assert (Hin : Call l k ∈ a) by (rewrite Ha, elem_of_app, elem_of_cons; right; by left). by destruct (Hla _ Hin).
        - destruct c as [|x c]; [cbn in Hb; injection Hb as Hb; rewrite app_nil_r in Ha; split; congruence|]. injection Hb as <- Hb. exfalso.
          assert (Call l k ∈ b) by (rewrite Hb, elem_of_app, elem_of_cons; right; by left). done. }
      destruct Hab' as [Ea Eb]. rewrite Eb in Hret. clear Ea Eb Hab. rewrite elem_of_app, elem_of_cons in Hend. destruct Hend as [Hend|[[=]|Hend]]; [|by destruct (Hne l' r)].
      destruct (staged tr s H l') as (g' & Hg' & _). rewrite Htr in Hg'. apply stages_app in Hg' as (x1 & Hx1 & Hx2). apply stages_cons in Hx2 as (x2 & Hx2 & Hx3). apply stages_app in Hx3 as (x3 & Hx3 & _).
      pose proof (key_stages l' _ _ _ Hx1 Hend eq_refl) as Hcall. cbn in Hcall. destruct (Hall _ Hcall) as [r' Hr'].
      destruct (far_stages _ _ _ _ Hx1) as [_ F1']. specialize (F1' _ Hr' eq_refl). cbn in F1'.
      apply far_step in Hx2 as [Hx2 _]. destruct (far_stages _ _ _ _ Hx3) as [_ F3]. specialize (F3 _ Hret eq_refl). cbn in F3. lia.
Qed.
End ret.

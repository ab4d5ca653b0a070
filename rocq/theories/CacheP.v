(** Which loads return, and what. *)
From stdpp Require Import strings list gmap.
From Verif Require Import Cache SpecCache CacheL CacheT.

(** ** phases *)
Section ph.
Context {V E : Type}.
Lemma phases_inv (k : string) (p q : phase V) (tr : list (event V E)) : phases k p tr q ->
  (tr = [] /\ q = p) \/ exists tr' p' e, tr = tr' ++ [e] /\ phases k p tr' p' /\ phase_step k p' e q.
Proof. intros H. destruct H as [p|p tr p' e p'' H1 H2]; [by left|right]. by exists tr, p', e. Qed.
Lemma phases_app (k : string) (p q : phase V) (a b : list (event V E)) : phases k p (a ++ b) q -> exists m, phases k p a m /\ phases k m b q.
Proof.
  revert q. induction b as [|e b IH] using rev_ind; intros q H; [exists q; rewrite app_nil_r in H; split; [done|constructor]|].
  rewrite app_assoc in H. apply phases_inv in H as [[Hn _]|(tr & p' & e' & Ht & H1 & H2)]; [by apply app_nil in Hn as [_ [=]]|].
  apply app_inj_tail in Ht as [<- <-]. destruct (IH _ H1) as (m & Hm & Hb). exists m. split; [done|]. by eapply phases_snoc.
Qed.
Lemma phases_cons (k : string) (p q : phase V) e (b : list (event V E)) : phases k p (e :: b) q -> exists m, phase_step k p e m /\ phases k m b q.
Proof.
  intros H. apply (phases_app k p q [e] b) in H as (m & H1 & H2). exists m. split; [|done].
  apply phases_inv in H1 as [[[=] _]|(tr & p' & e' & Ht & H3 & H4)]. destruct tr as [|x tr]; [|by destruct tr]. injection Ht as ->.
  apply phases_inv in H3 as [[_ ->]|(tr & p2 & e2 & Ht & _)]; [done|]. by destruct tr.
Qed.
Lemma built_stays (k : string) (v : V) (q : phase V) (tr : list (event V E)) : phases k (Built v) tr q ->
  q = Built v /\ (forall l r, ~ End l k r ∈ tr) /\ (forall l, ~ Start l k ∈ tr) /\ (forall l w, Ret l k (OOk w) ∈ tr -> w = v).
Proof.
  remember (Built v) as p eqn:Hp. intros H. induction H as [|p tr p' e p'' H IH Hs]; [subst; split; [done|]; split; [|split]; intros * []%elem_of_nil|].
  destruct (IH Hp) as (-> & H2 & H3 & H4). subst p.
  assert (Hs' : p'' = Built v /\ (forall l r, e <> End l k r) /\ (forall l, e <> Start l k) /\ (forall l w, e = Ret l k (OOk w) -> w = v)).
  { inversion Hs as [|l w|l r|l w|l r q Hr|l q|e0 q Hk]; subst; (split; [done|]); (split; [|split]); intros *; try congruence; intros Hx.
    - injection Hx as -> ->. done.
    - subst e. done.
    - subst e. done.
    - subst e. done. }
  destruct Hs' as (-> & G2 & G3 & G4). split; [done|].
  split; [|split]; intros *; rewrite elem_of_app, elem_of_list_singleton; intros [Hx|Hx].
  - by eapply H2.
  - by eapply G2.
  - by eapply H3.
  - by eapply G3.
  - by eapply H4.
  - by eapply G4.
Qed.
Lemma built_from (k : string) (p : phase V) (v : V) (tr : list (event V E)) : phases k p tr (Built v) -> p = Built v \/ exists l, End l k (OOk v) ∈ tr.
Proof.
  remember (Built v) as q eqn:Hq. intros H. revert v Hq. induction H as [|p tr p' e p'' H IH Hs]; intros v Hq; [by left|]. subst.
  inversion Hs as [|l w|l r|l w|l r q Hr|l q|e0 q Hk]; subst.
  - right. exists l. rewrite elem_of_app, elem_of_list_singleton. by right.
  - destruct (IH v eq_refl) as [->|(l' & Hl)]; [by left|right]. exists l'. rewrite elem_of_app. by left.
  - destruct (IH v eq_refl) as [->|(l' & Hl)]; [by left|right]. exists l'. rewrite elem_of_app. by left.
  - destruct (IH v eq_refl) as [->|(l' & Hl)]; [by left|right]. exists l'. rewrite elem_of_app. by left.
  - destruct (IH v eq_refl) as [->|(l' & Hl)]; [by left|right]. exists l'. rewrite elem_of_app. by left.
Qed.
Lemma phases_end (k : string) (q : phase V) (tr1 tr2 : list (event V E)) l v : phases k Idle (tr1 ++ End l k (OOk v) :: tr2) q ->
  q = Built v /\ (forall l' r, ~ End l' k r ∈ tr2) /\ (forall l', ~ Start l' k ∈ tr2).
Proof.
  intros (m & _ & H2)%phases_app. apply phases_cons in H2 as (m' & H2 & H3).
  inversion H2 as [| l' w|l' r Hr| | | |e q' Hk]; subst; [|done|done]. apply built_stays in H3 as (-> & H3 & H4 & _). done.
Qed.
End ph.

Section ret.
Context {V E : Type} (deps : string -> list string).
Notation state := (state V E). Notation load := (load V E). Notation pc := (pc V E). Notation event := (event V E). Notation outcome := (outcome V E).
Implicit Types (s : state) (ld : load) (p : pc) (r : outcome).

Lemma returned_value tr s tr1 tr2 l k v : exec deps tr s -> tr = tr1 ++ Ret l k (OOk v) :: tr2 ->
  (exists l', End l' k (OOk v) ∈ tr1) /\ (forall l' v', End l' k (OOk v') ∈ tr -> v' = v).
Proof.
  intros H Htr. destruct (phased deps tr s H k) as (ph & Hph & _). pose proof Hph as Hph0. rewrite Htr in Hph. apply phases_app in Hph as (m & H1 & H2).
  apply phases_cons in H2 as (m' & H2 & H3). assert (m = Built v) as ->.
  { inversion H2 as [| | | |l' r' q Hr| |e q Hk]; subst; [done|done|done]. }
  split; [by destruct (built_from _ _ _ _ H1) as [|]|].
  intros l' v' Hin. apply elem_of_list_split in Hin as (a & b & Hab). rewrite Hab in Hph0. apply phases_end in Hph0 as (-> & _).
  assert (m' = Built v) as ->. { inversion H2; subst; done. } apply built_stays in H3 as ([= ->] & _). done.
Qed.

(** ** calls are not lost *)
Lemma called tr s : exec deps tr s -> forall l k, Call l k ∈ tr -> (exists r, Ret l k r ∈ tr) \/ exists ld, s_loads s !! l = Some ld /\ l_key ld = k.
Proof.
  induction 1 as [|tr s k' H IH|tr s es s' H IH (l' & ld & Hl & Hst)]; intros l k; [by rewrite elem_of_nil|..]; rewrite elem_of_app.
  - rewrite elem_of_list_singleton. intros [Hin|[= -> ->]].
    + destruct (IH _ _ Hin) as [[r Hr]|(ld & Hl & Hk)]; [left; exists r; rewrite elem_of_app; by left|right]. cbn.
      destruct (decide (s_next s = l)) as [<-|N]; [by destruct (fresh_next deps _ _ H ld)|]. exists ld. by rewrite lookup_insert_ne.
    + right. eexists. cbn. by rewrite lookup_insert.
  - assert (Hup : forall x y, s_loads s !! x = Some y -> x <> l' -> exists y', s_loads s' !! x = Some y' /\ l_key y' = l_key y).
    { intros x y Hx N. assert (Hlv : forall r, exists y', leave l' ld r (s_loads s) !! x = Some y' /\ l_key y' = l_key y).
      { intros r. destruct (decide (l_up ld = Some x)) as [Eu|Nu].
        - exists (resume r y). rewrite resume_key. split; [|done]. apply leave_lookup. split; [done|right]. split; [done|by exists y].
        - exists y. split; [|done]. apply leave_lookup. split; [done|by left]. }
      destruct Hst; cbn [go enter s_loads]; try (exists y; by rewrite lookup_insert_ne); try apply Hlv.
      exists y. rewrite lookup_insert_ne; [by rewrite lookup_insert_ne|]. intros Hx'. rewrite <- Hx' in Hx. by destruct (fresh_next deps _ _ H y). }
    intros [Hin|Hin].
    + destruct (IH _ _ Hin) as [[r Hr]|(y & Hy & Hk)]; [left; exists r; rewrite elem_of_app; by left|].
      destruct (decide (l = l')) as [->|N].
      * assert (y = ld) as -> by congruence. destruct Hst; cbn [go enter s_loads]; try (right; eexists; by rewrite lookup_insert).
        -- right. exists (at_pc (PNest c ds) ld). rewrite lookup_insert_ne; [by rewrite lookup_insert|]. intros Hx. rewrite <- Hx in Hl. by destruct (fresh_next deps _ _ H ld).
        -- left. exists r. rewrite elem_of_app, elem_of_list_singleton, Hk. by right.
        -- left. exists r. rewrite elem_of_app, elem_of_list_singleton, Hk. by right.
      * right. destruct (Hup _ _ Hy N) as (y' & Hy' & Hk'). exists y'. split; [done|congruence].
    + right. destruct Hst; rewrite ?elem_of_nil, ?elem_of_list_singleton in Hin; try done. injection Hin as -> ->. cbn. eexists. by rewrite lookup_insert.
Qed.

(** ** when a load can go on *)
Lemma can_move s l ld : s_loads s !! l = Some ld -> led_by s -> (exists es s', lstep deps s l ld es s') \/ nests (l_pc ld) = true \/
  exists l' ld' c', s_loads s !! l' = Some ld' /\ l_key ld' = l_key ld /\ lead_call (l_pc ld') = Some c'.
Proof.
  intros Hl HL. destruct (l_pc ld) as [|c|c ds ok|c ds|c v|c r|c] eqn:Hp.
  - left. destruct (s_flight s !! l_key ld) eqn:Hf; eexists _, _; [by eapply step_join|by eapply step_lead].
  - left. destruct (s_data s !! l_key ld) eqn:Hf; eexists _, _; [by eapply step_hit|by eapply step_miss].
  - left. destruct ok; [destruct ds as [|d ds]|].
    + eexists _, _. eapply (step_failed _ _ _ _ c [] true OPanic); [done|by left|done].
    + eexists _, _. by eapply step_nest.
    + eexists _, _. eapply (step_failed _ _ _ _ c ds false OPanic); [done|by right|done].
  - right. by left.
  - left. eexists _, _. by eapply step_store.
  - left. eexists _, _. by eapply step_fin.
  - destruct (led_wait _ _ _ _ HL l (l_key ld) None c) as [[r|] Hr]; [rewrite lookup_fmap, Hl; cbn; unfold role_of; by rewrite Hp|..].
    + left. eexists _, _. by eapply step_wait.
    + right. right. pose proof (led_call _ _ _ _ HL _ _ Hr) as Hf. destruct (led_flight _ _ _ _ HL _ _ Hf) as (l' & w & Hl').
      rewrite lookup_fmap in Hl'. destruct (s_loads s !! l') as [ld'|] eqn:E'; [|done]. cbn in Hl'. injection Hl' as Hk Hc Hw. exists l', ld', c. done.
Qed.
Lemma key_free tr s l ld : exec deps tr s -> s_loads s !! l = Some ld ->
  (exists l' ld' es s', s_loads s !! l' = Some ld' /\ l_key ld' = l_key ld /\ lstep deps s l' ld' es s') \/ nested s (l_key ld).
Proof.
  intros H Hl. pose proof (led_exec deps _ _ H) as HL. destruct (can_move s l ld Hl HL) as [(es & s' & Hst)|[Hn|(l' & ld' & c' & Hl' & Hk & Hc)]].
  - left. by exists l, ld, es, s'.
  - right. destruct (l_pc ld) as [| | |c ds| | |] eqn:Hp; try done. by exists l, ld, c, ds.
  - destruct (can_move s l' ld' Hl' HL) as [(es & s' & Hst)|[Hn|(l2 & ld2 & c2 & Hl2 & Hk2 & Hc2)]].
    + left. by exists l', ld', es, s'.
    + right. destruct (l_pc ld') as [| | |c ds| | |] eqn:Hp; try done. by exists l', ld', c, ds.
    + assert (l2 = l') as -> by (by eapply (lead_unique s l2 l' ld2 ld' c2 c' HL)). assert (ld2 = ld') as -> by congruence.
      destruct (l_pc ld') as [|c|c ds ok|c ds|c v|c r|c] eqn:Hp; try done.
      * left. destruct (s_data s !! l_key ld') eqn:Hf; eexists l', ld', _, _; (split; [done|]; split; [done|]); [by eapply step_hit|by eapply step_miss].
      * left. destruct ok; [destruct ds as [|d ds]|]; eexists l', ld', _, _; (split; [done|]; split; [done|]).
        -- eapply (step_failed _ _ _ _ c [] true OPanic); [done|by left|done].
        -- by eapply step_nest.
        -- eapply (step_failed _ _ _ _ c ds false OPanic); [done|by right|done].
      * right. by exists l', ld', c, ds.
      * left. eexists l', ld', _, _. split; [done|]. split; [done|]. by eapply step_store.
      * left. eexists l', ld', _, _. split; [done|]. split; [done|]. by eapply step_fin.
Qed.

(** ** what is left to load *)
Definition left_of p : list string := match p with PBuild _ ds _ | PNest _ ds => ds | _ => [] end.
Record depending (m : gmap nat load) : Prop := Depending {
  dp_left l ld : m !! l = Some ld -> left_of (l_pc ld) ⊆ deps (l_key ld);
  dp_up l ld q ldq : m !! l = Some ld -> l_up ld = Some q -> m !! q = Some ldq -> l_key ld ∈ deps (l_key ldq)
}.
Lemma depending_go m l ld p : m !! l = Some ld -> depending m -> left_of p ⊆ deps (l_key ld) -> depending (<[l := at_pc p ld]> m).
Proof.
  intros Hl [H1 H2] Hp. split.
  - intros x y. rewrite lookup_insert_Some. intros [[<- <-]|[_ Hx]]; [done|by eapply H1].
  - intros x y q z Hx Hu Hq.
    assert (Hx' : exists y0, m !! x = Some y0 /\ l_up y0 = l_up y /\ l_key y0 = l_key y). { apply lookup_insert_Some in Hx as [[<- <-]|[_ Hx]]; [by exists ld|by exists y]. }
    assert (Hq' : exists z0, m !! q = Some z0 /\ l_key z0 = l_key z). { apply lookup_insert_Some in Hq as [[<- <-]|[_ Hq]]; [by exists ld|by exists z]. }
    destruct Hx' as (y0 & Hy & Hyu & <-). destruct Hq' as (z0 & Hz & <-). eapply (H2 x y0 q z0); [done|congruence|done].
Qed.
Lemma depending_leave m l ld r : depending m -> depending (leave l ld r m).
Proof.
  intros [H1 H2]. split.
  - intros x y (y0 & Hx & _ & [->| ->])%leave_old; [by eapply H1|]. rewrite resume_key. specialize (H1 _ _ Hx). by destruct y0 as [k u []].
  - intros x y q z Hx Hu Hq.
    apply leave_old in Hx as (y0 & Hx & _ & Hy). apply leave_old in Hq as (z0 & Hq & _ & Hz).
    assert (l_key y = l_key y0 /\ l_up y = l_up y0) as [-> Hyu] by (destruct Hy as [->| ->]; by rewrite ?resume_key, ?resume_up).
    assert (l_key z = l_key z0) as -> by (destruct Hz as [->| ->]; by rewrite ?resume_key). eapply (H2 x y0 q z0); [done|congruence|done].
Qed.
Lemma depending_new m n k : m !! n = None -> depending m -> (forall l ld, m !! l = Some ld -> l_up ld <> Some n) -> depending (<[n := Load k None PEnter]> m).
Proof.
  intros Hn [H1 H2] Hc. split.
  - intros x y. rewrite lookup_insert_Some. intros [[<- <-]|[_ Hx]]; [set_solver|by eapply H1].
  - intros x y q z. rewrite !lookup_insert_Some. intros [[<- <-]|[_ Hx]] Hu; [done|]. intros [[<- <-]|[_ Hq]]; [by destruct (Hc _ _ Hx)|by eapply H2].
Qed.
Lemma depending_exec tr s : exec deps tr s -> depending (s_loads s).
Proof.
  induction 1 as [|tr s k H IH|tr s es s' H IH (l & ld & Hl & Hst)].
  - split; intros *; cbn; by rewrite lookup_empty.
  - pose proof (stacked_exec deps _ _ H) as [G1 G2 G2' G3 G4]. cbn. apply depending_new; [|done|].
    + destruct (s_loads s !! s_next s) eqn:E1; [|done]. by destruct (fresh_next deps _ _ H _ E1).
    + intros l ld Hl Hu. destruct (G2 _ _ _ Hl Hu) as (x & Hx & _). by destruct (fresh_next deps _ _ H _ Hx).
  - pose proof (stacked_exec deps _ _ H) as [G1 G2 G2' G3 G4]. pose proof (dp_left _ IH _ _ Hl) as Hleft.
    destruct Hst as [c Hp Hf|Hp Hf|c v Hp Hd|c Hp Hd|c d ds Hp|c v Hp|c ds ok r Hp Hds Hk|c v Hp|c r Hp|c k r Hp Hc]; cbn [go enter s_loads];
      try (apply depending_go; [done|done|cbn; set_solver]); try (by apply depending_leave).
    rewrite Hp in Hleft. cbn in Hleft.
    assert (HD : depending (<[l := at_pc (PNest c ds) ld]> (s_loads s))) by (apply depending_go; [done|done|cbn; set_solver]).
    destruct HD as [D1 D2]. assert (Hln : l < s_next s) by (by eapply G1). split.
    + intros x y. rewrite lookup_insert_Some. intros [[<- <-]|[_ Hx]]; [cbn; set_solver|by eapply D1].
    + intros x y q z Hx Hu Hq. apply lookup_insert_Some in Hx as [[<- <-]|[_ Hx]].
      * cbn in Hu, Hq. injection Hu as <-. rewrite lookup_insert_ne, lookup_insert in Hq by lia. injection Hq as <-. cbn. set_solver.
      * apply lookup_insert_Some in Hq as [[<- <-]|[_ Hq]]; [|by eapply D2].
        exfalso. apply lookup_insert_Some in Hx as [[<- <-]|[_ Hx]]; [cbn in Hu; cbn in Hln; specialize (G2' _ _ _ Hl Hu); cbn in G2'; lia|].
        cbn in Hu; specialize (G2' _ _ _ Hx Hu). specialize (G1 _ _ Hx). cbn in G2'. lia.
Qed.

(** ** progress if the loads made by builders form no cycle *)
Section ranked.
Context (rk : string -> nat) (Hrk : forall k d, d ∈ deps k -> rk d < rk k).
Lemma progress tr s l ld : exec deps tr s -> s_loads s !! l = Some ld -> exists es s', moves deps s es s'.
Proof.
  intros H. pose proof (stacked_exec deps _ _ H) as [G1 G2 G2' G3 G4]. pose proof (depending_exec _ _ H) as [D1 D2].
  remember (rk (l_key ld)) as n eqn:Hn. revert l ld Hn. induction n as [n IH] using lt_wf_ind. intros l ld -> Hl.
  destruct (key_free tr s l ld H Hl) as [(l' & ld' & es & s' & Hl' & _ & Hst)|(l' & ld' & c & ds & Hl' & Hk & Hp)].
  - exists es, s', l', ld'. done.
  - destruct (G3 l' ld' Hl') as (l2 & ld2 & Hl2 & Hu); [by rewrite Hp|]. pose proof (D2 _ _ _ _ Hl2 Hu Hl') as Hd. apply Hrk in Hd.
    rewrite Hk in Hd. eapply (IH _ Hd l2 ld2 eq_refl Hl2).
Qed.
Lemma all_return tr s : exec deps tr s -> (forall es s', ~ moves deps s es s') -> s_loads s = ∅.
Proof.
  intros H Hno. apply map_empty. intros l. destruct (s_loads s !! l) as [ld|] eqn:Hl; [|done].
  destruct (progress tr s l ld H Hl) as (es & s' & Hm). by destruct (Hno es s').
Qed.

(** the number of steps a load of a key can take *)
Fixpoint cost (n : nat) (k : string) : nat :=
  match n with 0 => 0 | S n' => 6 + sum_list_with (fun d => S (cost n' d)) (deps k) end.
Definition W (k : string) : nat := cost (S (rk k)) k.
Lemma sum_ext (f g : string -> nat) l : (forall x, x ∈ l -> f x = g x) -> sum_list_with f l = sum_list_with g l.
Proof. induction l as [|x l IH]; intros H; [done|]. cbn. rewrite IH by (intros; apply H; by right). rewrite H by left. done. Qed.
Lemma cost_enough n m k : rk k < n -> rk k < m -> cost n k = cost m k.
Proof.
  revert m k. induction n as [|n IH]; intros m k Hn Hm; [lia|]. destruct m as [|m]; [lia|]. cbn. f_equal. f_equal. f_equal. f_equal. f_equal. f_equal.
  apply sum_ext. intros d Hd%Hrk. f_equal. apply IH; lia.
Qed.
Lemma W_eq k : W k = 6 + sum_list_with (fun d => S (W d)) (deps k).
Proof. unfold W at 1. cbn [cost]. f_equal. apply sum_ext. intros d Hd%Hrk. f_equal. apply cost_enough; lia. Qed.
Definition weight ld : nat :=
  match l_pc ld with
  | PEnter => W (l_key ld)
  | PLead _ => 5 + sum_list_with (fun d => S (W d)) (deps (l_key ld))
  | PBuild _ ds _ | PNest _ ds => 4 + sum_list_with (fun d => S (W d)) ds
  | PStore _ _ => 2
  | PFin _ _ | PWait _ => 1
  end.
Definition total (m : gmap nat load) : nat := map_fold (fun _ ld n => weight ld + n) 0 m.
Lemma total_insert m l ld : m !! l = None -> total (<[l := ld]> m) = weight ld + total m.
Proof. intros H. unfold total. rewrite map_fold_insert_L; [done| |done]. intros. lia. Qed.
Lemma total_delete m l ld : m !! l = Some ld -> total m = weight ld + total (delete l m).
Proof. intros H. rewrite <- (insert_delete m l ld H) at 1. apply total_insert. apply lookup_delete. Qed.
Lemma total_set m l ld ld' : m !! l = Some ld -> total (<[l := ld']> m) + weight ld = total m + weight ld'.
Proof. intros H. rewrite <- insert_delete_insert, total_insert by apply lookup_delete. rewrite (total_delete m l ld H). lia. Qed.
Lemma weight_resume r ld : weight (resume r ld) = weight ld. Proof. by destruct ld as [k u []]. Qed.
Lemma total_leave m l ld r : m !! l = Some ld -> total (leave l ld r m) + weight ld = total m.
Proof.
  intros H. unfold leave. rewrite (total_delete m l ld H). destruct (l_up ld) as [q|]; [|lia].
  destruct (delete l m !! q) as [y|] eqn:E1.
  - assert (Ha : alter (resume r) q (delete l m) = <[q := resume r y]> (delete l m)).
    { apply map_eq. intros x. destruct (decide (x = q)) as [->|N]; [by rewrite lookup_alter, lookup_insert, E1|by rewrite lookup_alter_ne, lookup_insert_ne]. }
    rewrite Ha. pose proof (total_set (delete l m) q y (resume r y) E1) as Ht. rewrite weight_resume in Ht. lia.
  - assert (Ha : alter (resume r) q (delete l m) = delete l m).
    { apply map_eq. intros x. destruct (decide (x = q)) as [->|N]; [by rewrite lookup_alter, E1|by rewrite lookup_alter_ne]. }
    rewrite Ha. lia.
Qed.
Lemma weight_pos ld : 0 < weight ld.
Proof. unfold weight. destruct (l_pc ld); try lia. rewrite W_eq. lia. Qed.
Lemma total_moves tr s es s' : exec deps tr s -> moves deps s es s' -> total (s_loads s') < total (s_loads s).
Proof.
  intros H (l & ld & Hl & Hst). pose proof (fun p => total_set (s_loads s) l ld (at_pc p ld) Hl) as Hset.
  destruct Hst as [c Hp Hf|Hp Hf|c v Hp Hd|c Hp Hd|c d ds Hp|c v Hp|c ds ok r Hp Hds Hk|c v Hp|c r Hp|c k r Hp Hc]; cbn [go enter s_loads].
  - specialize (Hset (PWait c)). unfold weight in Hset at 1 2. cbn [at_pc l_pc l_key] in Hset. rewrite Hp, W_eq in Hset. lia.
  - specialize (Hset (PLead (length (s_calls s)))). unfold weight in Hset at 1 2. cbn [at_pc l_pc l_key] in Hset. rewrite Hp, W_eq in Hset. lia.
  - specialize (Hset (PFin c (OOk v))). unfold weight in Hset at 1 2. cbn [at_pc l_pc l_key] in Hset. rewrite Hp in Hset. lia.
  - specialize (Hset (PBuild c (deps (l_key ld)) true)). unfold weight in Hset at 1 2. cbn [at_pc l_pc l_key] in Hset. rewrite Hp in Hset. lia.
  - specialize (Hset (PNest c ds)). unfold weight in Hset at 1 2. cbn [at_pc l_pc l_key] in Hset. rewrite Hp in Hset. cbn [sum_list_with] in Hset.
    rewrite total_insert; [unfold weight at 1; cbn [l_pc l_key]; lia|]. rewrite lookup_insert_ne.
    + destruct (s_loads s !! s_next s) eqn:E1; [|done]. by destruct (fresh_next deps _ _ H _ E1).
    + intros Hx. cbn in Hx. rewrite Hx in Hl. by destruct (fresh_next deps _ _ H _ Hl).
  - specialize (Hset (PStore c v)). unfold weight in Hset at 1 2. cbn [at_pc l_pc l_key] in Hset. rewrite Hp in Hset. cbn [sum_list_with] in Hset. lia.
  - specialize (Hset (PFin c r)). unfold weight in Hset at 1 2. cbn [at_pc l_pc l_key] in Hset. rewrite Hp in Hset. cbn [sum_list_with] in Hset. lia.
  - specialize (Hset (PFin c (OOk v))). unfold weight in Hset at 1 2. cbn [at_pc l_pc l_key] in Hset. rewrite Hp in Hset. cbn [sum_list_with] in Hset. lia.
  - pose proof (total_leave (s_loads s) l ld r Hl). pose proof (weight_pos ld). lia.
  - pose proof (total_leave (s_loads s) l ld r Hl). pose proof (weight_pos ld). lia.
Qed.
Lemma bounded tr s : exec deps tr s -> forall n tr' s', nmoves deps n s tr' s' -> n <= total (s_loads s).
Proof.
  intros H n. revert tr s H. induction n as [|n IH]; intros tr s H tr' s' Hn; [lia|].
  inversion Hn as [|? ? es ? tr2 ? Hm Hr]; subst. pose proof (total_moves _ _ _ _ H Hm). pose proof (IH _ _ (exec_move _ _ _ _ _ H Hm) _ _ Hr). lia.
Qed.
End ranked.

(** ** cycles *)
Section stuck.
Context (C : string -> Prop) (HC : forall k, C k -> exists d ds, deps k = d :: ds /\ C d).
Record cyclic s : Prop := Cyclic {
  cy_data k : C k -> s_data s !! k = None;
  cy_call c k r : C k -> s_calls s !! c <> Some (k, Some r);
  cy_load l ld : s_loads s !! l = Some ld -> C (l_key ld) ->
    match l_pc ld with PEnter | PLead _ | PWait _ | PNest _ _ => True | PBuild _ ds ok => ds = deps (l_key ld) /\ ok = true | _ => False end;
  cy_up l ld q ldq : s_loads s !! l = Some ld -> l_up ld = Some q -> s_loads s !! q = Some ldq -> C (l_key ldq) -> C (l_key ld)
}.
Lemma cyclic_go s l ld p fl cs : s_loads s !! l = Some ld -> cyclic s ->
  (forall c k r, C k -> cs !! c <> Some (k, Some r)) ->
  (C (l_key ld) -> match p with PEnter | PLead _ | PWait _ | PNest _ _ => True | PBuild _ ds ok => ds = deps (l_key ld) /\ ok = true | _ => False end) ->
  cyclic (State (s_data s) fl cs (<[l := at_pc p ld]> (s_loads s)) (s_next s)).
Proof.
  intros Hl [H1 H2 H3 H4] Hc Hp. split; cbn [s_data s_calls s_loads]; [done|done|..].
  - intros x y. rewrite lookup_insert_Some. intros [[<- <-]|[_ Hx]]; [done|by eapply H3].
  - intros x y q z Hx Hu Hq.
    assert (Hx' : exists y0, s_loads s !! x = Some y0 /\ l_up y0 = l_up y /\ l_key y0 = l_key y). { apply lookup_insert_Some in Hx as [[<- <-]|[_ Hx]]; [by exists ld|by exists y]. }
    assert (Hq' : exists z0, s_loads s !! q = Some z0 /\ l_key z0 = l_key z). { apply lookup_insert_Some in Hq as [[<- <-]|[_ Hq]]; [by exists ld|by exists z]. }
    destruct Hx' as (y0 & Hy & Hyu & <-). destruct Hq' as (z0 & Hz & <-). eapply (H4 x y0 q z0); [done|congruence|done].
Qed.
Lemma cyclic_leave s l ld r fl cs : s_loads s !! l = Some ld -> cyclic s -> ~ C (l_key ld) ->
  (forall c k r, C k -> cs !! c <> Some (k, Some r)) ->
  cyclic (State (s_data s) fl cs (leave l ld r (s_loads s)) (s_next s)).
Proof.
  intros Hl [H1 H2 H3 H4] HN Hc. split; cbn [s_data s_calls s_loads]; [done|done|..].
  - intros x y (N & [[_ Hx]|(Hu & y0 & Hx & ->)])%leave_lookup Hk; [by eapply H3|]. rewrite resume_key in Hk. destruct HN. by eapply H4.
  - intros x y q z Hx Hu Hq.
    apply leave_old in Hx as (y0 & Hx & _ & Hy). apply leave_old in Hq as (z0 & Hq & _ & Hz).
    assert (l_key y = l_key y0 /\ l_up y = l_up y0) as [-> Hyu] by (destruct Hy as [->| ->]; by rewrite ?resume_key, ?resume_up).
    assert (l_key z = l_key z0) as -> by (destruct Hz as [->| ->]; by rewrite ?resume_key). eapply (H4 x y0 q z0); [done|congruence|done].
Qed.
Lemma cyclic_exec tr s : exec deps tr s -> cyclic s /\ forall l k r, C k -> ~ Ret l k r ∈ tr.
Proof.
  induction 1 as [|tr s k H IH|tr s es s' H IH (l & ld & Hl & Hst)].
  - split; [split|]; intros *; cbn; rewrite ?lookup_empty, ?lookup_nil, ?elem_of_nil; try done. by intros _ ?.
  - destruct IH as [[H1 H2 H3 H4] H5]. pose proof (stacked_exec deps _ _ H) as [G1 G2 G2' G3 G4]. split.
    + split; cbn [enter s_data s_calls s_loads]; [done|done|..].
      * intros x y. rewrite lookup_insert_Some. intros [[<- <-]|[_ Hx]]; [done|by eapply H3].
      * intros x y q z. rewrite !lookup_insert_Some. intros [[<- <-]|[_ Hx]] Hu; [done|]. intros [[<- <-]|[_ Hq]]; [|by eapply H4].
        destruct (G2 _ _ _ Hx Hu) as (w & Hw & _). by destruct (fresh_next deps _ _ H _ Hw).
    + intros l k' r Hk. rewrite elem_of_app, elem_of_list_singleton. intros [Hin|[=]]. by eapply H5.
  - destruct IH as [HCy H5]. pose proof HCy as [H1 H2 H3 H4]. pose proof (stacked_exec deps _ _ H) as [G1 G2 G2' G3 G4].
    assert (Hnoret : forall es0, (forall l k r, C k -> ~ Ret l k r ∈ es0) -> forall l k r, C k -> ~ Ret l k r ∈ tr ++ es0).
    { intros es0 He l0 k0 r0 Hk. rewrite elem_of_app. intros [Hin|Hin]; [by eapply H5|by eapply He]. }
    pose proof (H3 _ _ Hl) as Hld.
    destruct Hst as [c Hp Hf|Hp Hf|c v Hp Hd|c Hp Hd|c d ds Hp|c v Hp|c ds ok r Hp Hds Hk|c v Hp|c r Hp|c k r Hp Hc]; rewrite Hp in Hld.
    + split; [by apply cyclic_go|by rewrite app_nil_r].
    + split; [|by rewrite app_nil_r]. apply cyclic_go; [done|done| |done]. intros c k r Hk Hx. apply lookup_app_Some in Hx as [Hx|[_ Hx]]; [by eapply H2|]. by destruct (c - _) as [|[|]].
    + split; [|by rewrite app_nil_r]. apply cyclic_go; [done|done|done|]. intros Hk. pose proof (H1 _ Hk). congruence.
    + split; [by apply cyclic_go|]. apply Hnoret. intros l0 k0 r0 _. by rewrite elem_of_list_singleton.
    + split; [|apply Hnoret; intros l0 k0 r0 _; by rewrite elem_of_list_singleton].
      assert (HG : cyclic (go l ld (PNest c ds) s)) by (by apply cyclic_go). destruct HG as [F1 F2 F3 F4]. split; cbn [enter go s_data s_calls s_loads] in *; [done|done|..].
      * intros x y. rewrite lookup_insert_Some. intros [[<- <-]|[_ Hx]]; [done|by eapply F3].
      * assert (Hln : l < s_next s) by (by eapply G1). intros x y q z Hx Hu Hq HCz. apply lookup_insert_Some in Hx as [[<- <-]|[_ Hx]].
        -- cbn in Hu, Hq. injection Hu as <-. rewrite lookup_insert_ne, lookup_insert in Hq by lia. injection Hq as <-. cbn in *.
           destruct (Hld HCz) as [Hds _]. destruct (HC _ HCz) as (d' & ds' & Hd' & HCd). rewrite Hd' in Hds. injection Hds as -> _. done.
        -- apply lookup_insert_Some in Hq as [[<- <-]|[_ Hq]]; [|by eapply F4].
           exfalso. apply lookup_insert_Some in Hx as [[<- <-]|[_ Hx]]; [cbn in Hu; cbn in Hln; specialize (G2' _ _ _ Hl Hu); cbn in G2'; lia|].
           cbn in Hu; specialize (G2' _ _ _ Hx Hu). specialize (G1 _ _ Hx). cbn in G2'. lia.
    + split; [|apply Hnoret; intros l0 k0 r0 _; by rewrite elem_of_list_singleton]. apply cyclic_go; [done|done|done|]. intros Hk.
      destruct (Hld Hk) as [Hds _]. destruct (HC _ Hk) as (d' & ds' & Hd' & HCd). congruence.
    + split; [|apply Hnoret; intros l0 k0 r0 _; by rewrite elem_of_list_singleton]. apply cyclic_go; [done|done|done|]. intros Hk'.
      destruct (Hld Hk') as [-> ->]. destruct (HC _ Hk') as (d' & ds' & Hd' & HCd). rewrite Hd' in Hds. by destruct Hds.
    + assert (HN : ~ C (l_key ld)) by done. split; [|by rewrite app_nil_r].
      pose proof (cyclic_go s l ld (PFin c (OOk v)) (s_flight s) (s_calls s) Hl HCy H2) as HG. destruct HG as [F1 F2 F3 F4]; [done|].
      split; cbn [s_data s_calls s_loads] in *; [|done|done|done]. intros k Hk. rewrite lookup_insert_ne; [by apply H1|]. intros <-. done.
    + assert (HN : ~ C (l_key ld)) by done. split; [|apply Hnoret; intros l0 k0 r0 Hk0; rewrite elem_of_list_singleton; intros [= -> -> ->]; done].
      apply cyclic_leave; [done|done|done|]. intros c' k' r' Hk' Hx. apply list_lookup_insert_Some in Hx as [(<- & [= <- _] & _)|[_ Hx]]; [done|by eapply H2].
    + assert (HN : ~ C (l_key ld)).
      { intros Hk. pose proof (led_exec deps _ _ H) as HL. destruct (led_wait _ _ _ _ HL l (l_key ld) None c) as [r' Hr']; [rewrite lookup_fmap, Hl; cbn; unfold role_of; by rewrite Hp|].
        rewrite Hc in Hr'. injection Hr' as Hk' _. rewrite Hk' in Hc. by apply (H2 c (l_key ld) r Hk). }
      split; [|apply Hnoret; intros l0 k0 r0 Hk0; rewrite elem_of_list_singleton; intros [= -> -> ->]; done].
      by apply cyclic_leave.
Qed.
End stuck.
End ret.

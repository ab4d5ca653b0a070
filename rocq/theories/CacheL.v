(** Invariants of the cache machine. *)
From stdpp Require Import strings list gmap.
From Verif Require Import Cache SpecCache.

Section inv.
Context {V E : Type} (deps : string -> list string).
Notation state := (state V E). Notation load := (load V E). Notation pc := (pc V E). Notation event := (event V E). Notation outcome := (outcome V E).
Implicit Types (s : state) (ld : load) (p : pc) (r : outcome).

Definition lead_call p : option nat :=
  match p with PLead c | PBuild c _ _ | PNest c _ | PStore c _ | PFin c _ => Some c | _ => None end.
Definition wait_call p : option nat := match p with PWait c => Some c | _ => None end.
Definition building p : bool := match p with PBuild _ _ _ | PNest _ _ => true | _ => false end.
Definition storing p : option V := match p with PStore _ v => Some v | _ => None end.

(** ** who leads which call *)
Notation role := (string * option nat * option nat)%type.
Definition role_of ld : role := (l_key ld, lead_call (l_pc ld), wait_call (l_pc ld)).
Record led (m : gmap nat role) (fl : gmap string nat) (cs : list (string * option outcome)) (n : nat) : Prop := Led {
  led_next l x : m !! l = Some x -> l < n;
  led_lead l k c w : m !! l = Some (k, Some c, w) -> fl !! k = Some c;
  led_open l k c w : m !! l = Some (k, Some c, w) -> cs !! c = Some (k, None);
  led_flight k c : fl !! k = Some c -> exists l w, m !! l = Some (k, Some c, w);
  led_one l l' k c c' w w' : m !! l = Some (k, Some c, w) -> m !! l' = Some (k, Some c', w') -> l = l';
  led_wait l k x c : m !! l = Some (k, x, Some c) -> exists r : option outcome, cs !! c = Some (k, r);
  led_call c k : cs !! c = Some (k, None) -> fl !! k = Some c
}.
Lemma led_new m fl cs n k : led m fl cs n -> led (<[n := (k, None, None)]> m) fl cs (S n).
Proof.
  intros [H1 H2 H3 H4 H5 H6 H7]. assert (Hn : m !! n = None).
  { destruct (m !! n) eqn:E1; [|done]. apply H1 in E1. lia. }
  split; try done.
  - intros l x. rewrite lookup_insert_Some. intros [[<- _]|[_ H%H1]]; lia.
  - intros l k' c w. rewrite lookup_insert_Some. intros [[_ [=]]|[_ H]]. by eapply H2.
  - intros l k' c w. rewrite lookup_insert_Some. intros [[_ [=]]|[_ H]]. by eapply H3.
  - intros k' c H. destruct (H4 _ _ H) as (l & w & Hl). exists l, w. rewrite lookup_insert_ne; [done|]. congruence.
  - intros l l' k' c c' w w'. rewrite !lookup_insert_Some. intros [[_ [=]]|[_ H]] [[_ [=]]|[_ H']]. by eapply H5.
  - intros l k' x c. rewrite lookup_insert_Some. intros [[_ [=]]|[_ H]]. by eapply H6.
Qed.
Lemma led_same m fl cs n l x : m !! l = Some x -> led m fl cs n -> led (<[l := x]> m) fl cs n.
Proof. intros H. by rewrite insert_id. Qed.
Lemma led_join m fl cs n l k c w : m !! l = Some (k, None, w) -> fl !! k = Some c -> led m fl cs n -> led (<[l := (k, None, Some c)]> m) fl cs n.
Proof.
  intros Hl Hf [H1 H2 H3 H4 H5 H6 H7]. split; try done.
  - intros l' x. rewrite lookup_insert_Some. intros [[<- _]|[_ H]]; by eapply H1.
  - intros l' k' c' w'. rewrite lookup_insert_Some. intros [[_ [=]]|[_ H]]. by eapply H2.
  - intros l' k' c' w'. rewrite lookup_insert_Some. intros [[_ [=]]|[_ H]]. by eapply H3.
  - intros k' c' H. destruct (H4 _ _ H) as (l' & w' & Hl'). exists l', w'. rewrite lookup_insert_ne; [done|]. congruence.
  - intros l1 l2 k' c1 c2 w1 w2. rewrite !lookup_insert_Some. intros [[_ [=]]|[_ H]] [[_ [=]]|[_ H']]. by eapply H5.
  - intros l' k' x c'. rewrite lookup_insert_Some. intros [[_ [= <- <- <-]]|[_ H]]; [|by eapply H6].
    destruct (H4 _ _ Hf) as (l2 & w2 & Hl2). eexists. by eapply H3.
Qed.
Lemma led_begin m fl cs n l k w : m !! l = Some (k, None, w) -> fl !! k = None -> led m fl cs n ->
  led (<[l := (k, Some (length cs), None)]> m) (<[k := length cs]> fl) (cs ++ [(k, None)]) n.
Proof.
  intros Hl Hf [H1 H2 H3 H4 H5 H6 H7].
  assert (Hno : forall l' c' w', m !! l' = Some (k, Some c', w') -> False) by (intros l' c' w' H; apply H2 in H; congruence).
  assert (Hsn : forall c' x, cs !! c' = Some x -> (cs ++ [(k, None)]) !! c' = Some x) by (intros; by apply lookup_app_l_Some).
  split.
  - intros l' x. rewrite lookup_insert_Some. intros [[<- _]|[_ H]]; by eapply H1.
  - intros l' k' c' w'. rewrite lookup_insert_Some. intros [[_ [= <- <- _]]|[_ H]]; [by rewrite lookup_insert|].
    rewrite lookup_insert_ne; [by eapply H2|]. intros <-. by eapply Hno.
  - intros l' k' c' w'. rewrite lookup_insert_Some. intros [[_ [= <- <- _]]|[_ H]]; [by rewrite lookup_app_r, Nat.sub_diag|]. apply Hsn. by eapply H3.
  - intros k' c'. rewrite lookup_insert_Some. intros [[<- <-]|[N H]]; [exists l, None; by rewrite lookup_insert|].
    destruct (H4 _ _ H) as (l' & w' & Hl'). exists l', w'. rewrite lookup_insert_ne; [done|]. congruence.
  - intros l1 l2 k' c1 c2 w1 w2. rewrite !lookup_insert_Some. intros [[<- [= <- <- _]]|[N H]] [[<- [= <- _]]|[N' H']]; try done.
    + by destruct (Hno _ _ _ H').
    + subst. by destruct (Hno _ _ _ H).
    + by eapply H5.
  - intros l' k' x c'. rewrite lookup_insert_Some. intros [[_ [=]]|[_ H]]. destruct (H6 _ _ _ _ H) as [r Hr]. exists r. by apply Hsn.
  - intros c' k' H. apply lookup_app_Some in H as [H|[Hlen H]].
    + apply H7 in H. rewrite lookup_insert_ne; [done|]. congruence.
    + destruct (c' - length cs) as [|] eqn:Ec; [|done]. cbn in H. injection H as <-. rewrite lookup_insert. f_equal. lia.
Qed.
Lemma led_fin m fl cs n l k c w r : m !! l = Some (k, Some c, w) -> led m fl cs n ->
  led (delete l m) (delete k fl) (<[c := (k, Some r)]> cs) n.
Proof.
  intros Hl [H1 H2 H3 H4 H5 H6 H7]. pose proof (H2 _ _ _ _ Hl) as Hf. pose proof (H3 _ _ _ _ Hl) as Hc.
  assert (Hother : forall c' x, cs !! c' = Some x -> c' <> c -> <[c := (k, Some r)]> cs !! c' = Some x) by (intros; by rewrite list_lookup_insert_ne).
  split.
  - intros l' x. rewrite lookup_delete_Some. intros [_ H]. by eapply H1.
  - intros l' k' c' w'. rewrite lookup_delete_Some. intros [N H]. rewrite lookup_delete_ne; [by eapply H2|]. intros <-. apply N. by eapply H5.
  - intros l' k' c' w'. rewrite lookup_delete_Some. intros [N H]. pose proof (H3 _ _ _ _ H) as Hc'. apply Hother; [done|]. intros ->.
    rewrite Hc in Hc'. injection Hc' as <-. apply N. by eapply H5.
  - intros k' c'. rewrite lookup_delete_Some. intros [N H]. destruct (H4 _ _ H) as (l' & w' & Hl'). exists l', w'.
    rewrite lookup_delete_ne; [done|]. congruence.
  - intros l1 l2 k' c1 c2 w1 w2. rewrite !lookup_delete_Some. intros [_ H] [_ H']. by eapply H5.
  - intros l' k' x c'. rewrite lookup_delete_Some. intros [_ H]. destruct (H6 _ _ _ _ H) as [r' Hr]. destruct (decide (c' = c)) as [->|N].
    + rewrite Hc in Hr. injection Hr as <- <-. exists (Some r). apply list_lookup_insert. by eapply lookup_lt_Some.
    + exists r'. by apply Hother.
  - intros c' k' H. destruct (decide (c' = c)) as [->|N].
    + rewrite list_lookup_insert in H by (by eapply lookup_lt_Some). done.
    + rewrite list_lookup_insert_ne in H by done. pose proof (H7 _ _ H) as Hk. rewrite lookup_delete_ne; [done|]. congruence.
Qed.
Lemma led_gone m fl cs n l k w : m !! l = Some (k, None, w) -> led m fl cs n -> led (delete l m) fl cs n.
Proof.
  intros Hl [H1 H2 H3 H4 H5 H6 H7]. split; try done.
  - intros l' x. rewrite lookup_delete_Some. intros [_ H]. by eapply H1.
  - intros l' k' c' w'. rewrite lookup_delete_Some. intros [N H]. by eapply H2.
  - intros l' k' c' w'. rewrite lookup_delete_Some. intros [N H]. by eapply H3.
  - intros k' c' H. destruct (H4 _ _ H) as (l' & w' & Hl'). exists l', w'. rewrite lookup_delete_ne; [done|]. congruence.
  - intros l1 l2 k' c1 c2 w1 w2. rewrite !lookup_delete_Some. intros [_ H] [_ H']. by eapply H5.
  - intros l' k' x c'. rewrite lookup_delete_Some. intros [_ H]. by eapply H6.
Qed.
Lemma role_resume r ld : role_of (resume r ld) = role_of ld.
Proof. unfold resume. destruct ld as [k u []]; done. Qed.
Lemma role_leave l ld r (m : gmap nat load) : role_of <$> leave l ld r m = delete l (role_of <$> m).
Proof.
  unfold leave. rewrite <- fmap_delete. destruct (l_up ld) as [p|]; [|done]. apply map_eq. intros x. rewrite !lookup_fmap.
  destruct (decide (x = p)) as [->|N]; [rewrite lookup_alter|by rewrite lookup_alter_ne]. destruct (delete l m !! p); [|done]. cbn. by rewrite role_resume.
Qed.
Definition led_by s : Prop := led (role_of <$> s_loads s) (s_flight s) (s_calls s) (s_next s).
Lemma led_init : led_by init.
Proof. split; intros *; try (by rewrite ?lookup_fmap, lookup_empty); done. Qed.
Lemma led_moves s es s' : led_by s -> moves deps s es s' -> led_by s'.
Proof.
  unfold led_by. intros H (l & ld & Hl & Hst). assert (Hr : (role_of <$> s_loads s) !! l = Some (role_of ld)) by (by rewrite lookup_fmap, Hl).
  destruct Hst as [c Hp Hf|Hp Hf|c v Hp Hd|c Hp Hd|c d ds Hp|c v Hp|c ds ok r Hp Hds Hk|c v Hp|c r Hp|c k r Hp Hc]; cbn [go enter s_loads s_flight s_calls s_next];
    rewrite ?fmap_insert, ?role_leave; unfold role_of in Hr; rewrite Hp in Hr; cbn in Hr.
  - by eapply led_join.
  - by eapply led_begin.
  - by apply led_same.
  - by apply led_same.
  - apply led_new. by apply led_same.
  - by apply led_same.
  - by apply led_same.
  - by apply led_same.
  - by eapply led_fin.
  - by eapply led_gone.
Qed.
Lemma led_exec tr s : exec deps tr s -> led_by s.
Proof.
  induction 1 as [|tr s k H IH|tr s es s' H IH Hm]; [apply led_init| |by eapply led_moves].
  unfold led_by. cbn. rewrite fmap_insert. by apply led_new.
Qed.
Lemma lead_unique s l l' ld ld' c c' : led_by s -> s_loads s !! l = Some ld -> s_loads s !! l' = Some ld' -> l_key ld = l_key ld' ->
  lead_call (l_pc ld) = Some c -> lead_call (l_pc ld') = Some c' -> l = l'.
Proof.
  intros H Hl Hl' Hk Hc Hc'. eapply (led_one _ _ _ _ H l l' (l_key ld) c c'); rewrite lookup_fmap, ?Hl, ?Hl'; cbn; unfold role_of; rewrite ?Hc, ?Hc', ?Hk; done.
Qed.

(** ** loads made by builders *)
Definition nests p : bool := match p with PNest _ _ => true | _ => false end.
Record stacked (m : gmap nat load) (n : nat) : Prop := Stacked {
  st_next l ld : m !! l = Some ld -> l < n;
  st_up l ld q : m !! l = Some ld -> l_up ld = Some q -> exists ldq, m !! q = Some ldq /\ nests (l_pc ldq) = true;
  st_order l ld q : m !! l = Some ld -> l_up ld = Some q -> q < l;
  st_child q ldq : m !! q = Some ldq -> nests (l_pc ldq) = true -> exists l ld, m !! l = Some ld /\ l_up ld = Some q;
  st_one l ld l' ld' q : m !! l = Some ld -> m !! l' = Some ld' -> l_up ld = Some q -> l_up ld' = Some q -> l = l'
}.
Lemma stacked_new m n k : stacked m n -> stacked (<[n := Load k None PEnter]> m) (S n).
Proof.
  intros [H1 H2 H2' H3 H4]. assert (Hn : m !! n = None). { destruct (m !! n) eqn:E1; [|done]. apply H1 in E1. lia. }
  split.
  - intros l ld. rewrite lookup_insert_Some. intros [[<- _]|[_ H%H1]]; lia.
  - intros l ld q. rewrite lookup_insert_Some. intros [[_ <-]|[_ H]] Hu; [done|]. destruct (H2 _ _ _ H Hu) as (x & Hx & Hx'). exists x. rewrite lookup_insert_ne; [done|]. congruence.
  - intros l ld q. rewrite lookup_insert_Some. intros [[_ <-]|[_ H]] Hu; [done|]. by eapply H2'.
  - intros q ldq. rewrite lookup_insert_Some. intros [[_ <-]|[_ H]] Hu; [done|]. destruct (H3 _ _ H Hu) as (l & ld & Hl & Hlu). exists l, ld. rewrite lookup_insert_ne; [done|]. congruence.
  - intros l ld l' ld' q. rewrite !lookup_insert_Some. intros [[_ <-]|[_ H]] [[_ <-]|[_ H']] Hu Hu'; try done. by eapply (H4 _ _ _ _ _ H H').
Qed.
Lemma stacked_go m n l ld p : m !! l = Some ld -> nests (l_pc ld) = nests p -> stacked m n -> stacked (<[l := at_pc p ld]> m) n.
Proof.
  intros Hl Hp [H1 H2 H2' H3 H4].
  assert (Hlk : forall x y, <[l := at_pc p ld]> m !! x = Some y -> exists z, m !! x = Some z /\ l_up z = l_up y /\ nests (l_pc z) = nests (l_pc y)).
  { intros x y. rewrite lookup_insert_Some. intros [[<- <-]|[_ H]]; [by exists ld|by exists y]. }
  assert (Hlk' : forall x z, m !! x = Some z -> exists y, <[l := at_pc p ld]> m !! x = Some y /\ l_up z = l_up y /\ nests (l_pc z) = nests (l_pc y)).
  { intros x z Hx. destruct (decide (x = l)) as [->|N]; [|exists z; by rewrite lookup_insert_ne]. assert (z = ld) as -> by congruence. exists (at_pc p ld). by rewrite lookup_insert. }
  split.
  - intros x y (z & Hz & _)%Hlk. by eapply H1.
  - intros x y q (z & Hz & Hu & _)%Hlk Hq. rewrite <- Hu in Hq. destruct (H2 _ _ _ Hz Hq) as (w & Hw & Hn). apply Hlk' in Hw as (y' & Hy & _ & Hy'). exists y'. by rewrite <- Hy'.
  - intros x y q (z & Hz & Hu & _)%Hlk Hq. rewrite <- Hu in Hq. by eapply H2'.
  - intros q y (z & Hz & _ & Hn)%Hlk Hy. rewrite <- Hn in Hy. destruct (H3 _ _ Hz Hy) as (x & w & Hw & Hu). apply Hlk' in Hw as (y' & Hy' & Hu' & _). exists x, y'. split; [done|congruence].
  - intros x y x' y' q (z & Hz & Hu & _)%Hlk (z' & Hz' & Hu' & _)%Hlk Hq Hq'. apply (H4 x z x' z' q Hz Hz'); congruence.
Qed.
Lemma stacked_nest m n l ld d c ds : m !! l = Some ld -> nests (l_pc ld) = false -> stacked m n ->
  stacked (<[n := Load d (Some l) PEnter]> (<[l := at_pc (PNest c ds) ld]> m)) (S n).
Proof.
  intros Hl Hp [H1 H2 H2' H3 H4]. assert (Hn : m !! n = None). { destruct (m !! n) eqn:E1; [|done]. apply H1 in E1. lia. }
  assert (Hln : l < n) by (by eapply H1).
  assert (Hlk : forall x y, <[n := Load d (Some l) PEnter]> (<[l := at_pc (PNest c ds) ld]> m) !! x = Some y ->
    (x = n /\ y = Load d (Some l) PEnter) \/ (x = l /\ y = at_pc (PNest c ds) ld) \/ (x <> n /\ x <> l /\ m !! x = Some y)).
  { intros x y. rewrite !lookup_insert_Some. intros [[<- <-]|[N [[<- <-]|[N' H]]]]; [by left|right; by left|]. right. right. done. }
  assert (Hkeep : forall x y, m !! x = Some y -> x <> l -> <[n := Load d (Some l) PEnter]> (<[l := at_pc (PNest c ds) ld]> m) !! x = Some y).
  { intros x y Hx N. rewrite !lookup_insert_ne; [done|done|]. congruence. }
  assert (Hll : <[n := Load d (Some l) PEnter]> (<[l := at_pc (PNest c ds) ld]> m) !! l = Some (at_pc (PNest c ds) ld)).
  { rewrite lookup_insert_ne by lia. apply lookup_insert. }
  assert (Hnc : forall x y, m !! x = Some y -> l_up y <> Some l).
  { intros x y Hx Hu. destruct (H2 _ _ _ Hx Hu) as (w & Hw & Hw'). congruence. }
  split.
  - intros x y [[-> _]|[[-> _]|(_ & _ & H)]]%Hlk; [lia|lia|]. apply H1 in H. lia.
  - intros x y q Hx Hu. assert (Hq : q = l \/ exists w, m !! q = Some w /\ nests (l_pc w) = true).
    { apply Hlk in Hx as [[-> ->]|[[-> ->]|(_ & _ & Hx)]]; [left; by injection Hu|right; by eapply (H2 l ld)|right; by eapply H2]. }
    destruct Hq as [->|(w & Hw & Hw')]; [eexists; split; [exact Hll|done]|]. exists w. split; [|done]. apply Hkeep; [done|]. congruence.
  - intros x y q [[-> ->]|[[-> ->]|(_ & _ & H)]]%Hlk Hu; [injection Hu as <-; lia|by eapply H2'|by eapply H2'].
  - intros q y [[-> ->]|[[-> ->]|(_ & _ & H)]]%Hlk Hy; [done| |].
    + exists n, (Load d (Some l) PEnter). by rewrite lookup_insert.
    + destruct (H3 _ _ H Hy) as (x & w & Hw & Hu). destruct (decide (x = l)) as [->|N]; [exists l, (at_pc (PNest c ds) ld); split; [done|]; cbn; congruence|].
      exists x, w. split; [by apply Hkeep|done].
  - intros x y x' y' q [[-> ->]|[[-> ->]|(N1 & N2 & H)]]%Hlk [[-> ->]|[[-> ->]|(N3 & N4 & H')]]%Hlk Hu Hu'; try done.
    all: cbn in Hu, Hu'.
    + injection Hu as <-. by destruct (Hnc _ _ Hl).
    + injection Hu as <-. by destruct (Hnc _ _ H').
    + injection Hu' as <-. by destruct (Hnc _ _ Hl).
    + by eapply (H4 _ _ _ _ _ Hl H').
    + injection Hu' as <-. by destruct (Hnc _ _ H).
    + by eapply (H4 _ _ _ _ _ H Hl).
    + by eapply (H4 _ _ _ _ _ H H').
Qed.
Lemma leave_lookup l ld r (m : gmap nat load) x y : leave l ld r m !! x = Some y <->
  x <> l /\ ((l_up ld <> Some x /\ m !! x = Some y) \/ (l_up ld = Some x /\ exists y0, m !! x = Some y0 /\ y = resume r y0)).
Proof.
  unfold leave. destruct (l_up ld) as [q|] eqn:Eu.
  - destruct (decide (x = q)) as [->|N].
    + rewrite lookup_alter. destruct (decide (q = l)) as [->|N']; [rewrite lookup_delete; split; [done|by intros [? _]]|].
      rewrite lookup_delete_ne by done. destruct (m !! q) as [y0|] eqn:Em; cbn; split.
      * intros [= <-]. split; [done|right]. split; [done|]. by exists y0.
      * intros [_ [[? _]|(_ & y1 & [= <-] & ->)]]; done.
      * done.
      * intros [_ [[? _]|(_ & y1 & [=] & _)]]; done.
    + rewrite lookup_alter_ne by done. rewrite lookup_delete_Some. split.
      * intros [H1 H2]. split; [done|left]. split; [congruence|done].
      * intros [H1 [[_ H]|[[= ->] _]]]; [by split|done].
  - rewrite lookup_delete_Some. split.
    + intros [H1 H2]. split; [done|left]. done.
    + intros [H1 [[_ H]|[[=] _]]]. by split.
Qed.
Lemma resume_up r ld : l_up (resume r ld) = l_up ld. Proof. by destruct ld as [k u []]. Qed.
Lemma resume_key r ld : l_key (resume r ld) = l_key ld. Proof. by destruct ld as [k u []]. Qed.
Lemma resume_lead r ld : lead_call (l_pc (resume r ld)) = lead_call (l_pc ld). Proof. by destruct ld as [k u []]. Qed.
Lemma resume_building r ld : building (l_pc (resume r ld)) = building (l_pc ld). Proof. by destruct ld as [k u []]. Qed.
Lemma resume_storing r ld : storing (l_pc (resume r ld)) = storing (l_pc ld). Proof. by destruct ld as [k u []]. Qed.
Lemma resume_fin r ld c r' : l_pc (resume r ld) = PFin c r' <-> l_pc ld = PFin c r'. Proof. by destruct ld as [k u []]. Qed.
Lemma resume_wait r ld c : l_pc (resume r ld) = PWait c <-> l_pc ld = PWait c. Proof. by destruct ld as [k u []]. Qed.
Lemma leave_old l ld r (m : gmap nat load) x y : leave l ld r m !! x = Some y -> exists y0, m !! x = Some y0 /\ x <> l /\ (y = y0 \/ y = resume r y0).
Proof. intros (N & [[_ H]|(_ & y0 & H & ->)])%leave_lookup; [exists y|exists y0]; (split; [done|]; split; [done|]); [by left|by right]. Qed.
Lemma stacked_leave m n l ld r : m !! l = Some ld -> nests (l_pc ld) = false -> stacked m n -> stacked (leave l ld r m) n.
Proof.
  intros Hl Hp [H1 H2 H2' H3 H4].
  assert (Hnc : forall x y, m !! x = Some y -> l_up y <> Some l).
  { intros x y Hx Hu. destruct (H2 _ _ _ Hx Hu) as (w & Hw & Hw'). congruence. }
  assert (Hup : forall x y, leave l ld r m !! x = Some y -> exists y0, m !! x = Some y0 /\ x <> l /\ l_up y0 = l_up y).
  { intros x y (y0 & H & N & [->| ->])%leave_old; exists y0; (split; [done|]; split; [done|]); by rewrite ?resume_up. }
  assert (Hdown : forall x y0, m !! x = Some y0 -> x <> l -> exists y, leave l ld r m !! x = Some y /\ l_up y = l_up y0 /\ (l_up ld <> Some x -> y = y0)).
  { intros x y0 H N. destruct (decide (l_up ld = Some x)) as [Eu|Nu].
    - exists (resume r y0). split; [apply leave_lookup; split; [done|right; split; [done|by exists y0]]|]. split; [by rewrite resume_up|done].
    - exists y0. split; [apply leave_lookup; split; [done|by left]|done]. }
  split.
  - intros x y (y0 & H & _ & _)%Hup. by eapply H1.
  - intros x y q (y0 & H & N & Hu)%Hup Hq. rewrite <- Hu in Hq. destruct (H2 _ _ _ H Hq) as (w & Hw & Hw').
    assert (q <> l) as Nq by (intros ->; congruence). destruct (Hdown q w Hw Nq) as (y' & Hy & _ & Hy'). exists y'. split; [done|].
    rewrite Hy'; [done|]. intros Hx. apply N. by eapply (H4 x y0 l ld q).
  - intros x y q (y0 & H & N & Hu)%Hup Hq. rewrite <- Hu in Hq. by eapply H2'.
  - intros q y Hq Hy. apply leave_lookup in Hq as (N & [[Nu H]|(Hu & y0 & H & ->)]).
    + destruct (H3 _ _ H Hy) as (x & w & Hw & Hwu). destruct (decide (x = l)) as [->|Nx]; [congruence|].
      destruct (Hdown x w Hw Nx) as (y' & Hy' & Hu' & _). exists x, y'. split; [done|congruence].
    + unfold resume in Hy. destruct (l_pc y0) eqn:Ep; cbn in Hy; try rewrite Ep in Hy; done.
  - intros x y x' y' q (z & Hz & _ & Hu)%Hup (z' & Hz' & _ & Hu')%Hup Hq Hq'. apply (H4 x z x' z' q Hz Hz'); congruence.
Qed.
Lemma stacked_exec tr s : exec deps tr s -> stacked (s_loads s) (s_next s).
Proof.
  induction 1 as [|tr s k H IH|tr s es s' H IH (l & ld & Hl & Hst)].
  - split; intros *; cbn; by rewrite ?lookup_empty.
  - by apply stacked_new.
  - destruct Hst as [c Hp Hf|Hp Hf|c v Hp Hd|c Hp Hd|c d ds Hp|c v Hp|c ds ok r Hp Hds Hk|c v Hp|c r Hp|c k r Hp Hc]; cbn [go enter s_loads s_next];
      first [by apply stacked_go; rewrite ?Hp|by apply stacked_nest; rewrite ?Hp|by apply stacked_leave; rewrite ?Hp].
Qed.

(** ** the phases of a key *)
Definition in_phase s (k : string) (ph : phase V) : Prop :=
  match ph with
  | Idle => s_data s !! k = None /\ forall l ld, s_loads s !! l = Some ld -> l_key ld = k -> building (l_pc ld) = false /\ storing (l_pc ld) = None
  | Running l => s_data s !! k = None /\ exists ld, s_loads s !! l = Some ld /\ l_key ld = k /\ building (l_pc ld) = true
  | Built v => s_data s !! k = Some v \/ (s_data s !! k = None /\ exists l ld, s_loads s !! l = Some ld /\ l_key ld = k /\ storing (l_pc ld) = Some v)
  end.
Record valued s : Prop := Valued {
  vl_build l ld : s_loads s !! l = Some ld -> building (l_pc ld) = true -> s_data s !! l_key ld = None;
  vl_store l ld v : s_loads s !! l = Some ld -> storing (l_pc ld) = Some v -> s_data s !! l_key ld = None;
  vl_fin l ld c v : s_loads s !! l = Some ld -> l_pc ld = PFin c (OOk v) -> s_data s !! l_key ld = Some v;
  vl_call c k v : s_calls s !! c = Some (k, Some (OOk v)) -> s_data s !! k = Some v
}.
Lemma building_leads p : building p = true -> exists c, lead_call p = Some c. Proof. destruct p; try done; by eexists. Qed.
Lemma storing_leads p v : storing p = Some v -> exists c, lead_call p = Some c. Proof. destruct p; try done; by eexists. Qed.

Ltac lk := rewrite ?lookup_insert_Some in *.
Lemma valued_go s l ld p : s_loads s !! l = Some ld -> valued s ->
  (building p = true -> s_data s !! l_key ld = None) -> (forall v, storing p = Some v -> s_data s !! l_key ld = None) ->
  (forall c v, p = PFin c (OOk v) -> s_data s !! l_key ld = Some v) -> valued (go l ld p s).
Proof.
  intros Hl [H1 H2 H3 H4] G1 G2 G3. split; cbn [go s_loads s_data s_calls]; [..|done].
  - intros x y. rewrite lookup_insert_Some. intros [[<- <-]|[_ H]]; [apply G1|by eapply H1].
  - intros x y v. rewrite lookup_insert_Some. intros [[<- <-]|[_ H]]; [apply G2|by eapply H2].
  - intros x y c v. rewrite lookup_insert_Some. intros [[<- <-]|[_ H]]; [apply G3|by eapply H3].
Qed.
Lemma valued_leave s s' l ld r : s_loads s !! l = Some ld -> valued s -> s_data s' = s_data s -> s_loads s' = leave l ld r (s_loads s) ->
  (forall c k v, s_calls s' !! c = Some (k, Some (OOk v)) -> s_calls s !! c = Some (k, Some (OOk v)) \/ (k = l_key ld /\ r = OOk v /\ s_data s !! k = Some v)) -> valued s'.
Proof.
  intros Hl [H1 H2 H3 H4] Ed El Hc. split.
  - intros x y Hx Hb. rewrite El in Hx. rewrite Ed. apply leave_old in Hx as (y0 & Hx & _ & [->| ->]); [by eapply H1|]. rewrite resume_key. rewrite resume_building in Hb. by eapply H1.
  - intros x y v Hx Hb. rewrite El in Hx. rewrite Ed. apply leave_old in Hx as (y0 & Hx & _ & [->| ->]); [by eapply H2|]. rewrite resume_key. rewrite resume_storing in Hb. by eapply H2.
  - intros x y c v Hx Hb. rewrite El in Hx. rewrite Ed. apply leave_old in Hx as (y0 & Hx & _ & [->| ->]); [by eapply H3|]. rewrite resume_key. apply resume_fin in Hb. by eapply H3.
  - intros c k v H. rewrite Ed. apply Hc in H as [H|(-> & -> & H)]; [by eapply H4|done].
Qed.
Lemma valued_moves s es s' : led_by s -> valued s -> moves deps s es s' -> valued s'.
Proof.
  intros HL HV (l & ld & Hl & Hst). pose proof HV as [H1 H2 H3 H4].
  destruct Hst as [c Hp Hf|Hp Hf|c v Hp Hd|c Hp Hd|c d ds Hp|c v Hp|c ds ok r Hp Hds Hk|c v Hp|c r Hp|c k r Hp Hc].
  - by apply valued_go.
  - split; cbn [s_loads s_data s_calls].
    + intros x y. rewrite lookup_insert_Some. intros [[<- <-]|[_ H]]; [done|by eapply H1].
    + intros x y v. rewrite lookup_insert_Some. intros [[<- <-]|[_ H]]; [done|by eapply H2].
    + intros x y c v. rewrite lookup_insert_Some. intros [[<- <-]|[_ H]]; [done|by eapply H3].
    + intros c k v H. apply lookup_app_Some in H as [H|[_ H]]; [by eapply H4|]. by destruct (c - _) as [|[|]].
  - apply valued_go; try done. by intros ? ? [= _ <-].
  - by apply valued_go.
  - assert (HV' : valued (go l ld (PNest c ds) s)). { apply valued_go; try done. intros _. eapply H1; [done|]. by rewrite Hp. }
    destruct HV' as [G1 G2 G3 G4]. split; cbn [enter s_loads s_data s_calls] in *; [..|done].
    + intros x y. rewrite lookup_insert_Some. intros [[<- <-]|[_ H]]; [done|by eapply G1].
    + intros x y v. rewrite lookup_insert_Some. intros [[<- <-]|[_ H]]; [done|by eapply G2].
    + intros x y c' v. rewrite lookup_insert_Some. intros [[<- <-]|[_ H]]; [done|by eapply G3].
  - apply valued_go; try done. intros v' _. eapply H1; [done|]. by rewrite Hp.
  - apply valued_go; try done. intros c' v [= _ ->]. done.
  - assert (Huniq : forall x y, s_loads s !! x = Some y -> l_key y = l_key ld -> (exists c', lead_call (l_pc y) = Some c') -> x = l).
    { intros x y Hx Ek [c' Hc']. eapply (lead_unique s x l y ld c' c HL Hx Hl Ek Hc'). by rewrite Hp. }
    split; cbn [s_loads s_data s_calls].
    + intros x y. rewrite lookup_insert_Some. intros [[<- <-]|[N H]]; [done|]. intros Hb. rewrite lookup_insert_ne; [by eapply H1|].
      intros Ek. apply N. symmetry. apply (Huniq x y H (eq_sym Ek)). by apply building_leads.
    + intros x y w. rewrite lookup_insert_Some. intros [[<- <-]|[N H]]; [done|]. intros Hb. rewrite lookup_insert_ne; [by eapply H2|].
      intros Ek. apply N. symmetry. apply (Huniq x y H (eq_sym Ek)). by eapply storing_leads.
    + intros x y c' w. rewrite lookup_insert_Some. intros [[<- <-]|[N H]]; [cbn; intros [= _ <-]; by rewrite lookup_insert|]. intros Hb.
      rewrite lookup_insert_ne; [by eapply H3|]. intros Ek. apply N. symmetry. apply (Huniq x y H (eq_sym Ek)). rewrite Hb. by eexists.
    + intros c' k w H. apply H4 in H. assert (Hn : s_data s !! l_key ld = None) by (eapply H2; [done|by rewrite Hp]).
      rewrite lookup_insert_ne; [done|]. congruence.
  - eapply valued_leave; [exact Hl|done|done|done|]. cbn [s_calls]. intros c' k v H. apply list_lookup_insert_Some in H as [(<- & [= <- ->] & _)|[_ H]]; [right|by left].
    split; [done|]. split; [done|]. by eapply H3.
  - eapply valued_leave; [exact Hl|done|done|done|]. cbn [s_calls]. intros c' k' v H. by left.
Qed.
Lemma valued_exec tr s : exec deps tr s -> valued s.
Proof.
  induction 1 as [|tr s k H IH|tr s es s' H IH Hm].
  - split; intros *; cbn; by rewrite ?lookup_empty.
  - destruct IH as [G1 G2 G3 G4]. split; cbn [enter s_loads s_data s_calls] in *; [..|done].
    + intros x y. rewrite lookup_insert_Some. intros [[<- <-]|[_ H']]; [done|by eapply G1].
    + intros x y v. rewrite lookup_insert_Some. intros [[<- <-]|[_ H']]; [done|by eapply G2].
    + intros x y c' v. rewrite lookup_insert_Some. intros [[<- <-]|[_ H']]; [done|by eapply G3].
  - eapply valued_moves; [by eapply led_exec|done|done].
Qed.
End inv.

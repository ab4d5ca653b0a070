(** Concurrent calls: answers, memory, termination and schedules. *)
From stdpp Require Import strings list gmap.
From Coq Require Import Ascii ZArith Lia.
From Verif Require Import GoStr GoStrL Val Conv Instr Heap Schema Build Api SpecPath PathL Den Param HeapL Refine Top SpecSchema BuildL SpecProj SpecRun
  Conc ConcL ConcR ConcS SpecConc ConcB.

Lemma serve_does W E perm f i c : does perm (pcall W E f i c) (serve W E perm f i c).
Proof. destruct c; [apply does_transform|apply does_base]. Qed.

Section calls.
Context (W : oracles) (HW : jpath_parametric W) (E : env) (f : fmt) (tid : string) (props : option (list (string * tree))) (items : option tree).
Context (i : itr) (s0 : st) (Hap : apart W tid f props items) (Hnew : new_transformer W tid props items st0 = (s0, Ok i)) (cs : list call).
Let F := froms s0.
Lemma calls_R : exists flat, (forall l, shared flat (hp s0) l -> l < nxt s0) /\ forall p, p ∈ pcall W E f i <$> cs -> prl (shared flat (hp s0)) F flat (fun _ => eq) ∅ p p.
Proof.
  destruct (built_apart W tid f props items s0 i Hap Hnew) as (flat & Hs & Hc & Ht). exists flat. split.
  - intros l (ss & Hl & _). apply Hs. by eexists.
  - intros p (c & -> & _)%elem_of_list_fmap. by apply pcall_R.
Qed.
Lemma during_joint s ps : during W E f i s0 cs s ps -> exists flat ts, joint (shared flat (hp s0)) F flat (nxt s0) s0 (pcall W E f i <$> cs) s ps ts.
Proof.
  intros Hd. destruct calls_R as (flat & HZ & HR). exists flat.
  refine (joint_run (shared flat (hp s0)) F flat (nxt s0) HZ s0 _ eq_refl eq_refl _ s ps HR Hd). done.
Qed.
Lemma during_answer s ps j p r : during W E f i s0 cs s ps -> ps !! j = Some p -> returned p r ->
  exists c perm, cs !! j = Some c /\ orders perm /\ (serve W E perm f i c s0).2 = r.
Proof.
  intros Hd Hj ->. destruct (during_joint s ps Hd) as (flat & ts & Hts).
  destruct (joint_answer _ F flat (nxt s0) s0 _ s ps ts j r Hts Hj) as (p0 & perm & Hp & Ho & Hr).
  rewrite list_lookup_fmap in Hp. destruct (cs !! j) as [c|] eqn:Ec; [|done]. injection Hp as <-. exists c, perm. split; [done|]. split; [done|].
  by rewrite <- (serve_does W E perm f i c s0).
Qed.
Lemma during_memory s ps : during W E f i s0 cs s ps ->
  (forall l, l < nxt s0 -> hp s !! l = hp s0 !! l) /\ (forall id, default [] (froms s !! id) = default [] (froms s0 !! id)).
Proof. intros Hd. destruct (during_joint s ps Hd) as (flat & ts & Hts). destruct Hts as (_ & _ & _ & _ & _ & H1 & H2). by split. Qed.
Lemma during_write s ps j l c k : during W E f i s0 cs s ps -> ps !! j = Some (PWrite l c k) -> nxt s0 <= l < nxt s.
Proof. intros Hd Hj. destruct (during_joint s ps Hd) as (flat & ts & Hts). by destruct (joint_write _ _ _ _ _ _ _ _ _ _ _ _ _ Hts Hj) as (x & l0 & _ & _ & ?). Qed.
Lemma during_apart s1 ps1 s2 ps2 j1 j2 l c1 c2 k1 k2 : during W E f i s0 cs s1 ps1 -> rtc turn (s1, ps1) (s2, ps2) ->
  ps1 !! j1 = Some (PWrite l c1 k1) -> ps2 !! j2 = Some (PWrite l c2 k2) -> j1 = j2.
Proof.
  intros Hd Hr. destruct calls_R as (flat & HZ & HR).
  refine (writes_apart (shared flat (hp s0)) F flat (nxt s0) HZ s0 _ eq_refl eq_refl _ s1 ps1 s2 ps2 j1 j2 l c1 c2 k1 k2 HR Hd Hr). done.
Qed.
End calls.

(** ** termination *)
Inductive sub {A} : prog A -> prog A -> Prop :=
| sub_of s p s' p' : access s p s' p' -> sub p' p.
Lemma sub_acc {A} (p : prog A) : Acc sub p.
Proof.
  induction p as [r|c q IH|l c q IH|q IH|id q IH|id fr q IH|n q IH]; constructor; intros y Hy; inversion Hy as [? ? ? ? Ha]; subst; inversion Ha; subst; auto.
Qed.
Inductive sub_pool {A} : list (prog A) -> list (prog A) -> Prop :=
| sub_pool_of ps j p p' : ps !! j = Some p -> sub p' p -> sub_pool (<[j := p']> ps) ps.
Lemma pool_acc {A} (ps : list (prog A)) : Acc sub_pool ps.
Proof.
  induction ps as [|p ps IH]; [constructor; intros y Hy; inversion Hy; subst; done|].
  revert p. induction IH as [ps _ IHps]. intros p. induction (sub_acc p) as [p _ IHp]. constructor. intros y Hy.
  inversion Hy as [? j q q' Hj Hq]; subst. destruct j as [|j]; cbn in *.
  - injection Hj as <-. by apply IHp.
  - apply IHps. by econstructor.
Qed.
Lemma turn_acc {A} (s : st) (ps : list (prog A)) : Acc (fun x y => turn y x) (s, ps).
Proof.
  revert s. induction (pool_acc ps) as [ps _ IH]. intros s. constructor. intros [s' ps'] Ht. inversion Ht as [? ? j p ? p' Hj Ha]; subst.
  apply IH. econstructor; [done|]. by econstructor.
Qed.
Lemma can_go {A} (s : st) (ps : list (prog A)) j p : ps !! j = Some p -> (exists r, returned p r) \/ exists s' p', turn (s, ps) (s', <[j := p']> ps).
Proof.
  intros Hj. destruct p as [r|c q|l c q|q|id q|id fr q|n q]; [left; by exists r|right; eexists _, _; by (econstructor; [exact Hj|constructor])..].
Qed.

(** ** schedules *)
(** goroutines take turns as [js] says; maps are ranged over in order *)
Definition go1 {A} (s : st) (p : prog A) : st * prog A :=
  match p with
  | PRet r => (s, p)
  | PAlloc c k => (St (<[nxt s := c]> (hp s)) (S (nxt s)) (froms s) (tick s), k (nxt s))
  | PWrite l c k => (St (<[l := c]> (hp s)) (nxt s) (froms s) (tick s), k)
  | PHeap k => (s, k (hp s))
  | PFrom id k => (s, k (default [] (froms s !! id)))
  | PSet id fr k => (St (hp s) (nxt s) (<[id := fr]> (froms s)) (tick s), k)
  | PIter n k => (St (hp s) (nxt s) (froms s) (S (tick s)), k (List.seq 0 n))
  end.
Fixpoint schedule {A} (js : list nat) (s : st) (ps : list (prog A)) : st * list (prog A) :=
  match js with
  | [] => (s, ps)
  | j :: js' =>
    match ps !! j with
    | Some p => let (s', p') := go1 s p in schedule js' s' (<[j := p']> ps)
    | None => schedule js' s ps
    end
  end.
Lemma go1_access {A} s (p : prog A) : (exists r, p = PRet r) \/ access s p (go1 s p).1 (go1 s p).2.
Proof. destruct p; [left; by eexists|right; cbn; by constructor..]. Qed.
Lemma schedule_turns {A} js : forall s (ps : list (prog A)), rtc turn (s, ps) (schedule js s ps).
Proof.
  induction js as [|j js IH]; intros s ps; cbn [schedule]; [apply rtc_refl|]. destruct (ps !! j) as [p|] eqn:Ej; [|apply IH].
  destruct (go1_access s p) as [[r ->]|Ha].
  - cbn [go1]. rewrite list_insert_id by done. apply IH.
  - destruct (go1 s p) as [s' p']. cbn in Ha. eapply rtc_l; [|apply IH]. by econstructor.
Qed.
Definition answers {A} (ps : list (prog A)) : option (list (res A)) := mapM (fun p => match p with PRet r => Some r | _ => None end) ps.
Lemma answers_returned {A} (ps : list (prog A)) rs : answers ps = Some rs -> Forall2 returned ps rs.
Proof.
  intros H%mapM_Some. eapply Forall2_impl; [exact H|]. intros p r. cbn. destruct p; try done. intros [= ->]. done.
Qed.
Lemma schedule_witness W E f tid props items cs js rs :
  match new_transformer W tid props items st0 with
  | (s0, Ok i) => answers (schedule js s0 (pcall W E f i <$> cs)).2 = Some rs
  | _ => False
  end ->
  exists i s0 s ps, new_transformer W tid props items st0 = (s0, Ok i) /\ during W E f i s0 cs s ps /\ Forall2 returned ps rs.
Proof.
  destruct (new_transformer W tid props items st0) as [s0 [i| |]]; [|done..]. intros H.
  exists i, s0, (schedule js s0 (pcall W E f i <$> cs)).1, (schedule js s0 (pcall W E f i <$> cs)).2. split; [done|]. split; [|by apply answers_returned].
  unfold during. rewrite <- surjective_pairing. apply schedule_turns.
Qed.

(** Heap values that represent trees, and rules for computations that only add to the heap. *)
From stdpp Require Import strings list gmap.
From Coq Require Import ZArith Lia.
From Verif Require Import GoStr GoStrL Val Conv Instr Heap Den Param.

Lemma tree_ind' (P : tree -> Prop) :
  (forall s, P (TS s)) -> (forall l, Forall P l -> P (TArr l)) ->
  (forall kvs, Forall (fun kv => P kv.2) kvs -> P (TObj kvs)) ->
  (forall n, P (TNode n)) -> (forall l, P (TNodes l)) -> forall t, P t.
Proof.
  intros HS HA HO HN HL. fix IH 1. intros [s|l|kvs|n|l]; [apply HS| | |apply HN|apply HL].
  - apply HA. induction l as [|t l IHl]; constructor; [apply IH|apply IHl].
  - apply HO. induction kvs as [|[k t] l IHl]; constructor; [apply IH|apply IHl].
Qed.

Fixpoint repr (h : heap) (v : val) (t : tree) {struct t} : Prop :=
  match t with
  | TS s => v = VS s
  | TNode n => v = VNode n
  | TNodes l => v = VNodes l
  | TArr ts =>
    exists l n b, v = VArr (Some l) n /\ h !! l = Some (CArr b) /\ n <= length b /\
    (fix go (vs : list val) (ts : list tree) {struct ts} : Prop :=
       match ts, vs with
       | [], [] => True
       | t :: ts', v :: vs' => repr h v t /\ go vs' ts'
       | _, _ => False
       end) (take n b) ts
  | TObj kvs =>
    exists l m, v = VMap l /\ h !! l = Some (CMap m) /\ NoDup kvs.*1 /\
    (forall k, is_Some (m !! k) -> k ∈ kvs.*1) /\
    (fix go (kvs : list (string * tree)) : Prop :=
       match kvs with
       | [] => True
       | (k, t) :: kvs' => (exists v, m !! k = Some v /\ repr h v t) /\ go kvs'
       end) kvs
  end.

Lemma repr_arr h v ts : repr h v (TArr ts) <->
  exists l n b, v = VArr (Some l) n /\ h !! l = Some (CArr b) /\ n <= length b /\
  Forall2 (repr h) (take n b) ts.
Proof.
  cbn. split; intros (l & n & b & -> & Hl & Hn & HF); exists l, n, b; (split; [done|]); (split; [done|]);
    (split; [done|]).
  - revert HF. generalize (take n b). induction ts as [|t ts IH]; intros [|v vs]; try done.
    intros [? ?]. constructor; [done|]. by apply IH.
  - revert HF. generalize (take n b). induction ts as [|t ts IH]; intros vs HF; inversion HF; subst; [done|].
    split; [done|]. by apply IH.
Qed.
Lemma repr_obj h v kvs : repr h v (TObj kvs) <->
  exists l m, v = VMap l /\ h !! l = Some (CMap m) /\ NoDup kvs.*1 /\
  (forall k, option_Forall2 (repr h) (m !! k) (tmap kvs !! k)).
Proof.
  cbn.
  split; intros (l & m & -> & Hl & Hnd & HF); exists l, m; (split; [done|]); (split; [done|]);
    (split; [done|]).
  - destruct HF as [Hdom HF]. intros k.
    assert (HF' : forall k t, (k, t) ∈ kvs -> exists v, m !! k = Some v /\ repr h v t).
    { clear Hdom Hnd Hl k l. induction kvs as [|[k t] kvs IH]; intros k' t' Hin; [by apply elem_of_nil in Hin|].
      apply elem_of_cons in Hin as [[= -> ->]|Hin]; [apply HF|]. apply IH; [apply HF|done]. }
    unfold tmap. destruct (list_to_map kvs !! k) as [t|] eqn:Et.
    + apply elem_of_list_to_map_2 in Et. destruct (HF' _ _ Et) as (v & -> & Hr). by constructor.
    + destruct (m !! k) as [v|] eqn:Em; [|constructor].
      apply not_elem_of_list_to_map in Et. exfalso. apply Et, Hdom. by eexists.
  - split.
    + intros k [v Hv]. pose proof (HF k) as Hk. rewrite Hv in Hk. inversion Hk as [? t Ht E1 E2|].
      symmetry in E2. apply elem_of_list_to_map_2 in E2. by apply elem_of_list_fmap_1 with (f := fst) in E2.
    + assert (HF' : forall k t, (k, t) ∈ kvs -> exists v, m !! k = Some v /\ repr h v t).
      { intros k t Hin. apply (elem_of_list_to_map_1 _ _ _ Hnd) in Hin.
        pose proof (HF k) as Hk. unfold tmap in Hk. rewrite Hin in Hk. inversion Hk; subst. eauto. }
      clear HF Hl Hnd. induction kvs as [|[k t] kvs IH]; [done|]. split.
      * apply HF'. left.
      * apply IH. intros k' t' Hin. apply HF'. by right.
Qed.

Lemma repr_mono h1 h2 v t : h1 ⊆ h2 -> repr h1 v t -> repr h2 v t.
Proof.
  intros Hsub. revert v. induction t as [s|ts IH|kvs IH|n|l] using tree_ind'; intros v; try done.
  - rewrite !repr_arr. intros (l & n & b & -> & Hl & Hn & HF). exists l, n, b.
    split; [done|]. split; [by eapply lookup_weaken|]. split; [done|].
    revert IH. induction HF as [|x y l1 l2 Hxy HF IHF]; intros IH; constructor.
    + inversion IH; subst. auto.
    + apply IHF. by inversion IH.
  - rewrite !repr_obj. intros (l & m & -> & Hl & Hnd & HF). exists l, m.
    split; [done|]. split; [by eapply lookup_weaken|]. split; [done|].
    intros k. pose proof (HF k) as Hk. unfold tmap in *.
    destruct (list_to_map kvs !! k) as [t|] eqn:Et.
    + inversion Hk; subst. constructor. apply elem_of_list_to_map_2 in Et.
      rewrite Forall_forall in IH. by apply (IH _ Et).
    + inversion Hk; subst. constructor.
Qed.
Lemma repr_view h v t : repr h v t -> vrel (repr h) (view h v) (tview t).
Proof.
  destruct t as [s|ts|kvs|n|l].
  - intros ->. constructor.
  - rewrite repr_arr. intros (l & n & b & -> & Hl & Hn & HF). cbn. rewrite Hl. by constructor.
  - rewrite repr_obj. intros (l & m & -> & Hl & Hnd & HF). cbn. unfold hmap. rewrite Hl. by constructor.
  - intros ->. constructor.
  - intros ->. constructor.
Qed.
(** values visible in a part [h] of the heap [H] *)
Lemma repr_view_sub h H v t : h ⊆ H -> repr h v t -> vrel (repr h) (view H v) (tview t).
Proof.
  intros Hs. destruct t as [s|ts|kvs|n|l].
  - intros ->. constructor.
  - rewrite repr_arr. intros (l & n & b & -> & Hl & Hn & HF). cbn.
    assert (HH : H !! l = Some (CArr b)) by (by eapply lookup_weaken). rewrite HH. by constructor.
  - rewrite repr_obj. intros (l & m & -> & Hl & Hnd & HF). cbn. unfold hmap.
    assert (HH : H !! l = Some (CMap m)) by (by eapply lookup_weaken). rewrite HH. by constructor.
  - intros ->. constructor.
  - intros ->. constructor.
Qed.
Lemma repr_vnil h v t : repr h v t -> vnil v = tnil t.
Proof.
  destruct t as [s|ts|kvs|n|l].
  - by intros ->.
  - rewrite repr_arr. by intros (l & n & b & -> & _).
  - rewrite repr_obj. by intros (l & m & -> & _).
  - by intros ->.
  - by intros ->.
Qed.
Lemma repr_nil h v : repr h v (TS SNil) <-> v = VS SNil.
Proof. done. Qed.

Lemma repr_s h v s : repr h v (TS s) -> v = VS s.
Proof. done. Qed.
Lemma repr_node h v n : repr h v (TNode n) -> v = VNode n.
Proof. done. Qed.
Lemma repr_nodes h v l : repr h v (TNodes l) -> v = VNodes l.
Proof. done. Qed.
Ltac leaf H := first [apply repr_s in H | apply repr_node in H | apply repr_nodes in H]; subst.
Global Arguments repr : simpl never.

(** ** states *)
Definition stok (s : st) : Prop := forall l, is_Some (hp s !! l) -> l < nxt s.
(** what a computation that mutates nothing does to the state *)
Definition step (s s' : st) : Prop :=
  stok s' /\ hp s ⊆ hp s' /\ nxt s <= nxt s' /\ froms s' = froms s.
(** the visible heap grows by new cells only *)
Definition vis (s s' : st) (h1 h2 : heap) : Prop :=
  h1 ⊆ h2 /\ h2 ⊆ hp s' /\ (forall l, is_Some (h2 !! l) -> is_Some (h1 !! l) \/ (nxt s <= l)).

Lemma step_trans s1 s2 s3 : step s1 s2 -> step s2 s3 -> step s1 s3.
Proof.
  intros (_ & H1 & H2 & H3) (H4 & H5 & H6 & H7). split; [done|]. split; [by etrans|]. split; [lia|congruence].
Qed.
Lemma step_refl s : stok s -> step s s.
Proof. done. Qed.
Lemma vis_refl s h : h ⊆ hp s -> vis s s h h.
Proof. intros H. split; [done|]. split; [done|]. auto. Qed.
Lemma vis_trans s1 s2 s3 h1 h2 h3 : nxt s1 <= nxt s2 ->
  vis s1 s2 h1 h2 -> vis s2 s3 h2 h3 -> vis s1 s3 h1 h3.
Proof.
  intros Hn (H1 & H2 & H3) (H4 & H5 & H6). split; [by etrans|]. split; [done|].
  intros l Hl. destruct (H6 l Hl) as [Hl2|]; [|right; lia]. by apply H3.
Qed.

(** whether a crash is tolerated *)
Definition wild := Prop.
Existing Class wild.
(** [spec s h c o Q]: run from [s], where [h] is the visible part of the heap, [c] mutates nothing and
    fails exactly when [o] is None, without a crash unless [N]; otherwise its result and [o]'s satisfy [Q]
    in the visible heap. *)
Section spec.
Context {N : wild}.
Definition spec {A T} (s : st) (h : heap) (c : M A) (o : option T) (Q : T -> A -> heap -> Prop) : Prop :=
  step s (c s).1 /\
  match o with
  | Some t => exists a h2, (c s).2 = Ok a /\ vis s (c s).1 h h2 /\ Q t a h2
  | None => (c s).2 = Err \/ (N : Prop) /\ (c s).2 = Panic
  end.

Lemma spec_ret {A T} s h (a : A) (t : T) (Q : T -> A -> heap -> Prop) : stok s -> h ⊆ hp s -> Q t a h -> spec s h (mret a) (Some t) Q.
Proof. intros Hs Hh HQ. split; [by apply step_refl|]. exists a, h. split; [done|]. split; [by apply vis_refl|done]. Qed.
Lemma spec_fail {A T} s h (Q : T -> A -> heap -> Prop) : stok s -> spec s h (@mfail A) (None : option T) Q.
Proof. intros Hs. split; [by apply step_refl|]. by left. Qed.
Lemma spec_panic {A T} s h (Q : T -> A -> heap -> Prop) : N -> stok s -> spec s h (@mpanic A) (None : option T) Q.
Proof. intros HN Hs. split; [by apply step_refl|]. by right. Qed.
Lemma spec_bind {A B T U} s h (c : M A) (k : A -> M B) (o : option T) (ko : T -> option U)
  (Q1 : T -> A -> heap -> Prop) (Q : U -> B -> heap -> Prop) :
  spec s h c o Q1 ->
  (forall t s' a h', o = Some t -> step s s' -> vis s s' h h' -> Q1 t a h' -> spec s' h' (k a) (ko t) Q) ->
  spec s h (mbind c k) (o ≫= ko) Q.
Proof.
  intros [Hst Hc] Hk. unfold spec, mbind. destruct (c s) as [s' r]. cbn in *.
  destruct o as [t|]; cbn.
  - destruct Hc as (a & h2 & -> & Hvis & HQ). destruct (Hk t s' a h2 eq_refl Hst Hvis HQ) as [Hst2 Hc2].
    split; [by eapply step_trans|].
    destruct (ko t) as [u|]; [|done]. destruct Hc2 as (b & h3 & Hb & Hvis2 & HQ2).
    exists b, h3. split; [done|]. split; [|done]. eapply vis_trans; [apply Hst|done|done].
  - destruct Hc as [-> | [HN ->]]; cbn; (split; [done|]); auto.
Qed.
Lemma spec_bind1 {A B T U} s h (c : M A) (k : A -> M B) (t : T) (o : option U)
  (Q1 : T -> A -> heap -> Prop) (Q : U -> B -> heap -> Prop) :
  spec s h c (Some t) Q1 ->
  (forall s' a h', step s s' -> vis s s' h h' -> Q1 t a h' -> spec s' h' (k a) o Q) ->
  spec s h (mbind c k) o Q.
Proof.
  intros Hc Hk. change o with (Some t ≫= fun _ => o). eapply spec_bind; [exact Hc|].
  intros t' s' a h' [= <-]. apply Hk.
Qed.
(** the continuation cannot fail more than [o] says *)
Lemma spec_conseq {A T} s h (c : M A) (o : option T) (Q Q' : T -> A -> heap -> Prop) :
  spec s h c o Q -> (forall t a h', o = Some t -> Q t a h' -> Q' t a h') -> spec s h c o Q'.
Proof.
  intros [Hst Hc] HQ. split; [done|]. destruct o as [t|]; [|done].
  destruct Hc as (a & h2 & ? & ? & ?). exists a, h2. auto.
Qed.
Lemma spec_alloc s h c (Q : unit -> nat -> heap -> Prop) : stok s -> h ⊆ hp s ->
  Q tt (nxt s) (<[nxt s := c]> h) -> spec s h (alloc c) (Some tt) Q.
Proof.
  intros Hs Hh HQ.
  assert (Hf : hp s !! nxt s = None).
  { destruct (hp s !! nxt s) eqn:E; [|done]. assert (nxt s < nxt s) by (apply Hs; by eexists). lia. }
  split; cbn.
  - split; [|split; [|split]]; cbn; [|by apply insert_subseteq|lia|done].
    intros l [c' Hl]. cbn in *. destruct (decide (l = nxt s)) as [->|Hne]; [lia|].
    rewrite lookup_insert_ne in Hl by done. assert (l < nxt s) by (apply Hs; by eexists). lia.
  - exists (nxt s), (<[nxt s := c]> h). split; [done|]. split; [|done].
    split; [apply insert_subseteq; by eapply lookup_weaken_None|]. split; [by apply insert_mono|].
    intros l [c' Hl]. destruct (decide (l = nxt s)) as [->|Hne]; [right; lia|].
    rewrite lookup_insert_ne in Hl by done. left. by eexists.
Qed.

Lemma spec_alloc_bind {B U} s h c (k : nat -> M B) (o : option U) (Q : U -> B -> heap -> Prop) :
  stok s -> h ⊆ hp s ->
  (forall s' h', step s s' -> vis s s' h h' -> h' !! nxt s = Some c -> spec s' h' (k (nxt s)) o Q) ->
  spec s h (mbind (alloc c) k) o Q.
Proof.
  intros Hs Hh Hk.
  eapply spec_bind1; [apply (spec_alloc _ _ _ (fun _ a h'' => a = nxt s /\ h'' = <[nxt s := c]> h)); done|].
  intros s' a h' Hst Hv [-> ->]. apply Hk; [done|done|]. apply lookup_insert.
Qed.
Lemma grel_mono h h' g gt : h ⊆ h' -> grel (repr h) g gt -> grel (repr h') g gt.
Proof.
  intros Hsub. revert gt. induction g as [v|sc|l IH|l] using gval_ind'; intros b Hab; inversion Hab; subst; constructor.
  - by eapply repr_mono.
  - clear Hab. revert IH. induction H0; intros IH; constructor; inversion IH; subst; auto.
Qed.
(** allocation of computed values *)
Lemma inject_spec g gt s h : stok s -> h ⊆ hp s -> grel (repr h) g gt ->
  spec s h (inject g) (Some (gtree gt)) (fun t v h => repr h v t).
Proof.
  revert gt s h. induction g as [v|sc|l IH|l] using gval_ind'; intros gt s h Hs Hh Hr; inversion Hr; subst; cbn [inject gtree].
  - by apply spec_ret.
  - by apply spec_ret.
  - rename l2 into lt. rename H0 into HF.
    set (go := fix go (l : list (gval val)) : M (list val) :=
              match l with
              | [] => mret []
              | g :: l' => v <-- inject g ;; vs <-- go l' ;; mret (v :: vs)
              end).
    assert (Hgo : spec s h (go l) (Some (gtree <$> lt)) (fun ts vs h => Forall2 (repr h) vs ts)).
    { clear Hr. revert s h Hs Hh lt HF. induction l as [|g l IHl]; intros s h Hs Hh lt HF; inversion HF; subst; cbn.
      - apply spec_ret; [done|done|constructor].
      - rename y into g'. rename l' into lt. inversion IH as [|? ? IH1 IH2]; subst.
        eapply spec_bind1; [by apply IH1|].
        intros s' v h' Hst Hvis Hv. cbn.
        eapply spec_bind1; [apply IHl with (lt := lt); [done|apply Hst|apply Hvis|]|].
        + eapply Forall2_impl; [eassumption|]. intros a b. apply grel_mono, Hvis.
        + intros s'' vs h'' Hst2 Hvis2 Hvs. apply spec_ret; [apply Hst2|apply Hvis2|].
          constructor; [|done]. eapply repr_mono; [apply Hvis2|done]. }
    eapply spec_bind1; [exact Hgo|].
    intros s' vs h' Hst Hvis Hvs.
    eapply spec_bind1; [apply (spec_alloc _ _ _ (fun _ a h'' => a = nxt s' /\ h'' = <[nxt s' := CArr vs]> h')); [apply Hst|apply Hvis|done]|].
    intros s'' a h'' Hst2 Hvis2 [-> ->]. apply spec_ret; [apply Hst2|apply Hvis2|].
    apply repr_arr. exists (nxt s'), (length vs), vs. split; [done|].
    split; [apply lookup_insert|]. split; [done|]. rewrite take_ge by done.
    eapply Forall2_impl; [exact Hvs|]. intros x y Hxy. eapply repr_mono; [apply Hvis2|done].
  - by apply spec_ret.
Qed.
End spec.

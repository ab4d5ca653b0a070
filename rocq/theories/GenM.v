(** The file generated from a schema is the one its declarations describe. *)
From stdpp Require Import strings list gmap.
From Coq Require Import Ascii ZArith Lia.
From Verif Require Import GoStr GoStrL Val Conv Schema Inst Load SpecPath PathL SpecWalk WalkL FlatL SpecGen Gen GenL SortL GenP.

Scheme holds_ind2 := Minimality for holds Sort Prop
  with declares_ind2 := Minimality for declares Sort Prop
  with declares_all_ind2 := Minimality for declares_all Sort Prop.
Combined Scheme declares_mutind from holds_ind2, declares_ind2, declares_all_ind2.

Section gen.
Context (W : oracles) (A : args).
Notation rename := (a_fieldNames A).
Notation title := (exported W).
Notation pointers := (a_pointers A).
Notation run := (run W A).
Notation good := (good A).

Definition names (gs : list (string * bool)) : list string := map fst gs.
Definition named_path (gs : list (string * bool)) : Prop := Forall (fun g => field_name g.1) gs.
(** [r] at [k] gives a field described by [d] *)
Definition gives (req : bool) (k : string) (r : tree) (d : gdecl) : Prop :=
  field_name k /\
  forall gs F fs vs ok, sub_at (names gs) F = Some fs -> named_path gs -> assocd k fs = None -> walks KW (gpath gs ++ [Nm k]) r vs ok ->
    ok = true /\ exists f, run vs F = Ok (set_at (names gs) F (put k f fs)) /\ f_json f = k /\ good req f d.
Definition skipped (k : string) (r : tree) : Prop := field_name k /\ exists i, d_inst false r = Ok i /\ hydrated_leaf i.
Inductive gives_all (reqs : list string) : list (string * tree) -> list gdecl -> Prop :=
| ga_nil : gives_all reqs [] []
| ga_skip k r ps ds : skipped k r -> gives_all reqs ps ds -> gives_all reqs ((k, r) :: ps) ds
| ga_cons k r d ps ds : gives (bool_decide (k ∈ reqs)) k r d -> gives_all reqs ps ds -> gives_all reqs ((k, r) :: ps) (d :: ds).
Lemma ga_inv reqs k r ps ds : gives_all reqs ((k, r) :: ps) ds ->
  (skipped k r /\ gives_all reqs ps ds) \/ (exists d ds', ds = d :: ds' /\ gives (bool_decide (k ∈ reqs)) k r d /\ gives_all reqs ps ds').
Proof. intros H. remember ((k, r) :: ps) as l eqn:E. destruct H; [done|injection E as <- <- <-; by left|injection E as <- <- <-; right; eauto]. Qed.
Lemma ga_perm reqs ps ps' ds : ps ≡ₚ ps' -> gives_all reqs ps ds -> exists ds', ds' ≡ₚ ds /\ gives_all reqs ps' ds'.
Proof.
  intros Hp. revert ds. induction Hp as [|[k r] l l' _ IH|[k r] [k' r'] l|l l' l'' _ IH _ IH']; intros ds H.
  - by exists ds.
  - apply ga_inv in H as [[Hs H]|(d & ds' & -> & Hg & H)].
    + destruct (IH _ H) as (ds' & Hd & H'). exists ds'. split; [done|by constructor].
    + destruct (IH _ H) as (ds'' & Hd & H'). exists (d :: ds''). split; [by rewrite Hd|by constructor].
  - apply ga_inv in H as [[Hs H]|(d & ds' & -> & Hg & H)]; apply ga_inv in H as [[Hs' H]|(d' & ds'' & -> & Hg' & H)].
    + exists ds. split; [done|]. apply ga_skip; [done|]. by apply ga_skip.
    + exists (d' :: ds''). split; [done|]. apply ga_cons; [done|]. by apply ga_skip.
    + exists (d :: ds'). split; [done|]. apply ga_skip; [done|]. by apply ga_cons.
    + exists (d' :: d :: ds''). split; [apply Permutation_swap|]. apply ga_cons; [done|]. by apply ga_cons.
  - destruct (IH _ H) as (ds1 & H1 & H1'). destruct (IH' _ H1') as (ds2 & H2 & H2'). exists ds2. split; [by rewrite H2|done].
Qed.
Lemma walks_inv σ r vs ok : walks KW σ r vs ok ->
  (exists k, KW r = (false, k)) \/ KW r = (true, KErr) \/ (KW r = (true, KLeaf) /\ vs = [(σ, r)] /\ ok = true) \/
  (exists ps ps' vs', KW r = (true, KObj ps) /\ ps' ≡ₚ ps /\ vs = (σ, r) :: vs' /\ walks_all KW σ ps' vs' ok) \/
  (exists i vs', KW r = (true, KArr i) /\ vs = (σ, r) :: vs' /\ walks KW (σ ++ [Star]) i vs' ok).
Proof. destruct 1; [left; eauto|right; left; done|right; right; left; done|right; right; right; left; eauto 10|right; right; right; right; eauto 10]. Qed.
Lemma walks_all_inv σ ps vs ok : walks_all KW σ ps vs ok ->
  match ps with
  | [] => vs = [] /\ ok = true
  | (k, p) :: ps' => (walks KW (σ ++ [Nm k]) p vs false /\ ok = false) \/
      exists v1 v2, vs = v1 ++ v2 /\ walks KW (σ ++ [Nm k]) p v1 true /\ walks_all KW σ ps' v2 ok
  end.
Proof. destruct 1; [done|by left|right; eauto]. Qed.

Lemma names_snoc gs k b : names (gs ++ [(k, b)]) = names gs ++ [k].
Proof. unfold names. by rewrite map_app. Qed.
Lemma gpath_snoc gs k : gpath gs ++ [Nm k] = gpath (gs ++ [(k, false)]).
Proof. by rewrite gpath_app. Qed.
Lemma gpath_star gs k : gpath (gs ++ [(k, false)]) ++ [Star] = gpath (gs ++ [(k, true)]).
Proof. rewrite !gpath_app, <- app_assoc. done. Qed.
Lemma named_snoc gs k b : named_path gs -> field_name k -> named_path (gs ++ [(k, b)]).
Proof. intros H Hk. apply Forall_app. split; [done|]. by constructor. Qed.
Lemma split_snoc gs k b : named_path gs -> field_name k -> split_json_path (path_of (gpath (gs ++ [(k, b)]))) = names gs ++ [k].
Proof. intros H Hk. rewrite split_gpath; [apply names_snoc|by apply named_snoc]. Qed.

(** all the properties of a place *)
Lemma all_run reqs ps ds : gives_all reqs ps ds -> forall gs F fs vs ok,
  sub_at (names gs) F = Some fs -> named_path gs -> NoDup ps.*1 -> (forall k, k ∈ ps.*1 -> assocd k fs = None) -> walks_all KW (gpath gs) ps vs ok ->
  ok = true /\ exists L, run vs F = Ok (set_at (names gs) F (fs ++ L)) /\ Forall2 (good_in A reqs) L ds /\ NoDup L.*1 /\ (forall k, k ∈ L.*1 -> k ∈ ps.*1).
Proof.
  induction 1 as [|k r ps ds Hs Hg IH|k r d ps ds Hg Hga IH]; intros gs F fs vs ok HF Hgs Hnd Hfr Hw; apply walks_all_inv in Hw.
  - destruct Hw as [-> ->]. split; [done|]. exists []. rewrite app_nil_r, (set_same _ _ _ HF). split_and!; [done|done|by constructor|done].
  - cbn in Hnd. apply NoDup_cons in Hnd as [Hk Hnd]. destruct Hs as (Hfk & i & Hi & Hh & Ho & Ha).
    assert (HK : KW r = (true, KLeaf)).
    { rewrite (KW_ok _ _ Hi). unfold has_type. change (default [] (n_type i)) with (types i). by rewrite !bool_decide_eq_false_2 by done. }
    assert (Hrun : forall vs', walks KW (gpath gs ++ [Nm k]) r vs' true \/ walks KW (gpath gs ++ [Nm k]) r vs' false -> run vs' F = Ok F /\ walks KW (gpath gs ++ [Nm k]) r vs' true /\ ~ walks KW (gpath gs ++ [Nm k]) r vs' false).
    { intros vs' Hv. assert (vs' = [(gpath gs ++ [Nm k], r)]) as ->.
      { destruct Hv as [Hv|Hv]; apply walks_inv in Hv as [[? Hx]|[Hx|[(_ & -> & _)|[(? & ? & ? & Hx & _)|(? & ? & Hx & _)]]]]; try congruence; done. }
      split_and!.
      - cbn [GenP.run]. rewrite gpath_snoc, split_snoc by done. rewrite (inst_of_ok _ _ Hi). rewrite add_hydrated; [done|]. by apply bool_decide_eq_true_2.
      - by constructor.
      - intros Hv'. apply walks_inv in Hv' as [[? Hx]|[Hx|[(_ & _ & ?)|[(? & ? & ? & Hx & _)|(? & ? & Hx & _)]]]]; congruence. }
    destruct Hw as [[Hw _]|(v1 & v2 & -> & Hw1 & Hw2)].
    { destruct (Hrun vs) as (_ & _ & C); [by right|done]. }
    destruct (Hrun v1) as (Hr & _); [by left|]. rewrite run_app, Hr. cbn [rbind].
    destruct (IH gs F fs v2 ok) as (Hok & L & H1 & H2 & H3 & H4); [done..| |done|]. { intros x Hx. apply Hfr. by right. }
    split; [done|]. exists L. split_and!; [done..|]. intros x Hx. right. by apply H4.
  - cbn in Hnd. apply NoDup_cons in Hnd as [Hk Hnd]. destruct Hg as [Hfk Hg].
    assert (Hk0 : assocd k fs = None) by (apply Hfr; left).
    destruct Hw as [[Hw _]|(v1 & v2 & -> & Hw1 & Hw2)].
    { by destruct (Hg gs F fs vs false HF Hgs Hk0 Hw). }
    destruct (Hg gs F fs v1 true HF Hgs Hk0 Hw1) as (_ & f & Hr & Hj & Hgd). rewrite run_app, Hr. cbn [rbind].
    rewrite (put_new _ _ _ Hk0).
    destruct (IH gs (set_at (names gs) F (fs ++ [(k, f)])) (fs ++ [(k, f)]) v2 ok) as (Hok & L & H1 & H2 & H3 & H4); [by eapply sub_set|done|done| |done|].
    { intros x Hx. rewrite assocd_app, Hfr by (by right). cbn. rewrite decide_False; [done|]. congruence. }
    split; [done|]. exists ((k, f) :: L). rewrite (set_set _ _ _ _ _ HF), <- app_assoc in H1. split_and!; [done|by constructor| |].
    + cbn. constructor; [|done]. intros Hin. by apply Hk, H4.
    + cbn. intros x [->|Hx]%elem_of_cons; [left|right; by apply H4].
Qed.

(** a value that is not an array *)
Definition gives_value (req null : bool) (r : tree) (ty : gtype) : Prop :=
  exists i, d_inst false r = Ok i /\
  forall arr gs k F fs vs ok desc name, field_name k -> sub_at (names gs) F = Some fs -> named_path gs ->
    start W A arr fs k i desc name null -> walks KW (gpath (gs ++ [(k, arr)])) r vs ok ->
    ok = true /\ exists f, run vs F = Ok (set_at (names gs) F (put k f fs)) /\ f_json f = k /\
      good req f (GDecl desc name k req (Some (arrt arr ty))).

Lemma first_run gs k arr F fs r i t desc name null : field_name k -> sub_at (names gs) F = Some fs -> named_path gs ->
  start W A arr fs k i desc name null -> d_inst false r = Ok i -> one_type i t -> t <> "array" -> t <> "graphql-hydration" ->
  forall vs, run ((gpath (gs ++ [(k, arr)]), r) :: vs) F = run vs (set_at (names gs) F (put k (first_field arr k t i desc name null) fs)).
Proof.
  intros Hk HF Hgs Hst Hi Ht Hta Hth vs. cbn [GenP.run]. rewrite split_snoc by done. rewrite (inst_of_ok _ _ Hi).
  rewrite (add_at W A _ _ _ _ _ HF). 2: { rewrite (one_type_has i t _ Ht) by done. apply bool_decide_eq_false_2. congruence. }
  by rewrite (leaf_first W A _ _ _ _ _ _ _ _ Hst Ht).
Qed.
Lemma leaf_run gs k arr F fs r i t desc name null : field_name k -> sub_at (names gs) F = Some fs -> named_path gs ->
  start W A arr fs k i desc name null -> d_inst false r = Ok i -> one_type i t -> t <> "array" -> t <> "object" -> t <> "graphql-hydration" ->
  forall vs ok, walks KW (gpath (gs ++ [(k, arr)])) r vs ok ->
  ok = true /\ run vs F = Ok (set_at (names gs) F (put k (first_field arr k t i desc name null) fs)).
Proof.
  intros Hk HF Hgs Hst Hi Ht Hta Hto Hth vs ok Hw.
  assert (HK : KW r = (true, KLeaf)).
  { rewrite (KW_ok _ _ Hi). rewrite !(one_type_has i t _ Ht) by done. by rewrite !bool_decide_eq_false_2 by congruence. }
  apply walks_inv in Hw as [[? Hx]|[Hx|[(_ & -> & ->)|[(? & ? & ? & Hx & _)|(? & ? & Hx & _)]]]]; try congruence.
  split; [done|]. by rewrite (first_run _ _ _ _ _ _ _ t _ _ null Hk HF Hgs Hst Hi Ht).
Qed.

Lemma declares_gives :
  (forall req null r ty, holds title rename pointers req null r ty -> gives_value req null r ty) /\
  (forall req k r d, declares title rename pointers req k r d -> gives req k r d) /\
  (forall reqs ps ds, declares_all title rename pointers reqs ps ds -> gives_all reqs ps ds).
Proof.
  apply declares_mutind.
  - intros req null r i t b Hi Ht Hb. exists i. split; [done|]. intros arr gs k F fs vs ok desc name Hk HF Hgs Hst Hw.
    destruct (good_base A req arr desc k i t name null b Ht Hb) as (Hg & Hj & H1 & H2).
    assert (Hth : t <> "graphql-hydration"). { intros ->. done. }
    destruct (leaf_run gs k arr F fs r i t desc name null Hk HF Hgs Hst Hi Ht H2 H1 Hth vs ok Hw) as [Hok Hr].
    split; [done|]. eexists. split; [exact Hr|]. done.
  - intros req null r i Hi Ht Hfm. exists i. split; [done|]. intros arr gs k F fs vs ok desc name Hk HF Hgs Hst Hw.
    destruct (good_time A req arr desc k i name null Hfm) as (Hg & Hj).
    destruct (leaf_run gs k arr F fs r i "string" desc name null Hk HF Hgs Hst Hi Ht ltac:(done) ltac:(done) ltac:(done) vs ok Hw) as [Hok Hr].
    split; [done|]. eexists. split; [exact Hr|]. done.
  - intros req null r i ps ds Hi Ht Hps _ Hga Hnd Hndp. exists i. split; [done|]. intros arr gs k F fs vs ok desc name Hk HF Hgs Hst Hw.
    assert (HK : KW r = (true, KObj ps)).
    { rewrite (KW_ok _ _ Hi). rewrite (one_type_has i _ _ Ht) by done. by rewrite Hps. }
    apply walks_inv in Hw as [[? Hx]|[Hx|[(Hx & _)|[(ps0 & ps' & vs' & Hx & Hp & -> & Hwa)|(? & ? & Hx & _)]]]]; try congruence.
    assert (ps0 = ps) as -> by congruence.
    rewrite (first_run _ _ _ _ _ _ _ "object" _ _ null Hk HF Hgs Hst Hi Ht) by done.
    set (f0 := first_field arr k "object" i desc name null). set (fs1 := put k f0 fs). set (F1 := set_at (names gs) F fs1).
    assert (HF1 : sub_at (names gs) F1 = Some fs1) by (by eapply sub_set).
    assert (Hk1 : assocd k fs1 = Some f0) by (unfold fs1; by rewrite assocd_put, decide_True).
    assert (HF2 : sub_at (names (gs ++ [(k, arr)])) F1 = Some []). { rewrite names_snoc. by apply (sub_snoc _ _ _ _ _ HF1 Hk1). }
    symmetry in Hp. destruct (ga_perm _ _ _ _ Hp Hga) as (ds' & Hds & Hga').
    destruct (all_run _ _ _ Hga' _ _ _ vs' ok HF2 (named_snoc _ _ arr Hgs Hk)) as (Hok & L & Hr & HL & HndL & _); [by rewrite <- Hp|done|done|].
    split; [done|]. rewrite names_snoc, (set_snoc _ _ _ _ _ _ HF1 Hk1), app_nil_l in Hr. unfold F1, fs1 in Hr. rewrite put_put, (set_set _ _ _ _ _ HF) in Hr.
    eexists. split; [exact Hr|]. split; [done|]. unfold f0, first_field, with_sub. cbn. by eapply good_object.
  - intros req k r i ty Hi Hk _ Hg. split; [done|]. intros gs F fs vs ok HF Hgs Hkn Hw. rewrite gpath_snoc in Hw.
    destruct Hg as (i' & Hi' & Hg). rewrite Hi in Hi'. injection Hi' as <-. apply (Hg false gs k F fs vs ok); [done..|]. by cbn.
  - intros req k r i x ty Hi Ht Hk Hx _ Hg. split; [done|]. intros gs F fs vs ok HF Hgs Hkn Hw. rewrite gpath_snoc in Hw.
    assert (HK : KW r = (true, KArr x)).
    { rewrite (KW_ok _ _ Hi). rewrite !(one_type_has i _ _ Ht) by done. cbn. by rewrite Hx. }
    apply walks_inv in Hw as [[? Hy]|[Hy|[(Hy & _)|[(? & ? & ? & Hy & _)|(x' & vs' & Hy & -> & Hw)]]]]; try congruence.
    assert (x' = x) as -> by congruence. rewrite gpath_star in Hw.
    cbn [GenP.run]. rewrite split_snoc by done. rewrite (inst_of_ok _ _ Hi).
    rewrite (add_at W A _ _ _ _ _ HF) by (by rewrite (one_type_has i _ _ Ht)). rewrite (array_first W A _ _ _ Hkn Ht). cbn [rbind].
    set (fs1 := put k _ fs). set (F1 := set_at (names gs) F fs1).
    assert (HF1 : sub_at (names gs) F1 = Some fs1) by (by eapply sub_set).
    destruct Hg as (j & Hj & Hg).
    destruct (Hg true gs k F1 fs1 vs' ok (n_desc i) (title (default k (rename k)))) as (Hok & f & Hr & Hfj & Hgd); [done..| |done|].
    { cbn. unfold fs1. by rewrite assocd_put, decide_True. }
    split; [done|]. exists f. split; [|done]. rewrite Hr. unfold F1, fs1. by rewrite (set_set _ _ _ _ _ HF), put_put.
  - intros req k r i x j Hi Ht Hk Hx Hj (Hh & Ho & Ha). split; [done|]. intros gs F fs vs ok HF Hgs Hkn Hw. rewrite gpath_snoc in Hw.
    assert (HK : KW r = (true, KArr x)).
    { rewrite (KW_ok _ _ Hi). rewrite !(one_type_has i _ _ Ht) by done. cbn. by rewrite Hx. }
    apply walks_inv in Hw as [[? Hy]|[Hy|[(Hy & _)|[(? & ? & ? & Hy & _)|(x' & vs' & Hy & -> & Hw)]]]]; try congruence.
    assert (x' = x) as -> by congruence. rewrite gpath_star in Hw.
    assert (HKx : KW x = (true, KLeaf)).
    { rewrite (KW_ok _ _ Hj). unfold has_type. change (default [] (n_type j)) with (types j). by rewrite !bool_decide_eq_false_2 by done. }
    apply walks_inv in Hw as [[? Hy']|[Hy'|[(_ & -> & ->)|[(? & ? & ? & Hy' & _)|(? & ? & Hy' & _)]]]]; try congruence.
    split; [done|]. cbn [GenP.run]. rewrite !split_snoc by done. rewrite (inst_of_ok _ _ Hi), (inst_of_ok _ _ Hj).
    rewrite (add_at W A _ _ _ _ _ HF) by (by rewrite (one_type_has i _ _ Ht)). rewrite (array_first W A _ _ _ Hkn Ht). cbn [rbind].
    rewrite add_hydrated by (by apply bool_decide_eq_true_2). cbn [rbind]. eexists. split; [done|]. split; [done|].
    split; [done|]. split; [done|]. intros ord loc prefix _. cbn [write_field show]. by destruct (nullable i).
  - constructor.
  - intros reqs k r i ps ds Hi Hh Hk _ IH. constructor; [|done]. split; [done|]. by exists i.
  - intros reqs k r d ps ds _ Hd _ IH. by constructor.
Qed.
End gen.

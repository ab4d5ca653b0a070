(** The code computes the reading of ArrD, although it stores arrays in the document on the way. *)
From stdpp Require Import strings list gmap.
From Coq Require Import ZArith Lia.
From Verif Require Import GoStr GoStrL Val Conv Instr Heap SpecPath PathL Den Param HeapL Refine Top SpecProj ProjL SpecArr ArrT ArrH ArrW ArrD.

(** what storing at the places [L] changes *)
Definition evo (L : list (list string)) (a b : tree) : Prop :=
  (forall ks, (forall w, w ∈ L -> apart w ks) -> select_path tview ks b = select_path tview ks a) /\
  (forall w, (forall w', w' ∈ L -> apart w' w) -> can w b <-> can w a).
Lemma evo_refl L a : evo L a a. Proof. done. Qed.
Lemma evo_trans L1 L2 a b c : evo L1 a b -> evo L2 b c -> evo (L1 ++ L2) a c.
Proof.
  intros [A1 A2] [B1 B2]. split.
  - intros ks H. rewrite B1, A1; [done| |]; intros w Hw; apply H, elem_of_app; auto.
  - intros w H. rewrite B2, A2; [done| |]; intros w' Hw'; apply H, elem_of_app; auto.
Qed.
Lemma evo_nil_l L a b : evo [] a b -> evo L a b.
Proof.
  intros [A B]. split.
  - intros ks _. apply A. intros w Hw. by apply elem_of_nil in Hw.
  - intros w _. apply B. intros w' Hw'. by apply elem_of_nil in Hw'.
Qed.
Lemma evo_stored w b t t' : stored w b t = Some t' -> evo [w] t t'.
Proof.
  intros Hs. split.
  - intros ks H. eapply stored_apart; [done|]. apply H. by apply elem_of_list_singleton.
  - intros w' H. eapply can_stored; [done|]. apply H. by apply elem_of_list_singleton.
Qed.

(** instructions *)
Section param.
Context (W : oracles) (HW : jpath_parametric W).
Context {A B : Type} (R : A -> B -> Prop) (va : A -> vw A) (vb : B -> vw B).
Context (Hv : forall a b, R a b -> vrel R (va a) (vb b)).
Notation GR := (grel R).
Lemma json_instr_rel' ins a b ft m :
  option_Forall2 GR (jget W va (apply_mod m (i_jpath ins)) a) (jget W vb (apply_mod m (i_jpath ins)) b) ->
  rrel GR (json_instr W va ins a ft m) (json_instr W vb ins b ft m).
Proof.
  intros Hab. unfold json_instr. destruct Hab as [g h Hgh|]; [|repeat constructor].
  rewrite (is_nil_rel R va vb Hv _ _ Hgh). destruct (is_nil vb h); [repeat constructor|].
  destruct (convert_rel W R va vb Hv ft g h Hgh) as [[v e] [v' e'] [Hv' He]|]; [|constructor].
  cbn in Hv', He. subst e'.
  assert (Hr : GR (if e then g else v) (if e then h else v')) by (by destruct e).
  rewrite (is_nil_rel R va vb Hv _ _ Hr).
  destruct (is_nil vb (if e then h else v')); [repeat constructor|]. by apply ops_run_rel.
Qed.
Lemma run_first_rel' st1 st2 from : (forall i, i ∈ from -> rrel GR (st1 i) (st2 i)) ->
  rrel GR (run_first va st1 from) (run_first vb st2 from).
Proof.
  induction from as [|i from IH]; intros Hs; cbn [run_first]; [repeat constructor|].
  eapply rrel_bind; [apply Hs; by left|]. intros x y Hxy. rewrite (is_nil_rel R va vb Hv _ _ Hxy).
  case_match; [|by constructor]. apply IH. intros j Hj. apply Hs. by right.
Qed.
Lemma run_concat_rel' st1 st2 d from : (forall i, i ∈ from -> rrel GR (st1 i) (st2 i)) -> forall r1 r2, GR r1 r2 ->
  rrel GR (run_concat va st1 d r1 from) (run_concat vb st2 d r2 from).
Proof.
  induction from as [|i from IH]; intros Hs r1 r2 Hr; cbn [run_concat]; [by constructor|].
  eapply rrel_bind; [apply Hs; by left|]. intros x y Hxy.
  eapply rrel_bind; [by apply concat_rel|]. apply IH. intros j Hj. apply Hs. by right.
Qed.
Lemma tis_run_rel' t t' from a b ft m :
  (forall i, i ∈ from -> option_Forall2 GR (jget W va (apply_mod m (i_jpath i)) a) (jget W vb (apply_mod m (i_jpath i)) b)) ->
  ti_meth t = ti_meth t' -> ti_delim t = ti_delim t' ->
  rrel GR (tis_run W va FJson t from a ft m).1 (tis_run W vb FJson t' from b ft m).1.
Proof.
  intros Hab Hm Hd. unfold tis_run. cbn. rewrite <- Hm, <- Hd.
  destruct (ti_meth t).
  - apply run_first_rel'. intros i Hi. by apply json_instr_rel', Hab.
  - apply run_first_rel'. intros i Hi. apply json_instr_rel', Hab. apply elem_of_list_In, in_rev. by apply elem_of_list_In.
  - apply run_concat_rel'; [|constructor]. intros i Hi. by apply json_instr_rel', Hab.
Qed.
End param.

Section exec.
Context (W : oracles) (HW : jpath_parametric W).
Context (perm : nat -> nat -> list nat) (Hperm : forall t n, perm t n ≡ₚ seq 0 n).
Context (ws : list (list string)).
Context (Hws : forall w w', w ∈ ws -> w' ∈ ws -> w = w' \/ apart w w').
Notation winv := (inv (sp ws)).
Notation jspec := (@spec True).
Instance true_wild : wild := True.

(** ** reading *)
Lemma get_rel o G s h input cur path : winv G s h input cur -> reads_ok ws o path ->
  option_Forall2 (grel (repr h)) (jget W (view (hp s)) path input) (jget W tview path cur).
Proof.
  intros Hi (ks & Hp & Hsp & _). unfold jget. rewrite Hp.
  destruct (inv_select (sp ws) G s h input cur ks Hi Hsp); cbn; constructor. by constructor.
Qed.
Lemma run_opt_wspec o G s h ts pt input cur ft m : winv G s h input cur ->
  tsrel (froms s) ts pt -> pure_ts pt -> ts_ok ws o pt m ->
  spec s h (run_opt_tis W FJson ts input ft m) (run_ptis W FJson pt cur ft m) (fun t v h => repr h v t).
Proof.
  intros Hi Hts Hpure Hok. pose proof (inv_ok _ _ _ _ _ _ Hi) as Hs. pose proof (inv_sub _ _ _ _ _ _ Hi) as Hh.
  destruct ts as [t|], pt as [[[me delim] from]|]; try done; [|by apply spec_ret].
  destruct Hts as (Hme & Hde & Hfr). cbn [run_opt_tis].
  pose proof (tis_run_rel' W HW (repr h) (view (hp s)) tview (fun v t => repr_view_sub h (hp s) v t Hh)
    t (Tis 0 me delim) from input cur ft m (fun i Hin => get_rel o G s h input cur _ Hi (Hok i Hin)) Hme Hde) as Hrel.
  unfold spec, run_tis. rewrite Hfr. change (default [] (Some from)) with from.
  assert (Hfrom : (tis_run W (view (hp s)) FJson t from input ft m).2 = from).
  { unfold tis_run. cbn. rewrite Hme. destruct me; try done. cbn in Hpure.
    destruct from as [|x [|]]; cbn in *; try done. lia. }
  destruct (tis_run W (view (hp s)) FJson t from input ft m) as [r from'] eqn:Et. cbn [fst snd] in Hfrom, Hrel. subst from'.
  rewrite (insert_id (froms s)) by done.
  assert (E : St (hp s) (nxt s) (froms s) (tick s) = s) by (by destruct s). rewrite E. clear E.
  unfold run_ptis. destruct Hrel as [g gt Hg| |].
  - exact (inject_spec g gt s h Hs Hh Hg).
  - split; [by apply step_refl|]. by left.
  - split; [by apply step_refl|]. by right.
Qed.
Lemma heap_get_wspec o G s h input cur path : winv G s h input cur -> reads_ok ws o path ->
  spec s h (heap_get W path input) (Some (jget W tview path cur)) (fun o o' h => option_Forall2 (grel (repr h)) o' o).
Proof.
  intros Hi Hr. unfold heap_get. apply spec_mheap. apply spec_ret; [apply Hi|apply Hi|]. by eapply get_rel.
Qed.
Lemma scal_wspec o G s h q jt d d' ts ts' input cur m : winv G s h input cur ->
  tsrel (froms s) ts' ts -> jok ws o (PScal q jt d ts) m -> repr h d' d ->
  spec s h (scal_json W FJson q jt d' ts' input m) (den_scal W FJson q jt d ts cur m) (fun t v h => repr h v t).
Proof.
  intros Hi Hts (Hpure & Hq & Hok) Hd. unfold den_scal, scal_json.
  eapply spec_bind; [by eapply run_opt_wspec|]. intros t s1 v h1 _ Hst1 Hv1 Hr.
  rewrite (repr_vnil _ _ _ Hr). destruct (negb (tnil t)); [apply spec_ret; [apply Hst1|apply Hv1|done]|].
  pose proof (inv_step _ _ _ _ _ _ _ _ Hst1 Hv1 Hi) as Hi1.
  eapply spec_bind1; [by eapply heap_get_wspec|]. intros s2 raw h2 Hst2 Hv2 Hraw.
  assert (Hd2 : repr h2 d' d) by (eapply repr_mono; [apply Hv2|]; eapply repr_mono; [apply Hv1|done]).
  destruct Hraw as [g gt Hg|]; [|apply spec_ret; [apply Hst2|apply Hv2|done]].
  apply spec_mheap.
  assert (Hview : forall a b, repr h2 a b -> vrel (repr h2) (view (hp s2) a) (tview b)).
  { intros a b. apply repr_view_sub. apply Hv2. }
  destruct (convert_rel W (repr h2) (view (hp s2)) tview Hview jt g gt Hg) as [[nv e] [nv' e'] [Hnv He]|];
    [|apply spec_panic; [done|apply Hst2]].
  cbn in Hnv, He. subst e'.
  rewrite (is_nil_rel (repr h2) (view (hp s2)) tview Hview _ _ Hnv).
  destruct (is_nil tview nv'); [apply spec_ret; [apply Hst2|apply Hv2|done]|].
  destruct e; [apply spec_fail; apply Hst2|].
  apply inject_spec; [apply Hst2|apply Hv2|done].
Qed.
Lemma base_wspec o G s h path d d' ts ts' input cur m : winv G s h input cur ->
  tsrel (froms s) ts' ts -> pure_ts ts -> ts_ok ws o ts m -> reads_ok ws o path ->
  match d, d' with
  | None, None => True
  | Some l, Some (a, n) => repr h (VArr a n) (TArr l)
  | _, _ => False
  end ->
  spec s h (base_json W FJson path d' ts' input m) (jbase W path d ts cur m)
    (fun b sb h => sb.2 = b.2 /\ (repr h (slice_val sb.1) (TArr b.1) \/ b = ([], false) /\ sb.1.2 = 0)).
Proof.
  intros Hi Hts Hpure Hok Hq Hd. unfold jbase, base_json.
  eapply spec_bind; [by eapply run_opt_wspec|]. intros t s1 v h1 _ Hst1 Hv1 Hr.
  rewrite (repr_vnil _ _ _ Hr). destruct (tnil t) eqn:Et; cbn [negb].
  2: { eapply spec_eq with (o := Some (listed t) ≫= fun l => Some (l, true)); [|done].
       eapply spec_bind; [apply as_slice_spec; [apply Hst1|apply Hv1|exact Hr]|].
       intros l s2 sl h2 _ Hst2 Hv2 Hsl. apply spec_ret; [apply Hst2|apply Hv2|]. split; [done|]. by left. }
  pose proof (inv_step _ _ _ _ _ _ _ _ Hst1 Hv1 Hi) as Hi1.
  eapply spec_bind1; [by eapply heap_get_wspec|]. intros s2 raw h2 Hst2 Hv2 Hraw. apply spec_mheap.
  assert (Hdf : spec s2 h2 (mret (default (None, 0) d', bool_decide (is_Some d'))) (Some (default [] d, bool_decide (is_Some d)))
    (fun b sb h => sb.2 = b.2 /\ (repr h (slice_val sb.1) (TArr b.1) \/ b = ([], false) /\ sb.1.2 = 0))).
  { apply spec_ret; [apply Hst2|apply Hv2|]. destruct d as [l|], d' as [[a n]|]; try done.
    - split; [done|]. left. eapply repr_mono; [apply Hv2|]. eapply repr_mono; [apply Hv1|]. done.
    - split; [done|]. by right. }
  destruct Hraw as [g gt Hg|]; [|exact Hdf].
  assert (Hview : forall a b, repr h2 a b -> vrel (repr h2) (view (hp s2) a) (tview b)).
  { intros a b. apply repr_view_sub. apply Hv2. }
  rewrite (is_nil_rel (repr h2) (view (hp s2)) tview Hview _ _ Hg).
  assert (Hnil : is_nil tview gt = tnil (gtree gt)) by (by destruct gt as [[[]| | | |]|[]|l0|l0]).
  rewrite Hnil. destruct (tnil (gtree gt)) eqn:En; cbn [negb]; [exact Hdf|].
  eapply spec_bind1; [apply inject_spec; [apply Hst2|apply Hv2|exact Hg]|].
  intros s3 v' h3 Hst3 Hv3 Hv'. cbn in Hv'.
  eapply spec_eq with (o := Some (listed (gtree gt)) ≫= fun l => Some (l, false)); [|done].
  eapply spec_bind; [apply as_slice_spec; [apply Hst3|apply Hv3|exact Hv']|].
  intros l s4 sl h4 _ Hst4 Hv4 Hsl. apply spec_ret; [apply Hst4|apply Hv4|]. split; [done|]. by left.
Qed.

(** ** writing *)
Definition wspec {A T} (G : spine) (s : st) (h : gmap nat cell) (input : val) (cur : tree) (c : M A) (o : option T) (L : list (list string))
    (Q : T -> A -> gmap nat cell -> Prop) : Prop :=
  fr G s (c s).1 /\
  match o with
  | Some t => exists a h' G' cur', (c s).2 = Ok a /\ grows s h h' /\ gext s G G' /\ winv G' (c s).1 h' input cur' /\ evo L cur cur' /\ Q t a h'
  | None => (c s).2 = Err \/ (c s).2 = Panic
  end.
Lemma wspec_spec {A T} G s h input cur (c : M A) (o : option T) Q : winv G s h input cur -> spec s h c o Q -> wspec G s h input cur c o [] Q.
Proof.
  intros Hi [Hst Hc]. split; [by apply step_fr|]. destruct o as [t|].
  - destruct Hc as (a & h2 & Ha & Hv & HQ). exists a, h2, G, cur. split; [done|]. split; [by eapply vis_grows|]. split; [apply gext_refl|].
    split; [by eapply inv_step|]. split; [apply evo_refl|done].
  - destruct Hc as [?|[_ ?]]; auto.
Qed.
Lemma wspec_bind {A B T U} G s h input cur (c : M A) (k : A -> M B) (o : option T) (ko : T -> option U) L1 L2 Q1 Q :
  winv G s h input cur -> wspec G s h input cur c o L1 Q1 ->
  (forall t s' a h' G' cur', o = Some t -> fr G s s' -> grows s h h' -> gext s G G' -> winv G' s' h' input cur' -> evo L1 cur cur' -> Q1 t a h' ->
     wspec G' s' h' input cur' (k a) (ko t) L2 Q) ->
  wspec G s h input cur (Heap.mbind c k) (o ≫= ko) (L1 ++ L2) Q.
Proof.
  intros Hi [Hf Hc] Hk. unfold wspec, Heap.mbind. destruct (c s) as [s' r]. cbn [fst snd] in *. destruct o as [t|].
  - destruct Hc as (a & h' & G' & cur' & -> & Hg & Hge & Hi' & Hev & HQ).
    destruct (Hk t s' a h' G' cur' eq_refl Hf Hg Hge Hi' Hev HQ) as [Hf2 Hc2].
    assert (Hn : nxt s <= nxt s') by apply Hf.
    split; [eapply fr_trans; [apply Hi|done|done|done]|]. change (Some t ≫= ko) with (ko t). destruct (ko t) as [u|]; [|done].
    destruct Hc2 as (b & h2 & G2 & cur2 & Hb & Hg2 & Hge2 & Hi2 & Hev2 & HQ2). exists b, h2, G2, cur2. split; [done|].
    split; [by eapply grows_trans|]. split; [by eapply gext_trans|]. split; [done|]. split; [by eapply evo_trans|done].
  - change (None ≫= ko) with (@None U). destruct Hc as [-> | ->]; (split; [done|]); [by left|by right].
Qed.
Lemma wspec_eq {A T} G s h input cur (c : M A) (o o' : option T) L L' Q : wspec G s h input cur c o L Q -> o = o' -> L = L' -> wspec G s h input cur c o' L' Q.
Proof. by intros ? <- <-. Qed.

Lemma items_wspec G0 s0 h0 input cur0 item (dens : list (option tree)) : forall i G s h cur, winv G s h input cur ->
  fr G0 s0 s -> h0 ⊆ h -> evo [] cur0 cur ->
  (forall j d, dens !! j = Some d -> forall G' s' h' cur', fr G0 s0 s' -> h0 ⊆ h' -> winv G' s' h' input cur' -> evo [] cur0 cur' ->
     wspec G' s' h' input cur' (item (i + j)) d [] (fun t v h => repr h v t)) ->
  gext s0 G0 G -> stok s0 ->
  wspec G s h input cur (items (length dens) i item) (filter (fun t => tnil t = false) <$> all_of dens) []
    (fun ts vs h => Forall2 (repr h) vs ts).
Proof.
  induction dens as [|d dens IH]; intros i G s h cur Hi Hf Hsub Hev Hitem Hge Hs0; cbn [length items all_of].
  - apply wspec_spec; [done|]. apply spec_ret; [apply Hi|apply Hi|constructor].
  - eapply wspec_eq with (o := d ≫= fun t => (filter (fun t => tnil t = false) <$> all_of dens) ≫=
      fun ts => Some (if tnil t then ts else t :: ts)) (L := [] ++ ([] ++ [])); [| |done].
    2:{ destruct d as [t|]; cbn; [|done]. destruct (all_of dens); cbn; [|done]. by destruct (tnil t). }
    eapply wspec_bind; [done| |].
    { specialize (Hitem 0 d eq_refl G s h cur Hf Hsub Hi Hev). rewrite Nat.add_0_r in Hitem. exact Hitem. }
    intros t s1 v h1 G1 cur1 _ Hf1 Hg1 Hge1 Hi1 Hev1 Hr. cbv beta.
    assert (Hf01 : fr G0 s0 s1) by (eapply fr_trans; [done|done|exact Hge|done]).
    assert (Hge01 : gext s0 G0 G1) by (eapply (gext_trans s0 s); [apply Hf|done|done]).
    assert (Hev01 : evo [] cur0 cur1) by (change (@nil (list string)) with (@nil (list string) ++ []); by eapply evo_trans).
    eapply wspec_bind; [done| |].
    { apply (IH (S i)); [done|done|etrans; [done|apply Hg1]|done| |done|done]. intros j d' Hj.
      replace (S i + j) with (i + S j) by lia. apply (Hitem (S j) d' Hj). }
    intros ts s2 vs h2 G2 cur2 _ Hf2 Hg2 Hge2 Hi2 Hev2 Hvs. apply wspec_spec; [done|]. apply spec_ret; [apply Hi2|apply Hi2|].
    rewrite (repr_vnil _ _ _ Hr). destruct (tnil t); [done|]. constructor; [|done].
    eapply repr_mono; [apply Hg2|done].
Qed.

(** ** arrays *)
Lemma path_not_root (w : list string) : w <> [] -> path_of (Nm <$> w) <> "$".
Proof. by destruct w. Qed.
Lemma wspec_store {B U} w G s h input cur bv b (k : val -> M B) (ko : tree -> option U) L2 Q :
  w ∈ ws -> w <> [] -> Forall (fun k => ident k = true) w -> winv G s h input cur -> repr h bv (TArr b) ->
  (forall s' G' cur', stored w (TArr b) cur = Some cur' -> fr G s s' -> gext s G G' -> winv G' s' h input cur' ->
     wspec G' s' h input cur' (k input) (ko cur') L2 Q) ->
  wspec G s h input cur (Heap.mbind (if decide (path_of (Nm <$> w) = "$") then mret bv else
      match input with VMap l => save_in_tree W l (path_of (Nm <$> w)) bv ;;; mret input | _ => mfail end) k) (stored w (TArr b) cur ≫= ko) (w :: L2) Q.
Proof.
  intros Hw Hne Hid Hi Hr Hk. rewrite decide_False by (by apply path_not_root).
  pose proof (save_inv W ws Hws w G s h input cur bv b Hw Hne Hid Hi Hr) as Hsv. cbv zeta in Hsv.
  set (c := match input with VMap l => save_in_tree W l (path_of (Nm <$> w)) bv ;;; mret input | _ => mfail end).
  assert (E : match input with VMap l => (save_in_tree W l (path_of (Nm <$> w)) bv ;;; mret input) s | _ => mfail s end = c s) by (by destruct input).
  rewrite E in Hsv. clear E. destruct Hsv as [Hf Hsv]. unfold wspec, Heap.mbind. destruct (c s) as [s' r]. cbn [fst snd] in *.
  destruct (stored w (TArr b) cur) as [cur'|] eqn:Es.
  - destruct Hsv as (-> & G' & Hge & Hi'). destruct (Hk s' G' cur' eq_refl Hf Hge Hi') as [Hf2 Hc2].
    assert (Hn : nxt s <= nxt s') by apply Hf.
    split; [eapply fr_trans; [apply Hi|done|done|done]|]. change (Some cur' ≫= ko) with (ko cur'). destruct (ko cur') as [u|]; [|done].
    destruct Hc2 as (b' & h2 & G2 & cur2 & Hb & Hg2 & Hge2 & Hi2 & Hev2 & HQ2). exists b', h2, G2, cur2. split; [done|].
    split; [eapply grows_trans; [exact Hn|apply grows_refl|done]|]. split; [by eapply gext_trans|]. split; [done|].
    split; [|done]. change (w :: L2) with ([w] ++ L2). eapply evo_trans; [by eapply evo_stored|done].
  - subst r. split; [done|]. by left.
Qed.
Definition child_wspec (G : spine) (s : st) (h : gmap nat cell) (input : val) (ex : val -> modifier -> M val) (c : pitr) (o : list (list string)) (m : modifier) : Prop :=
  jok ws o c m -> forall G' s' h' cur', fr G s s' -> h ⊆ h' -> winv G' s' h' input cur' ->
    wspec G' s' h' input cur' (ex input m) (jden W c cur' m) (pwrites c) (fun t v h => repr h v t).
Lemma tail_wspec o G s h c ex input cur path m (its : list tree) (n : nat) : winv G s h input cur -> pwrites c = [] -> length its = n ->
  (forall i, jok ws o c (path_replace (path +:+ "[*]") (path +:+ idx_str i) m)) ->
  (forall m', child_wspec G s h input ex c o m') ->
  wspec G s h input cur (vs <-- items n 0 (fun i => ex input (path_replace (path +:+ "[*]") (path +:+ idx_str i) m)) ;; new_array n vs)
    (arr_of <$> all_of (imap (fun i _ => jden W c cur (path_replace (path +:+ "[*]") (path +:+ idx_str i) m)) its)) [] (fun t v h => repr h v t).
Proof.
  intros Hi Hc Hn Hj Hex. match goal with |- context[all_of ?l] => set (dens := l) end.
  assert (Hld : length dens = n) by (unfold dens; by rewrite imap_length).
  rewrite <- Hld.
  eapply wspec_eq with (o := (filter (fun t => tnil t = false) <$> all_of dens) ≫=
    fun ts => Some (match ts with [] => TS SNil | _ => TArr ts end)) (L := [] ++ []); [| |done].
  2:{ unfold arr_of. destruct (all_of dens); cbn; [|done]. by destruct (filter _ l). }
  eapply wspec_bind; [done| |].
  { eapply (items_wspec G s h input cur); [done|apply step_fr, step_refl, Hi|done|apply evo_refl| |apply gext_refl|apply Hi].
    intros j d Hd G' s' h' cur' Hf Hsub Hi' Hev. unfold dens in Hd. rewrite list_lookup_imap in Hd. destruct (its !! j); [|done]. cbn in Hd.
    injection Hd as <-. rewrite Nat.add_0_l.
    rewrite (jden_same ws Hws W c o _ cur cur'); [|apply Hj| |].
    - pose proof (Hex _ (Hj j) G' s' h' cur' Hf Hsub Hi') as Hw. rewrite Hc in Hw. exact Hw.
    - intros ks _ _. symmetry. apply Hev. intros w Hw. by apply elem_of_nil in Hw.
    - intros w Hw. rewrite Hc in Hw. by apply elem_of_nil in Hw. }
  intros ts s3 vs h3 G3 cur3 _ Hf3 Hg3 Hge3 Hi3 _ Hvs. apply wspec_spec; [done|]. apply new_array_spec; [apply Hi3|apply Hi3|done].
Qed.
Lemma slice_len h (sl : slice) ts : repr h (slice_val sl) (TArr ts) -> length ts = sl.2.
Proof.
  intros H. apply repr_arr in H as (a & n & b & Hsl & _ & Hn & HF). destruct sl as [? ?]. injection Hsl as -> ->.
  apply Forall2_length in HF. rewrite take_length in HF. cbn. lia.
Qed.
Lemma arr_wspec o G s h q d d' ts ts' c ex input cur m : winv G s h input cur -> tsrel (froms s) ts' ts -> jok ws o (PArr q d ts c) m ->
  match d, d' with
  | None, None => True
  | Some l, Some (a, n) => repr h (VArr a n) (TArr l)
  | _, _ => False
  end ->
  (forall o' m', child_wspec G s h input ex c o' m') ->
  wspec G s h input cur (arr_json W FJson q d' ts' (Some ex) input m) (jarr W q d ts (jden W c) cur m) (pwrites (PArr q d ts c)) (fun t v h => repr h v t).
Proof.
  intros Hi Hts [Hcw Hj] Hd Hex. unfold arr_json, jarr. cbv zeta.
  assert (Hch : forall o' G1 s1 h1 cur1, winv G1 s1 h1 input cur1 -> fr G s s1 -> gext s G G1 -> h ⊆ h1 -> forall m', child_wspec G1 s1 h1 input ex c o' m').
  { intros o' G1 s1 h1 cur1 Hi1 Hf1 Hge1 Hsub1 m' Hj' G' s' h' cur' Hf Hsub. apply (Hex o' m' Hj'); [|by etrans].
    eapply fr_trans; [apply Hi|done|done|done]. }
  destruct Hj as [(-> & -> & Hq & Hc)|(Hne & -> & -> & Hpt & w & Hw & Hwne & Hid & -> & Hok & Hc)].
  - destruct d'; [done|]. destruct ts'; [done|]. set (path := apply_mod m q) in *.
    eapply wspec_eq with (L := [] ++ []); [|reflexivity|cbn [pwrites]; by rewrite Hcw].
    eapply wspec_bind; [done|apply wspec_spec; [done|]; eapply (base_wspec o G s h path None None None None input cur m); done|].
    intros [its ch] s1 [base changed] h1 G1 cur1 Eb Hf1 Hg1 Hge1 Hi1 Hev1 [Hch1 Hb]. cbn [fst snd] in Hch1, Hb |- *. subst changed.
    assert (ch = false) as ->.
    { unfold jbase in Eb. cbn in Eb. destruct (jget W tview path cur) as [g|]; [|by injection Eb]. destruct (tnil (gtree g)); by injection Eb. }
    assert (Hlen : length its = base.2). { destruct Hb as [Hb|[[= ->] ->]]; [by eapply slice_len|done]. }
    change (Some cur ≫= ?f) with (f cur). cbv beta.
    assert (E : imap (fun i (_ : tree) => jden W c cur (path_replace (path +:+ "[*]") (path +:+ idx_str i) m)) its =
                imap (fun i (_ : tree) => jden W c cur1 (path_replace (path +:+ "[*]") (path +:+ idx_str i) m)) its).
    { apply imap_ext_all. intros i x. apply (jden_same ws Hws W c o); [apply Hc| |].
      - intros ks _ _. symmetry. apply Hev1. intros w Hw. by apply elem_of_nil in Hw.
      - intros w Hw. rewrite Hcw in Hw. by apply elem_of_nil in Hw. }
    rewrite E. change (Heap.mbind (mret input) ?k) with (k input). cbv beta.
    eapply (tail_wspec o); [done|done|done|done|]. intros m'. eapply (Hch o); [done|done|done|apply Hg1].
  - change (apply_mod [] (path_of (Nm <$> w))) with (path_of (Nm <$> w)) in *.
    assert (E : pwrites (PArr (path_of (Nm <$> w)) d ts c) = [] ++ [w]).
    { cbn [pwrites]. rewrite plain_names by done. destruct d, ts; try done. by destruct Hne. }
    rewrite E. clear E. rewrite plain_names by done. change (default [] (Some w)) with w.
    eapply wspec_bind; [done|apply wspec_spec; [done|]; eapply (base_wspec [w] G s h _ d d' ts ts' input cur []); try done; by apply reads_own|].
    intros [its ch] s1 [base changed] h1 G1 cur1 Eb Hf1 Hg1 Hge1 Hi1 Hev1 [Hch1 Hb]. cbn [fst snd] in Hch1, Hb |- *. subst changed.
    assert (Hlen : length its = base.2). { destruct Hb as [Hb|[[= -> ->] ->]]; [by eapply slice_len|done]. }
    assert (Hsel : forall ks, select_path tview ks cur1 = select_path tview ks cur).
    { intros ks. apply Hev1. intros w' Hw'. by apply elem_of_nil in Hw'. }
    destruct ch.
    + destruct Hb as [Hb|[? _]]; [|done].
      eapply wspec_eq with (o := stored w (TArr its) cur1 ≫= fun doc' => arr_of <$> all_of (imap (fun i (_ : tree) =>
         jden W c doc' (path_replace (path_of (Nm <$> w) +:+ "[*]") (path_of (Nm <$> w) +:+ idx_str i) [])) its)) (L := w :: []); [| |done].
      2: { destruct (stored w (TArr its) cur) as [a|] eqn:Ea.
           - assert (Hb' : is_Some (stored w (TArr its) cur1)).
             { apply stored_can. apply (proj2 Hev1); [intros w' Hw'; by apply elem_of_nil in Hw'|]. apply (stored_can w (TArr its)). by eexists. }
             destruct Hb' as [b Eb']. rewrite Eb'. change (Some b ≫= ?f) with (f b). change (Some a ≫= ?f) with (f a). cbv beta. do 2 f_equal.
             apply imap_ext_all. intros i x. apply (jden_same ws Hws W c [w]); [apply Hc| |].
             + intros ks _ Hsp. destruct (decide (w `prefix_of` ks)) as [[r ->]|Hnp].
               * by rewrite (stored_at _ _ _ _ _ Ea), (stored_at _ _ _ _ _ Eb').
               * assert (Hap : apart w ks).
                 { split; [done|]. intros Hp. apply Hsp. apply Exists_exists. exists w. split; [done|]. split; [done|]. by intros ->. }
                 rewrite (stored_apart _ _ _ _ _ Ea Hap), (stored_apart _ _ _ _ _ Eb' Hap). apply Hsel.
             + intros w' Hw'. rewrite Hcw in Hw'. by apply elem_of_nil in Hw'.
           - assert (Hb' : stored w (TArr its) cur1 = None).
             { destruct (stored w (TArr its) cur1) eqn:E1; [|done]. assert (is_Some (stored w (TArr its) cur)) as [? ?]; [|congruence].
               apply stored_can. apply (proj2 Hev1); [intros w' Hw'; by apply elem_of_nil in Hw'|]. apply (stored_can w (TArr its)). by eexists. }
             by rewrite Hb'. }
      eapply wspec_store; [done|done|done|done|exact Hb|]. intros s2 G2 cur2 Hst Hf2 Hge2 Hi2.
      eapply (tail_wspec [w]); [done|done|done|done|]. intros m'. eapply (Hch [w]); [done| | |apply Hg1].
      * eapply fr_trans; [apply Hi|exact Hf1|exact Hge1|exact Hf2].
      * eapply (gext_trans s s1); [apply Hf1|done|done].
    + change (Heap.mbind (mret input) ?k) with (k input). cbv beta. change (Some cur ≫= ?f) with (f cur). cbv beta.
      assert (E : imap (fun i (_ : tree) => jden W c cur (path_replace (path_of (Nm <$> w) +:+ "[*]") (path_of (Nm <$> w) +:+ idx_str i) [])) its =
                imap (fun i (_ : tree) => jden W c cur1 (path_replace (path_of (Nm <$> w) +:+ "[*]") (path_of (Nm <$> w) +:+ idx_str i) [])) its).
      { apply imap_ext_all. intros i x. apply (jden_same ws Hws W c [w]); [apply Hc| |].
        - intros ks _ _. by rewrite Hsel.
        - intros w' Hw'. rewrite Hcw in Hw'. by apply elem_of_nil in Hw'. }
      rewrite E.
      assert (Ht : wspec G1 s1 h1 input cur1 (vs <-- items base.2 0 (fun i => ex input (path_replace (path_of (Nm <$> w) +:+ "[*]") (path_of (Nm <$> w) +:+ idx_str i) [])) ;; new_array base.2 vs)
        (arr_of <$> all_of (imap (fun i (_ : tree) => jden W c cur1 (path_replace (path_of (Nm <$> w) +:+ "[*]") (path_of (Nm <$> w) +:+ idx_str i) [])) its)) [] (fun t v h => repr h v t)).
      { eapply (tail_wspec [w]); [done|done|done|done|]. intros m'. eapply (Hch [w]); [done|done|done|apply Hg1]. }
      destruct Ht as [Ht1 Ht2]. split; [exact Ht1|]. destruct (arr_of <$> _); [|done].
      destruct Ht2 as (a & h' & G' & cur' & A & B & C & D & F & H). exists a, h', G', cur'. repeat (split; [done|]). split; [|done]. by apply evo_nil_l.
Qed.

(** ** objects *)
Lemma inv_show S G s h input cur l c : inv S G s h input cur -> hp s !! l = Some c -> (forall p, G p <> Some l) -> h !! l = None ->
  inv S G s (<[l := c]> h) input cur.
Proof.
  intros Hi Hl Hg Hh. assert (Hsub : h ⊆ <[l := c]> h) by (by apply insert_subseteq). split; try apply Hi.
  - rewrite <- (insert_id (hp s) l c) by done. apply insert_mono, Hi.
  - pose proof (inv_root _ _ _ _ _ _ Hi). destruct (G []); [done|]. by eapply repr_mono.
  - intros p x Hp. destruct (inv_node _ _ _ _ _ _ Hi p x Hp) as (A & m & kvs & B & C & D). split.
    + rewrite lookup_insert_ne; [done|]. intros ->. by eapply Hg.
    + exists m, kvs. split; [done|]. split; [done|]. intros k. specialize (D k). destruct (G (p ++ [k])); [done|]. destruct D; constructor. by eapply repr_mono.
Qed.
Notation act := (string * (val -> modifier -> M val))%type.
Definition wact (G0 : spine) (s0 : st) (h0 : gmap nat cell) (input : val) (o : list (list string)) (m : modifier) (q : string) (a : act) (kc : string * pitr) : Prop :=
  a.1 = q +:+ "." +:+ kc.1 /\ name_ok kc.1 /\ jok ws o kc.2 m /\ child_wspec G0 s0 h0 input a.2 kc.2 o m.
Definition cwrites (cs : list (string * pitr)) : list (list string) := List.concat (List.map (fun kc => match kc with (_, c) => pwrites c end) cs).

Lemma children_wspec G0 s0 h0 cur0 o q l m input acts cs : stok s0 -> nxt s0 <= l ->
  Forall2 (wact G0 s0 h0 input o m q) acts cs -> forall Ld G s h cur mm tm,
  fr G0 s0 s -> gext s0 G0 G -> grows s0 h0 h -> winv G s h input cur -> evo Ld cur0 cur ->
  Forall (fun w => w ∈ ws) Ld -> (o <> [] -> Ld = []) -> NoDup (Ld ++ cwrites cs) -> l < nxt s ->
  hp s !! l = Some (CMap mm) -> h !! l = None -> (forall p, G p <> Some l) ->
  (forall k, option_Forall2 (repr h) (mm !! k) (tm !! k)) ->
  let r := save_children W q l acts input m s in
  fr G0 s0 r.1 /\
  match all_of (List.map (fun kc : string * pitr => pair kc.1 <$> jden W kc.2 cur0 m) cs) with
  | Some kvs => r.2 = Ok tt /\ exists h' G' cur' mm', gext s0 G0 G' /\ grows s0 h0 h' /\ winv G' r.1 h' input cur' /\ evo (Ld ++ cwrites cs) cur0 cur' /\
      hp r.1 !! l = Some (CMap mm') /\ h' !! l = None /\ (forall p, G' p <> Some l) /\
      (forall k, option_Forall2 (repr h') (mm' !! k) (foldl put tm kvs !! k))
  | None => r.2 = Err \/ r.2 = Panic
  end.
Proof.
  intros Hs0 Hl0. induction 1 as [|[cpath ex] [k c] acts cs (Hp & Hname & Hj & Hex) HF IH];
    intros Ld G s h cur mm tm Hf Hge Hgr Hi Hev HLd HoL Hnd Hl Hm Hhl HGl Hmm; cbn [save_children List.map all_of fst snd] in *.
  - cbn. split; [done|]. split; [done|]. exists h, G, cur, mm. split; [done|]. split; [done|]. split; [done|].
    split; [by rewrite app_nil_r|]. by repeat (split; [done|]).
  - destruct (Hex Hj G s h cur Hf ltac:(apply Hgr) Hi) as [Hf1 Hc].
    assert (Hws1 : Forall (fun w => w ∈ ws) (pwrites c) /\ (o <> [] -> pwrites c = [])) by (by eapply jok_writes).
    destruct Hws1 as [Hcw Hco].
    assert (Hdj : forall w, w ∈ Ld -> w ∈ pwrites c -> False).
    { intros w H1 H2. apply NoDup_app in Hnd as (_ & Hd & _). apply (Hd w H1). unfold cwrites. cbn [List.map List.concat]. apply elem_of_app. by left. }
    assert (Ej : jden W c cur m = jden W c cur0 m).
    { apply (jden_same ws Hws W c o); [done| |].
      - intros ks Hk _. apply Hev. intros w Hw. apply Hk.
        + by eapply Forall_forall in HLd.
        + intros Ho. destruct o; [by apply elem_of_nil in Ho|]. rewrite HoL in Hw by done. by apply elem_of_nil in Hw.
        + intros Hw'. by eapply Hdj.
      - intros w Hw. apply Hev. intros w' Hw'. rewrite Forall_forall in HLd, Hcw. destruct (Hws w' w) as [->|]; [by apply HLd|by apply Hcw| |done].
        exfalso. by eapply Hdj. }
    rewrite Ej in Hc. clear Ej. unfold Heap.mbind. destruct (ex input m s) as [s1 r1]. cbn [fst snd] in *.
    assert (Hf01 : fr G0 s0 s1) by (by eapply fr_trans).
    destruct (jden W c cur0 m) as [t|]; cbn [fmap option_fmap option_map mbind option_bind]; cycle 1.
    { destruct Hc as [-> | ->]; (split; [done|]); [by left|by right]. }
    destruct Hc as (v & h1 & G1 & cur1 & -> & Hg1 & Hge1 & Hi1 & Hev1 & Hv). subst cpath.
    rewrite save_member by done.
    assert (Hm1 : hp s1 !! l = Some (CMap mm)) by (by apply Hf1).
    assert (Hhl1 : h1 !! l = None).
    { destruct (h1 !! l) eqn:E; [|done]. destruct (proj2 Hg1 l) as [[c' Hc]|Hc]; [by eexists| |lia]. congruence. }
    assert (HGl1 : forall p, G1 p <> Some l).
    { intros p Hp. destruct (proj2 Hge1 p l Hp) as [?|?]; [by eapply HGl|lia]. }
    assert (Hmm1 : forall k, option_Forall2 (repr h1) (mm !! k) (tm !! k)).
    { intros k'. destruct (Hmm k'); constructor. eapply repr_mono; [apply Hg1|done]. }
    assert (Hn1 : nxt s <= nxt s1) by apply Hf1. assert (Hn0 : nxt s0 <= nxt s) by apply Hf.
    assert (Hev01 : evo (Ld ++ pwrites c) cur0 cur1) by (by eapply evo_trans).
    assert (HLd1 : Forall (fun w => w ∈ ws) (Ld ++ pwrites c)) by (by apply Forall_app).
    assert (HoL1 : o <> [] -> Ld ++ pwrites c = []) by (intros Ho; by rewrite HoL, Hco).
    assert (Hnd1 : NoDup ((Ld ++ pwrites c) ++ cwrites cs)) by (by rewrite <- app_assoc).
    assert (Hge01 : gext s0 G0 G1) by (by eapply (gext_trans s0 s)).
    assert (Hgr01 : grows s0 h0 h1) by (by eapply (grows_trans s0 s)).
    assert (Ecw : Ld ++ cwrites ((k, c) :: cs) = (Ld ++ pwrites c) ++ cwrites cs) by (by rewrite <- app_assoc).
    rewrite Ecw. rewrite (repr_vnil _ _ _ Hv). destruct (tnil t) eqn:Et.
    + destruct (IH (Ld ++ pwrites c) G1 s1 h1 cur1 mm tm) as (Hr1 & Hr3); try done; [lia|].
      change (mret tt s1) with (s1, Ok tt). cbv beta iota.
      split; [done|]. destruct (all_of (List.map _ cs)) as [kvs|]; [|done].
      destruct Hr3 as (Hr & h' & G' & cur' & mm' & A). split; [done|]. exists h', G', cur', mm'.
      cbn [foldl]. unfold put at 2. cbn [fst snd]. rewrite Et. exact A.
    + rewrite (map_set_eq l k v s1 mm) by (unfold hmap; by rewrite Hm1).
      set (s2 := St (<[l := CMap (<[k := v]> mm)]> (hp s1)) (nxt s1) (froms s1) (tick s1)). cbv beta iota.
      assert (Hi2 : winv G1 s2 h1 input cur1) by (apply inv_other; [done|done|done|lia|done]).
      destruct (IH (Ld ++ pwrites c) G1 s2 h1 cur1 (<[k := v]> mm) (<[k := t]> tm)) as (Hr1 & Hr3); try done.
      { destruct Hf01 as (A1 & A2 & A3 & A4). split; [apply Hi2|]. split; [done|]. split; [done|]. intros x cx Hx Hgx.
        cbn. assert (x < nxt s0) by (apply Hs0; by eexists). rewrite lookup_insert_ne by lia. by apply A4. }
      { cbn. lia. }
      { cbn. apply lookup_insert. }
      { intros k'. destruct (decide (k' = k)) as [->|Hne].
        - rewrite !lookup_insert. by constructor.
        - rewrite !lookup_insert_ne by done. apply Hmm1. }
      split; [done|]. destruct (all_of (List.map _ cs)) as [kvs|]; [|done].
      destruct Hr3 as (Hr & h' & G' & cur' & mm' & A). split; [done|]. exists h', G', cur', mm'.
      cbn [foldl]. unfold put at 2. cbn [fst snd]. rewrite Et. exact A.
Qed.
Lemma evo_sub L L' a b : L ⊆ L' -> evo L a b -> evo L' a b.
Proof. intros Hsub [A B]. split; intros x Hx; [apply A|apply B]; intros w Hw; by apply Hx, Hsub. Qed.
Lemma cwrites_perm cs cs' : cs ≡ₚ cs' -> cwrites cs ≡ₚ cwrites cs'.
Proof. intros H. unfold cwrites. rewrite <- !flat_map_concat_map. by apply Permutation_flat_map. Qed.

Lemma obj_wspec o G s h q d ts cs acts input cur m : winv G s h input cur -> NoDup cs.*1 -> jok ws o (PObj q d ts cs) m ->
  Forall2 (wact G s h input o m q) acts cs ->
  wspec G s h input cur (l <-- alloc (CMap ∅) ;; acts' <-- shuffle perm acts ;; save_children W q l acts' input m ;;; finish_obj l)
    (jden W (PObj q d ts cs) cur m) (pwrites (PObj q d ts cs)) (fun t v h => repr h v t).
Proof.
  intros Hi Hnd (_ & _ & Hndw & _) HF. pose proof (inv_ok _ _ _ _ _ _ Hi) as Hs. pose proof (inv_sub _ _ _ _ _ _ Hi) as Hh.
  set (l := nxt s).
  assert (Hfree : hp s !! l = None).
  { destruct (hp s !! l) eqn:E; [|done]. assert (l < nxt s) by (apply Hs; by eexists). unfold l in *. lia. }
  set (s1 := St (<[l := CMap ∅]> (hp s)) (S l) (froms s) (S (tick s))).
  set (is := perm (tick s) (length acts)).
  set (acts' := omap (fun i => acts !! i) is). set (cs' := omap (fun i => cs !! i) is).
  assert (HF' : Forall2 (wact G s h input o m q) acts' cs') by (by apply omap_Forall2).
  assert (HP : cs' ≡ₚ cs). { unfold cs', is. rewrite (Forall2_length _ _ _ HF). by apply omap_perm. }
  assert (E : (l <-- alloc (CMap ∅) ;; acts' <-- shuffle perm acts ;; save_children W q l acts' input m ;;; finish_obj l) s
    = (save_children W q l acts' input m ;;; finish_obj l) s1) by done.
  unfold wspec. rewrite E. clear E.
  assert (Hhl : h !! l = None) by (by eapply lookup_weaken_None).
  assert (HGl : forall p, G p <> Some l).
  { intros p Hp. pose proof (inv_lt _ _ _ _ _ _ _ _ Hi Hp). unfold l in *. lia. }
  assert (Hi1 : winv G s1 h input cur) by (apply inv_other; [done|done|done|unfold l; lia|unfold l; lia]).
  assert (Hf1 : fr G s s1).
  { split; [apply Hi1|]. split; [cbn; unfold l; lia|]. split; [done|]. intros x c Hx _. cbn. rewrite lookup_insert_ne; [done|].
    assert (x < nxt s) by (apply Hs; by eexists). unfold l. lia. }
  pose proof (children_wspec G s h cur o q l m input acts' cs' Hs ltac:(done) HF' [] G s1 h cur ∅ ∅) as Hsc.
  destruct Hsc as (Hr1 & Hr3); try done.
  { apply gext_refl. }
  { apply grows_refl. }
  { cbn [app]. rewrite (cwrites_perm _ _ HP). exact Hndw. }
  { cbn. lia. }
  { cbn. apply lookup_insert. }
  { intros k. rewrite !lookup_empty. constructor. }
  pose proof (all_of_perm _ _ (Permutation_map (fun kc : string * pitr => pair kc.1 <$> jden W kc.2 cur m) HP)) as Hao.
  assert (Ejd : jden W (PObj q d ts cs) cur m = obj_of <$> all_of (List.map (fun kc : string * pitr => pair kc.1 <$> jden W kc.2 cur m) cs)).
  { cbn [jden]. do 2 f_equal. apply map_ext. by intros [k c]. }
  rewrite Ejd. clear Ejd.
  unfold Heap.mbind. destruct (save_children W q l acts' input m s1) as [s2 r2]. cbn [fst snd] in *.
  destruct (all_of (List.map _ cs')) as [kvs'|] eqn:E'; cycle 1.
  { destruct (all_of (List.map _ cs)) as [kvs|]; [done|]. cbn. destruct Hr3 as [-> | ->]; (split; [done|]); [by left|by right]. }
  destruct (all_of (List.map _ cs)) as [kvs|] eqn:Ekvs; [|done]. cbn [fmap option_fmap option_map].
  assert (Hkeys : NoDup kvs.*1).
  { assert (kvs.*1 = cs.*1) as ->; [|done]. exact (all_of_fmap_fst (fun c => jden W c cur m) cs kvs Ekvs). }
  destruct Hr3 as (-> & h' & G' & cur' & mm & A1 & A2 & A3 & A4 & A5 & A6 & A7 & A8).
  assert (Htm : foldl put ∅ kvs' = list_to_map (filter (fun kv => tnil kv.2 = false) kvs)).
  { rewrite put_all by (by rewrite Hao). rewrite (right_id_L ∅ (∪)).
    apply list_to_map_proper.
    - apply filter_keys. by rewrite Hao.
    - by rewrite Hao. }
  rewrite Htm in A8. clear Htm.
  assert (Hev : evo (pwrites (PObj q d ts cs)) cur cur').
  { eapply evo_sub; [|exact A4]. intros w Hw. cbn [app] in Hw. change (pwrites (PObj q d ts cs)) with (cwrites cs). by rewrite <- (cwrites_perm _ _ HP). }
  unfold finish_obj, obj_of, Heap.mbind, mheap. set (fl := filter (fun kv : string * tree => tnil kv.2 = false) kvs) in *.
  assert (Hfl : NoDup fl.*1) by (by apply filter_keys).
  assert (Hhm : hmap (hp s2) l = mm) by (unfold hmap; by rewrite A5). rewrite Hhm.
  case_decide as Hem.
  - cbn [mret fst snd]. split; [done|]. exists (VS SNil), h', G', cur'. repeat (split; [done|]).
    destruct fl as [|[k t] fl']; [done|]. exfalso. specialize (A8 k). rewrite Hem in A8.
    change (list_to_map ((k, t) :: fl') : gmap string tree) with (<[k := t]> (list_to_map fl' : gmap string tree)) in A8.
    rewrite lookup_empty, lookup_insert in A8. inversion A8.
  - cbn [mret fst snd]. split; [done|]. exists (VMap l), (<[l := CMap mm]> h'), G', cur'. split; [done|].
    assert (Hsub : h' ⊆ <[l := CMap mm]> h') by (by apply insert_subseteq).
    split; [|split; [done|split; [|split; [done|]]]].
    + split; [etrans; [apply A2|done]|]. intros x [c Hx]. destruct (decide (x = l)) as [->|Hne]; [right; unfold l; lia|].
      rewrite lookup_insert_ne in Hx by done. apply A2. by eexists.
    + by apply inv_show.
    + assert (Hne : fl <> []).
      { intros Hfe. apply Hem. apply map_empty. intros k. specialize (A8 k). rewrite Hfe in A8. cbn in A8.
        rewrite lookup_empty in A8. by inversion A8. }
      assert (Hr : repr (<[l := CMap mm]> h') (VMap l) (TObj fl)).
      { apply repr_obj. exists l, mm. split; [done|]. split; [apply lookup_insert|]. split; [done|].
        intros k. unfold tmap. destruct (A8 k) as [x y Hxy|]; constructor. by eapply repr_mono. }
      by destruct fl.
Qed.

(** ** the theorem *)
Theorem exec_jden p : wf_paths p -> forall o i G s h input cur m, jok ws o p m -> irel h (froms s) i p -> winv G s h input cur ->
  wspec G s h input cur (exec W perm FJson i input m) (jden W p cur m) (pwrites p) (fun t v h => repr h v t).
Proof.
  induction p as [q jt d ts|q d ts cs IH|q d ts c IH] using pitr_ind'; intros Hwf o i G s h input cur m Hj Hi Hinv;
    destruct i as [q' jt' d' ts'|q' d' ts' cs'|q' d' ts' c']; try done.
  - cbn [irel] in Hi. destruct Hi as (-> & -> & Hd & Hts). cbn [exec jden pwrites]. apply wspec_spec; [done|]. by eapply scal_wspec.
  - cbn [irel] in Hi. destruct Hi as (-> & Hts & Hdd & Hcs). pose proof (jok_children _ _ _ _ _ _ _ Hj) as Hjc.
    pose proof Hj as (-> & -> & _ & _). cbn [wf_paths] in Hwf. destruct Hwf as [Hnd Hwf]. destruct d'; [done|]. destruct ts'; [done|].
    cbn [exec]. unfold obj_json. cbn [run_opt_tis].
    set (acts := List.map (fun kc : string * itr => let '(_, c) := kc in (it_path c, exec W perm FJson c)) cs').
    change (wspec G s h input cur (l <-- alloc (CMap ∅) ;; acts' <-- shuffle perm acts ;; save_children W q l acts' input m ;;; finish_obj l)
       (jden W (PObj q None None cs) cur m) (pwrites (PObj q None None cs)) (fun t v h => repr h v t)).
    apply (obj_wspec o); [done|done|done|].
    unfold acts. clear acts Hnd Hts Hdd Hj. revert cs' Hcs. induction cs as [|[k c] cs IHc]; intros [|[k' c'] cs'] Hcs; try done; cbn [List.map]; [constructor|].
    destruct Hcs as [[-> Hc] Hcs]. inversion Hjc as [|? ? Hj1 Hj2]; subst. inversion IH as [|? ? IH1 IH2]; subst.
    destruct Hwf as [(Hn & Hpath & Hwc) Hwf]. constructor; [|by apply IHc].
    split; [|split; [|split]]; cbn [fst snd]; [by rewrite (irel_path _ _ _ _ Hc)|done|done|].
    intros Hj' G' s' h' cur' Hf Hsub Hi'. apply (IH1 Hwc o); [done| |done].
    assert (Efr : froms s' = froms s) by apply Hf. rewrite Efr. by eapply irel_mono.
  - cbn [irel] in Hi. destruct c' as [c'|]; [|done]. destruct Hi as (-> & Hts & Hd & Hc). destruct Hwf as [_ Hwf].
    cbn [exec]. change (jden W (PArr q d ts c) cur m) with (jarr W q d ts (jden W c) cur m).
    apply (arr_wspec o); [done|done|done|done|]. intros o' m' Hj' G' s' h' cur' Hf Hsub Hi'. apply (IH Hwf o'); [done| |done].
    assert (Efr : froms s' = froms s) by apply Hf. rewrite Efr. by eapply irel_mono.
Qed.
End exec.

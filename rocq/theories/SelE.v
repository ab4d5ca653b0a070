(** The code computes the reading of SelD, although it writes into the document on the way. *)
From stdpp Require Import strings list gmap.
From Coq Require Import ZArith Lia.
From Verif Require Import GoStr GoStrL Val Conv Instr Heap SpecPath PathL Den Param HeapL Refine Top SpecProj ProjL SpecArr ArrT ArrH ArrW ArrD ArrE SelH SelD DefE.
From Verif Require Import SpecDef.

Section exec.
Context (W : oracles) (HW : jpath_parametric W).
Context (perm : nat -> nat -> list nat) (Hperm : forall t n, perm t n ≡ₚ seq 0 n).
Context (ws wr : wheres) (G : spine) (input : val) (doc : tree).
Context (Hws : forall w w', w ∈ ws -> w' ∈ ws -> w = w' \/ apart w w').
Context (Hwr : forall d, d ∈ wr -> exists w k, w ∈ ws /\ d = w ++ [k]).
Context (Hdist : distinct_keys doc).
Context (Harr : forall w l, w ∈ ws -> getp w doc <> Some (TArr l)).
Notation hinv := (hinv ws wr G input doc).
Instance true_wild : wild := True.

(** the members in [o] belong to maps that have been taken and are not written yet *)
Definition free (o T D : wheres) : Prop := forall d, d ∈ o -> d ∉ D /\ exists w k, d = w ++ [k] /\ w ∈ T.
Lemma free_nil T D : free [] T D. Proof. intros d Hd. by apply elem_of_nil in Hd. Qed.
Lemma free_step o T D L D' : free o T D -> wrote L D D' -> (forall w, w ∈ L -> w ∉ T) -> free o (L ++ T) D'.
Proof.
  intros Hf Hw Hd d Hin. destruct (Hf d Hin) as (A & w & k & -> & HT). split.
  - intros Hc. destruct (Hw _ Hc) as [?|(w' & k' & HL & E)]; [done|]. apply app_inj_tail in E as [-> _]. by eapply Hd.
  - exists w, k. split; [done|]. apply elem_of_app. by right.
Qed.
(** ** reading *)
Lemma get_rel o T D s h path : hinv T D s h -> free o T D -> oreads ws wr o path ->
  option_Forall2 (grel (repr h)) (jget W (view (hp s)) path input) (jget W tview path doc).
Proof.
  intros Hi Hf (ks & Hp & Hup & Hd). unfold jget. rewrite Hp.
  pose proof (hinv_select ws wr G input doc T D s h ks Hi) as Hs.
  assert (EG : G ks = None). { destruct (G ks) eqn:E; [|done]. exfalso. apply Hup. by eapply (h_dom _ _ _ _ _ _ _ _ _ Hi). }
  rewrite EG in Hs. destruct Hs; cbn; [|by constructor; constructor|constructor].
  intros d HD. destruct (h_done _ _ _ _ _ _ _ _ _ Hi d HD) as [Hdw _]. apply Hd; [done|]. intros Ho. by apply (Hf d Ho).
Qed.
Lemma run_opt_gen T D s h ts pt ft m : hinv T D s h ->
  tsrel (froms s) ts pt -> pure_ts pt ->
  match pt with None => True | Some (_, _, from) => forall x, x ∈ from -> option_Forall2 (grel (repr h)) (jget W (view (hp s)) (apply_mod m (i_jpath x)) input) (jget W tview (apply_mod m (i_jpath x)) doc) end ->
  spec s h (run_opt_tis W FJson ts input ft m) (run_ptis W FJson pt doc ft m) (fun t v h => repr h v t).
Proof.
  intros Hi Hts Hpure Hok. pose proof (h_ok _ _ _ _ _ _ _ _ _ Hi) as Hs. pose proof (h_sub _ _ _ _ _ _ _ _ _ Hi) as Hh.
  destruct ts as [t|], pt as [[[me delim] from]|]; try done; [|by apply spec_ret].
  destruct Hts as (Hme & Hde & Hfr). cbn [run_opt_tis].
  pose proof (tis_run_rel' W HW (repr h) (view (hp s)) tview (fun v t => repr_view_sub h (hp s) v t Hh)
    t (Tis 0 me delim) from input doc ft m (fun i Hin => Hok i Hin) Hme Hde) as Hrel.
  unfold spec, run_tis. rewrite Hfr. change (default [] (Some from)) with from.
  assert (Hfrom : (tis_run W (view (hp s)) FJson t from input ft m).2 = from).
  { unfold tis_run. cbn. rewrite Hme. destruct me; try done. cbn in Hpure.
    destruct from as [|x [|]]; cbn in *; try done. lia. }
  destruct (tis_run W (view (hp s)) FJson t from input ft m) as [r from'] eqn:Et. cbn [fst snd] in Hfrom, Hrel. subst from'.
  rewrite (insert_id (froms s)) by done.
  assert (E : St (hp s) (nxt s) (froms s) (tick s) = s) by (by destruct s). rewrite E. clear E.
  unfold run_ptis. destruct Hrel as [g gt Hg| |].
  - exact (inject_spec g gt s h Hs Hh Hg).
  - split; [by apply step_refl|]. by left.
  - split; [by apply step_refl|]. by right.
Qed.
Lemma run_opt_ospec o T D s h ts pt ft m : hinv T D s h -> free o T D ->
  tsrel (froms s) ts pt -> pure_ts pt -> ots ws wr o pt m ->
  spec s h (run_opt_tis W FJson ts input ft m) (run_ptis W FJson pt doc ft m) (fun t v h => repr h v t).
Proof.
  intros Hi Hfree Hts Hpure Hok. eapply run_opt_gen; [done|done|done|]. destruct pt as [[[me dl] from]|]; [|done]. intros x Hx. eapply get_rel; [done|done|by apply Hok].
Qed.
Lemma heap_get_ospec o T D s h path : hinv T D s h -> free o T D -> oreads ws wr o path ->
  spec s h (heap_get W path input) (Some (jget W tview path doc)) (fun o o' h => option_Forall2 (grel (repr h)) o' o).
Proof.
  intros Hi Hfree Hr. unfold heap_get. apply spec_mheap. apply spec_ret; [apply Hi|apply Hi|]. by eapply get_rel.
Qed.
Lemma scal_ospec o T D s h q jt d d' ts ts' m : hinv T D s h -> free o T D ->
  tsrel (froms s) ts' ts -> ook ws wr o (PScal q jt d ts) m -> repr h d' d ->
  spec s h (scal_json W FJson q jt d' ts' input m) (den_scal W FJson q jt d ts doc m) (fun t v h => repr h v t).
Proof.
  intros Hi Hfree Hts (Hpure & Hq & Hok) Hd. unfold den_scal, scal_json.
  eapply spec_bind; [by eapply run_opt_ospec|]. intros t s1 v h1 _ Hst1 Hv1 Hr.
  rewrite (repr_vnil _ _ _ Hr). destruct (negb (tnil t)); [apply spec_ret; [apply Hst1|apply Hv1|done]|].
  pose proof (hinv_step _ _ _ _ _ _ _ _ _ _ _ Hst1 Hv1 Hi) as Hi1.
  eapply spec_bind1; [by eapply heap_get_ospec|]. intros s2 raw h2 Hst2 Hv2 Hraw.
  assert (Hd2 : repr h2 d' d) by (eapply repr_mono; [apply Hv2|]; eapply repr_mono; [apply Hv1|done]).
  destruct Hraw as [g gt Hg|]; [|apply spec_ret; [apply Hst2|apply Hv2|done]].
  apply spec_mheap.
  assert (Hview : forall a b, repr h2 a b -> vrel (repr h2) (view (hp s2) a) (tview b)).
  { intros a b. apply repr_view_sub. apply Hv2. }
  destruct (convert_rel W (repr h2) (view (hp s2)) tview Hview jt g gt Hg) as [[nv e] [nv' e'] [Hnv He]|];
    [|apply spec_panic; [done|apply Hst2]].
  cbn in Hnv, He. subst e'.
  rewrite (is_nil_rel (repr h2) (view (hp s2)) tview Hview _ _ Hnv).
  destruct (is_nil tview nv'); [apply spec_ret; [apply Hst2|apply Hv2|done]|].
  destruct e; [apply spec_fail; apply Hst2|].
  apply inject_spec; [apply Hst2|apply Hv2|done].
Qed.
Lemma base_ospec o T D s h path m : hinv T D s h -> free o T D -> oreads ws wr o path ->
  spec s h (base_json W FJson path None None input m) (jbase W path None None doc m)
    (fun b sb h => b.2 = false /\ sb.2 = false /\ length b.1 = sb.1.2).
Proof.
  intros Hi Hfree Hq. unfold jbase, base_json. change (run_ptis W FJson None doc "array" m) with (Some (TS SNil)). cbn [run_opt_tis].
  change (Heap.mbind (mret (VS SNil)) ?k) with (k (VS SNil)). cbn [mbind option_bind tnil vnil negb].
  eapply spec_bind1; [by eapply heap_get_ospec|]. intros s2 raw h2 Hst2 Hv2 Hraw. apply spec_mheap.
  assert (Hdf : spec s2 h2 (mret (default (None, 0) (None : option slice), bool_decide (is_Some (None : option slice))))
    (Some (default [] (None : option (list tree)), bool_decide (is_Some (None : option (list tree)))))
    (fun b sb h => b.2 = false /\ sb.2 = false /\ length b.1 = sb.1.2)).
  { apply spec_ret; [apply Hst2|apply Hv2|]. done. }
  destruct Hraw as [g gt Hg|]; [|exact Hdf].
  assert (Hview : forall a b, repr h2 a b -> vrel (repr h2) (view (hp s2) a) (tview b)).
  { intros a b. apply repr_view_sub. apply Hv2. }
  rewrite (is_nil_rel (repr h2) (view (hp s2)) tview Hview _ _ Hg).
  assert (Hnil : is_nil tview gt = tnil (gtree gt)) by (by destruct gt as [[[]| | | |]|[]|l0|l0]).
  rewrite Hnil. destruct (tnil (gtree gt)) eqn:En; cbn [negb]; [exact Hdf|].
  eapply spec_bind1; [apply inject_spec; [apply Hst2|apply Hv2|exact Hg]|].
  intros s3 v' h3 Hst3 Hv3 Hv'. cbn in Hv'.
  eapply spec_eq with (o := Some (listed (gtree gt)) ≫= fun l => Some (l, false)); [|done].
  eapply spec_bind; [apply as_slice_spec; [apply Hst3|apply Hv3|exact Hv']|].
  intros l s4 sl h4 _ Hst4 Hv4 Hsl. apply spec_ret; [apply Hst4|apply Hv4|]. split; [done|]. split; [done|]. cbn [fst snd]. eapply slice_len. exact Hsl.
Qed.

(** ** taking *)
Definition ospec {A U} (T D : wheres) (s : st) (h : gmap nat cell) (c : M A) (o : option U) (L : wheres)
    (Q : U -> A -> gmap nat cell -> Prop) : Prop :=
  frs G L s (c s).1 /\
  match o with
  | Some t => exists a h' D', (c s).2 = Ok a /\ shows G L s h h' /\ hinv (L ++ T) D' (c s).1 h' /\ wrote L D D' /\ Q t a h'
  | None => (c s).2 = Err \/ (c s).2 = Panic
  end.
Lemma ospec_spec {A U} T D s h (c : M A) (o : option U) Q : hinv T D s h -> spec s h c o Q -> ospec T D s h c o [] Q.
Proof.
  intros Hi [Hst Hc]. split; [by apply step_frs|]. destruct o as [t|].
  - destruct Hc as (a & h2 & Ha & Hv & HQ). exists a, h2, D. split; [done|]. split; [by eapply vis_shows|].
    split; [by eapply hinv_step|]. split; [apply wrote_refl|done].
  - destruct Hc as [?|[_ ?]]; auto.
Qed.
Lemma ospec_bind {A B U V} T D s h (c : M A) (k : A -> M B) (o : option U) (ko : U -> option V) L1 L2 Q1 Q :
  ospec T D s h c o L1 Q1 ->
  (forall t s' a h' D', o = Some t -> frs G L1 s s' -> shows G L1 s h h' -> hinv (L1 ++ T) D' s' h' -> wrote L1 D D' -> Q1 t a h' ->
     ospec (L1 ++ T) D' s' h' (k a) (ko t) L2 Q) ->
  ospec T D s h (Heap.mbind c k) (o ≫= ko) (L1 ++ L2) Q.
Proof.
  intros [Hf Hc] Hk. unfold ospec, Heap.mbind. destruct (c s) as [s' r]. cbn [fst snd] in *. destruct o as [t|].
  - destruct Hc as (a & h' & D' & -> & Hg & Hi' & Hwr' & HQ).
    destruct (Hk t s' a h' D' eq_refl Hf Hg Hi' Hwr' HQ) as [Hf2 Hc2].
    assert (Hn : nxt s <= nxt s') by apply Hf.
    split; [by eapply frs_trans|]. change (Some t ≫= ko) with (ko t). destruct (ko t) as [u|]; [|done].
    destruct Hc2 as (b & h2 & D2 & Hb & Hg2 & Hi2 & Hw2 & HQ2). exists b, h2, D2. split; [done|].
    split; [by eapply shows_trans|]. split; [|split; [by eapply wrote_trans|done]].
    eapply hinv_sub; [| |exact Hi2].
    + intros x Hx. rewrite !elem_of_app in Hx |- *. tauto.
    + intros x Hx. apply (h_taken _ _ _ _ _ _ _ _ _ Hi2). rewrite !elem_of_app in Hx |- *. tauto.
  - change (None ≫= ko) with (@None V). split; [apply (frs_sub G L1); [|destruct Hc as [-> | ->]; done]|].
    + intros x Hx. apply elem_of_app. by left.
    + destruct Hc as [-> | ->]; [by left|by right].
Qed.
Lemma ospec_eq {A U} T D s h (c : M A) (o o' : option U) L L' Q : ospec T D s h c o L Q -> o = o' -> L = L' -> ospec T D s h c o' L' Q.
Proof. by intros ? <- <-. Qed.

Definition child_ospec (s0 : st) (h0 : gmap nat cell) (ex : val -> modifier -> M val) (c : pitr) (o : wheres) (m : modifier) : Prop :=
  ook ws wr o c m -> forall T D s h, froms s = froms s0 -> h0 ⊆ h -> hinv T D s h -> free o T D -> (forall w, w ∈ sels c -> w ∉ T) ->
    ospec T D s h (ex input m) (oden W doc c m) (sels c) (fun t v h => repr h v t).
Lemma items_ospec o s0 h0 item (dens : list (option tree)) : forall i T D s h, hinv T D s h -> free o T D ->
  froms s = froms s0 -> h0 ⊆ h ->
  (forall j d, dens !! j = Some d -> forall T' D' s' h', froms s' = froms s0 -> h0 ⊆ h' -> hinv T' D' s' h' -> free o T' D' ->
     ospec T' D' s' h' (item (i + j)) d [] (fun t v h => repr h v t)) ->
  ospec T D s h (items (length dens) i item) (filter (fun t => tnil t = false) <$> all_of dens) []
    (fun ts vs h => Forall2 (repr h) vs ts).
Proof.
  induction dens as [|d dens IH]; intros i T D s h Hi Hfree Hf Hsub Hitem; cbn [length items all_of].
  - apply ospec_spec; [done|]. apply spec_ret; [apply Hi|apply Hi|constructor].
  - eapply ospec_eq with (o := d ≫= fun t => (filter (fun t => tnil t = false) <$> all_of dens) ≫=
      fun ts => Some (if tnil t then ts else t :: ts)) (L := [] ++ ([] ++ [])); [| |done].
    2:{ destruct d as [t|]; cbn; [|done]. destruct (all_of dens); cbn; [|done]. by destruct (tnil t). }
    eapply ospec_bind.
    { specialize (Hitem 0 d eq_refl T D s h Hf Hsub Hi Hfree). rewrite Nat.add_0_r in Hitem. exact Hitem. }
    intros t s1 v h1 D1 _ Hf1 Hg1 Hi1 Hw1 Hr. cbv beta.
    assert (Hfree1 : free o ([] ++ T) D1) by (eapply free_step; [done|done|]; intros w Hw; by apply elem_of_nil in Hw).
    assert (Hfr1 : froms s1 = froms s0) by (transitivity (froms s); [apply Hf1|done]).
    eapply ospec_bind.
    { apply (IH (S i)); [done|done|done|etrans; [done|apply Hg1]|]. intros j d' Hj.
      replace (S i + j) with (i + S j) by lia. apply (Hitem (S j) d' Hj). }
    intros ts s2 vs h2 D2 _ Hf2 Hg2 Hi2 Hw2 Hvs. apply ospec_spec; [done|]. apply spec_ret; [apply Hi2|apply Hi2|].
    rewrite (repr_vnil _ _ _ Hr). destruct (tnil t); [done|]. constructor; [|done].
    eapply repr_mono; [apply Hg2|done].
Qed.
Lemma arr_ospec o T D s h q c ex m : hinv T D s h -> free o T D -> ook ws wr o (PArr q None None c) m ->
  (forall m', child_ospec s h ex c o m') ->
  ospec T D s h (arr_json W FJson q None None (Some ex) input m) (oarr W doc q (oden W doc c) m) [] (fun t v h => repr h v t).
Proof.
  intros Hi Hfree (Hcs & _ & _ & Hq & Hc) Hex. unfold arr_json, oarr. cbv zeta. set (path := apply_mod m q) in *.
  change (@nil (list string)) with (@nil (list string) ++ []).
  eapply ospec_bind; [apply ospec_spec; [done|]; by eapply base_ospec|].
  intros [its ch] s1 [base changed] h1 D1 _ Hf1 Hg1 Hi1 Hw1 (Hch1 & Hch2 & Hlen). cbn [fst snd] in *. subst ch changed.
  change (Heap.mbind (mret input) ?k) with (k input). cbv beta.
  match goal with |- context[all_of ?l] => set (dens := l) end.
  assert (Hld : length dens = base.2) by (unfold dens; by rewrite imap_length).
  rewrite <- Hld.
  eapply ospec_eq with (o := (filter (fun t => tnil t = false) <$> all_of dens) ≫=
    fun ts => Some (match ts with [] => TS SNil | _ => TArr ts end)) (L := [] ++ []); [| |done].
  2:{ unfold arr_of. destruct (all_of dens); cbn; [|done]. by destruct (filter _ l). }
  assert (Hfr1 : froms s1 = froms s) by apply Hf1.
  eapply ospec_bind.
  { eapply (items_ospec o s h); [done| |done|apply Hg1|].
    { eapply free_step; [done|done|]. intros w Hw. by apply elem_of_nil in Hw. }
    intros j d Hd T' D' s' h' Hf Hsub Hi' Hfree'. unfold dens in Hd. rewrite list_lookup_imap in Hd. destruct (its !! j); [|done]. cbn in Hd.
    injection Hd as <-. rewrite Nat.add_0_l. rewrite <- Hcs.
    apply (Hex _ (Hc j)); [done|done|done|done|]. intros w Hw. rewrite Hcs in Hw. by apply elem_of_nil in Hw. }
  intros ts s3 vs h3 D3 _ Hf3 Hg3 Hi3 _ Hvs. apply ospec_spec; [done|].
  rewrite Hld. apply new_array_spec; [apply Hi3|apply Hi3|done].
Qed.

(** ** objects *)
Notation act := (string * (val -> modifier -> M val))%type.
Definition oact (s0 : st) (h0 : gmap nat cell) (own : option (list string)) (o : wheres) (m : modifier) (q : string) (a : act) (kc : string * pitr) : Prop :=
  a.1 = q +:+ "." +:+ kc.1 /\ name_ok kc.1 /\ ook ws wr (oadd own kc.1 o) kc.2 m /\ child_ospec s0 h0 a.2 kc.2 (oadd own kc.1 o) m /\
  match own with Some w => w ++ [kc.1] ∈ wr | None => True end.
(** the map [l] that is filled: a new one, or one of the document that has been taken *)
Definition filled (own : option (list string)) (l : nat) (T : wheres) : Prop :=
  match own with Some w => (G w = Some l \/ forall p, G p <> Some l) /\ w ∈ T | None => forall p, G p <> Some l end.
Definition frx (l : nat) (L : wheres) (s s' : st) : Prop :=
  stok s' /\ nxt s <= nxt s' /\ froms s' = froms s /\
  forall x c, hp s !! x = Some c -> x <> l -> (forall w, w ∈ L -> G w <> Some x) -> hp s' !! x = Some c.
Definition osub (own : option (list string)) (o : wheres) : Prop :=
  match own with Some w => forall k, w ++ [k] ∉ o | None => True end.

Lemma children_ospec s0 h0 own o q l m acts cs : osub own o ->
  Forall2 (oact s0 h0 own o m q) acts cs -> forall T D s h mm tm,
  froms s = froms s0 -> h0 ⊆ h -> hinv T D s h -> (forall k, k ∈ cs.*1 -> free (oadd own k o) T D) -> free o T D ->
  NoDup cs.*1 -> NoDup (csels cs) -> (forall w, w ∈ csels cs -> w ∉ T) -> l < nxt s ->
  hp s !! l = Some (CMap mm) -> h !! l = None -> filled own l T ->
  (forall k, option_Forall2 (repr h) (mm !! k) (tm !! k)) ->
  let r := save_children W q l acts input m s in
  frx l (csels cs) s r.1 /\
  match all_of (List.map (fun kc : string * pitr => pair kc.1 <$> oden W doc kc.2 m) cs) with
  | Some kvs => r.2 = Ok tt /\ exists h' D' mm', shows G (csels cs) s h h' /\ hinv (csels cs ++ T) D' r.1 h' /\ wrote (option_list own ++ csels cs) D D' /\
      hp r.1 !! l = Some (CMap mm') /\ h' !! l = None /\
      (forall k, option_Forall2 (repr h') (mm' !! k) (foldl put tm kvs !! k))
  | None => r.2 = Err \/ r.2 = Panic
  end.
Proof.
  intros Hos. induction 1 as [|[cpath ex] [k c] acts cs (Hp & Hname & Hj & Hex & Hkw) HF IH];
    intros T D s h mm tm Hf Hsub Hi Hfree Hfo Hndk Hnd Hdj Hl Hm Hhl Hfill Hmm; cbn [save_children List.map all_of fst snd] in *.
  - cbn. split; [by split; [apply Hi|]|]. split; [done|]. exists h, D, mm. split; [apply shows_refl|]. split; [done|]. split; [apply wrote_refl|].
    by repeat (split; [done|]).
  - assert (Ecs : csels ((k, c) :: cs) = sels c ++ csels cs) by done. rewrite Ecs in *. clear Ecs.
    destruct (Hex Hj T D s h Hf Hsub Hi) as [Hf1 Hc]; [apply Hfree; by left|intros w Hw; apply Hdj, elem_of_app; by left|].
    unfold Heap.mbind. destruct (ex input m s) as [s1 r1]. cbn [fst snd] in *.
    assert (Hn1 : nxt s <= nxt s1) by apply Hf1.
    assert (Hlw : forall w, w ∈ sels c -> G w <> Some l).
    { intros w Hw HGw. unfold filled in Hfill. destruct own as [w0|]; [|by eapply Hfill]. destruct Hfill as [[HG0|HG0] HT0]; [|by eapply HG0].
      assert (w = w0) as -> by (by eapply (h_inj _ _ _ _ _ _ _ _ _ Hi)). apply (Hdj w0); [apply elem_of_app; by left|done]. }
    assert (Hfx1 : frx l (sels c ++ csels cs) s s1).
    { destruct Hf1 as (A1 & A2 & A3 & A4). split; [done|]. split; [done|]. split; [done|]. intros x cx Hx _ Hg. apply A4; [done|].
      intros w Hw. apply Hg, elem_of_app. by left. }
    destruct (oden W doc c m) as [t|]; cbn [fmap option_fmap option_map mbind option_bind]; cycle 1.
    { destruct Hc as [-> | ->]; (split; [done|]); [by left|by right]. }
    destruct Hc as (v & h1 & D1 & -> & Hg1 & Hi1 & Hw1 & Hv). subst cpath.
    rewrite save_member by done.
    assert (Hm1 : hp s1 !! l = Some (CMap mm)) by (by apply Hf1).
    assert (Hhl1 : h1 !! l = None).
    { destruct (h1 !! l) eqn:E; [|done]. destruct (proj2 Hg1 l) as [[c' Hc]|[Hc|(w & Hw & Hc)]]; [by eexists|congruence|lia|]. by destruct (Hlw w Hw). }
    assert (Hmm1 : forall k, option_Forall2 (repr h1) (mm !! k) (tm !! k)).
    { intros k'. destruct (Hmm k'); constructor. eapply repr_mono; [apply Hg1|done]. }
    assert (Hfill1 : filled own l (sels c ++ T)).
    { unfold filled in *. destruct own; [|done]. split; [apply Hfill|]. apply elem_of_app. right. apply Hfill. }
    apply NoDup_cons in Hndk as [Hk Hndk]. apply NoDup_app in Hnd as (Hnd1 & Hndx & Hnd).
    assert (HdT : forall w, w ∈ sels c -> w ∉ T) by (intros w Hw; apply Hdj, elem_of_app; by left).
    assert (Hdj1 : forall w, w ∈ csels cs -> w ∉ sels c ++ T).
    { intros w Hw Hc. apply elem_of_app in Hc as [Hc|Hc]; [by eapply Hndx|]. apply (Hdj w); [apply elem_of_app; by right|done]. }
    assert (Hfr1 : froms s1 = froms s0) by (transitivity (froms s); [apply Hf1|done]).
    assert (Hsub1 : h0 ⊆ h1) by (etrans; [done|apply Hg1]).
    assert (Hfo1 : free o (sels c ++ T) D1) by (by eapply free_step).
    assert (Hfree1 : forall k', k' ∈ cs.*1 -> free (oadd own k' o) (sels c ++ T) D1).
    { intros k' Hk'. eapply free_step; [apply Hfree; by right|done|done]. }
    (* the state after the member is written *)
    set (D2 := match own with Some w => (w ++ [k]) :: D1 | None => D1 end).
    assert (HD2 : wrote (option_list own ++ sels c) D D2).
    { intros d Hd. unfold D2 in Hd. destruct own as [w|].
      - apply elem_of_cons in Hd as [->|Hd]; [right; exists w, k; split; [by left|done]|].
        destruct (Hw1 d Hd) as [?|(w' & k' & A & B)]; [by left|right]. exists w', k'. split; [by right|done].
      - destruct (Hw1 d Hd) as [?|(w' & k' & A & B)]; [by left|right]. by exists w', k'. }
    assert (Hfo2 : free o (sels c ++ T) D2).
    { intros d Hd. destruct (Hfo1 d Hd) as [A B]. split; [|done]. unfold D2. destruct own as [w|]; [|done]. cbn in Hos.
      intros [->|?]%elem_of_cons; [by eapply Hos|done]. }
    assert (Hfree2 : forall k', k' ∈ cs.*1 -> free (oadd own k' o) (sels c ++ T) D2).
    { intros k' Hk' d Hd. destruct (Hfree1 k' Hk' d Hd) as [A B]. split; [|done]. unfold D2. unfold oadd in Hd. destruct own as [w|]; [|done]. cbn in Hos.
      intros [->|?]%elem_of_cons; [|done]. apply elem_of_cons in Hd as [E|Hd]; [|by eapply Hos]. apply app_inj_tail in E as [_ ->]. done. }
    assert (Hgoal : forall s2 mm2 tm2, hinv (sels c ++ T) D2 s2 h1 -> froms s2 = froms s0 -> nxt s2 = nxt s1 -> hp s2 !! l = Some (CMap mm2) ->
      (forall k, option_Forall2 (repr h1) (mm2 !! k) (tm2 !! k)) -> (forall x cx, hp s1 !! x = Some cx -> x <> l -> hp s2 !! x = Some cx) ->
      let r := save_children W q l acts input m s2 in
      frx l (sels c ++ csels cs) s r.1 /\
      match all_of (List.map (fun kc : string * pitr => pair kc.1 <$> oden W doc kc.2 m) cs) with
      | Some kvs => r.2 = Ok tt /\ exists h' D' mm', shows G (sels c ++ csels cs) s h h' /\ hinv ((sels c ++ csels cs) ++ T) D' r.1 h' /\
          wrote (option_list own ++ sels c ++ csels cs) D D' /\ hp r.1 !! l = Some (CMap mm') /\ h' !! l = None /\
          (forall k, option_Forall2 (repr h') (mm' !! k) (foldl put tm2 kvs !! k))
      | None => r.2 = Err \/ r.2 = Panic
      end).
    { intros s2 mm2 tm2 Hi2 Hfr2 Hn2 Hm2 Hmm2 Hx2.
      destruct (IH (sels c ++ T) D2 s2 h1 mm2 tm2) as (Hr1 & Hr3); try done; [lia|]. cbv zeta. split.
      - destruct Hr1 as (B1 & B2 & B3 & B4). split; [done|]. split; [lia|]. split; [congruence|]. intros x cx Hx Hxl Hg.
        apply B4; [|done|]; [|intros w Hw; apply Hg, elem_of_app; by right]. apply Hx2; [|done]. apply Hf1; [done|]. intros w Hw. apply Hg, elem_of_app. by left.
      - destruct (all_of (List.map _ cs)) as [kvs|]; [|done].
        destruct Hr3 as (Hr & h' & D' & mm' & A1 & A2 & A3 & A4). split; [done|]. exists h', D', mm'. split; [|split; [|split; [|done]]].
        + eapply shows_trans; [exact Hn1|exact Hg1|]. destruct A1 as [A1 A1']. split; [done|]. rewrite <- Hn2. done.
        + eapply hinv_sub; [| |exact A2].
          * intros x Hx. rewrite !elem_of_app in Hx |- *. tauto.
          * intros x Hx. apply (h_taken _ _ _ _ _ _ _ _ _ A2). rewrite !elem_of_app in Hx |- *. tauto.
        + eapply wrote_sub; [|eapply wrote_trans; [exact HD2|exact A3]]. intros x Hx. repeat rewrite elem_of_app in Hx; repeat rewrite elem_of_app; tauto. }
    rewrite (repr_vnil _ _ _ Hv). destruct (tnil t) eqn:Et.
    + change (mret tt s1) with (s1, Ok tt). cbv beta iota.
      assert (Hi2 : hinv (sels c ++ T) D2 s1 h1).
      { unfold D2. destruct own as [w|]; [|done]. apply hinv_put; [done|done|]. apply Hfill1. }
      destruct (Hgoal s1 mm tm) as [Ha Hb]; try done. split; [done|].
      destruct (all_of (List.map _ cs)) as [kvs|]; [|done].
      destruct Hb as (Hr & h' & D' & mm' & A). split; [done|]. exists h', D', mm'. cbn [foldl]. unfold put at 2. cbn [fst snd]. rewrite Et. exact A.
    + rewrite (map_set_eq l k v s1 mm) by (unfold hmap; by rewrite Hm1).
      set (s2 := St (<[l := CMap (<[k := v]> mm)]> (hp s1)) (nxt s1) (froms s1) (tick s1)). cbv beta iota.
      assert (Hi2 : hinv (sels c ++ T) D2 s2 h1).
      { unfold D2. destruct own as [w|]; [destruct Hfill1 as [[HG0|HG0] HT0]; [by apply hinv_own|]; apply hinv_put; [|done|done]|];
        (apply hinv_other; [done|done|done|lia|done]). }
      destruct (Hgoal s2 (<[k := v]> mm) (<[k := t]> tm)) as [Ha Hb]; try done.
      { cbn. apply lookup_insert. }
      { intros k'. destruct (decide (k' = k)) as [->|Hne].
        - rewrite !lookup_insert. by constructor.
        - rewrite !lookup_insert_ne by done. apply Hmm1. }
      { intros x cx Hx Hxl. cbn. by rewrite lookup_insert_ne. }
      split; [done|].
      destruct (all_of (List.map _ cs)) as [kvs|]; [|done].
      destruct Hb as (Hr & h' & D' & mm' & A). split; [done|]. exists h', D', mm'. cbn [foldl]. unfold put at 2. cbn [fst snd]. rewrite Et. exact A.
Qed.
Lemma overlay_nil kvs r : overlay kvs r = [] <-> tmap (overlay kvs r) = ∅.
Proof.
  split; [by intros ->|]. destruct (overlay kvs r) as [|[k v] l]; [done|]. intros E.
  change (tmap ((k, v) :: l)) with (<[k := v]> (tmap l)) in E. apply (f_equal (lookup k)) in E. rewrite lookup_insert, lookup_empty in E. done.
Qed.
Definition fill (l : nat) (q : string) (acts : list act) (m : modifier) : M val :=
  acts' <-- shuffle perm acts ;; save_children W q l acts' input m ;;; finish_obj l.
Lemma fill_ospec s0 h0 own o q l m acts cs T D s h mm kvs : osub own o ->
  Forall2 (oact s0 h0 own o m q) acts cs -> froms s = froms s0 -> h0 ⊆ h -> hinv T D s h -> (forall k, k ∈ cs.*1 -> free (oadd own k o) T D) -> free o T D ->
  NoDup cs.*1 -> NoDup (csels cs) -> (forall w, w ∈ csels cs -> w ∉ T) -> l < nxt s ->
  hp s !! l = Some (CMap mm) -> h !! l = None -> filled own l T -> NoDup kvs.*1 ->
  (forall k, option_Forall2 (repr h) (mm !! k) (tmap kvs !! k)) ->
  let r := fill l q acts m s in
  frx l (csels cs) s r.1 /\
  match (fun r => obj_or_nil (overlay kvs r)) <$> all_of (List.map (fun kc => match kc with (k, c) => pair k <$> oden W doc c m end) cs) with
  | Some t => exists a h' D', r.2 = Ok a /\ h ⊆ h' /\ (forall x, is_Some (h' !! x) -> is_Some (h !! x) \/ x = l \/ nxt s <= x \/ exists w, w ∈ csels cs /\ G w = Some x) /\
      hinv (csels cs ++ T) D' r.1 h' /\ wrote (option_list own ++ csels cs) D D' /\ repr h' a t
  | None => r.2 = Err \/ r.2 = Panic
  end.
Proof.
  intros Hos HF Hfs Hh0 Hi Hfree Hfo Hndk Hnd Hdj Hl Hm Hhl Hfill Hkvs Hmm. unfold fill.
  set (s1 := St (hp s) (nxt s) (froms s) (S (tick s))).
  set (is := perm (tick s) (length acts)).
  set (acts' := omap (fun i => acts !! i) is). set (cs' := omap (fun i => cs !! i) is).
  assert (HF' : Forall2 (oact s0 h0 own o m q) acts' cs') by (by apply omap_Forall2).
  assert (HP : cs' ≡ₚ cs). { unfold cs', is. rewrite (Forall2_length _ _ _ HF). by apply omap_perm. }
  assert (E : (acts' <-- shuffle perm acts ;; save_children W q l acts' input m ;;; finish_obj l) s
    = (save_children W q l acts' input m ;;; finish_obj l) s1) by done.
  rewrite E. clear E.
  assert (Hst1 : step s s1) by (split; [apply Hi|done]).
  assert (Hi1 : hinv T D s1 h) by (eapply hinv_step; [exact Hst1| |exact Hi]; split; [done|]; split; [apply Hi|auto]).
  pose proof (csels_perm _ _ HP) as HPs.
  destruct (children_ospec s0 h0 own o q l m acts' cs' Hos HF' T D s1 h mm (tmap kvs)) as (Hr1 & Hr3); try done.
  { intros k Hk. apply Hfree. by rewrite <- HP. }
  { by rewrite HP. }
  { by rewrite HPs. }
  { intros w Hw. apply Hdj. by rewrite <- HPs. }
  assert (Hfx : frx l (csels cs) s (save_children W q l acts' input m s1).1).
  { destruct Hr1 as (A1 & A2 & A3 & A4). split; [done|]. split; [done|]. split; [done|]. intros x c Hx Hxl Hg. apply A4; [done|done|].
    intros w Hw. apply Hg. by rewrite <- HPs. }
  clear Hr1.
  pose proof (all_of_perm _ _ (Permutation_map (fun kc : string * pitr => pair kc.1 <$> oden W doc kc.2 m) HP)) as Hao.
  assert (Ejd : all_of (List.map (fun kc : string * pitr => match kc with (k, c) => pair k <$> oden W doc c m end) cs) =
     all_of (List.map (fun kc : string * pitr => pair kc.1 <$> oden W doc kc.2 m) cs)).
  { f_equal. apply map_ext. by intros [k c]. }
  rewrite Ejd. clear Ejd.
  unfold Heap.mbind. destruct (save_children W q l acts' input m s1) as [s2 r2]. cbn [fst snd] in *.
  destruct (all_of (List.map _ cs')) as [r'|] eqn:E'; cycle 1.
  { destruct (all_of (List.map _ cs)) as [r|]; [done|]. cbn. destruct Hr3 as [-> | ->]; (split; [done|]); [by left|by right]. }
  destruct (all_of (List.map _ cs)) as [r|] eqn:Er; [|done]. cbn [fmap option_fmap option_map].
  assert (Hkeys : NoDup r.*1).
  { assert (r.*1 = cs.*1) as ->; [|done]. exact (all_of_fmap_fst (fun c => oden W doc c m) cs r Er). }
  destruct Hr3 as (-> & h' & D' & mm' & A1 & A2 & A3 & A4 & A5 & A6).
  assert (Htm : foldl put (tmap kvs) r' = tmap (overlay kvs r)).
  { rewrite overlay_map by done. rewrite !put_all by (done || by rewrite Hao). f_equal. apply list_to_map_proper.
    - apply filter_keys. by rewrite Hao.
    - by rewrite Hao. }
  rewrite Htm in A6. clear Htm.
  assert (A2' : hinv (csels cs ++ T) D' s2 h').
  { eapply hinv_sub; [| |exact A2].
    - intros x Hx. rewrite elem_of_app in Hx |- *. by rewrite <- HPs.
    - intros x Hx. apply (h_taken _ _ _ _ _ _ _ _ _ A2). rewrite elem_of_app in Hx |- *. by rewrite HPs. }
  assert (A3' : wrote (option_list own ++ csels cs) D D').
  { eapply wrote_sub; [|exact A3]. intros x Hx. rewrite elem_of_app in Hx |- *. by rewrite <- HPs. }
  assert (A1' : forall x, is_Some (h' !! x) -> is_Some (h !! x) \/ x = l \/ nxt s <= x \/ exists w, w ∈ csels cs /\ G w = Some x).
  { intros x Hx. destruct (proj2 A1 x Hx) as [?|[?|(w & Hw & ?)]]; [by left|by right; right; left|]. do 3 right. exists w. by rewrite <- HPs. }
  unfold finish_obj, Heap.mbind, mheap.
  assert (Hhm : hmap (hp s2) l = mm') by (unfold hmap; by rewrite A4). rewrite Hhm.
  assert (Hemp : mm' = ∅ <-> overlay kvs r = []).
  { rewrite overlay_nil. split; intros Hem; apply map_empty; intros k; specialize (A6 k); rewrite Hem, lookup_empty in A6; by inversion A6. }
  case_decide as Hem.
  - cbn [mret fst snd]. split; [done|]. exists (VS SNil), h', D'. split; [done|]. split; [apply A1|]. repeat (split; [done|]).
    apply Hemp in Hem. by rewrite Hem.
  - cbn [mret fst snd]. split; [done|]. exists (VMap l), (<[l := CMap mm']> h'), D'. split; [done|].
    assert (Hsub : h' ⊆ <[l := CMap mm']> h') by (by apply insert_subseteq).
    split; [etrans; [apply A1|done]|]. split; [|split; [|split; [done|]]].
    + intros x [c Hx]. destruct (decide (x = l)) as [->|Hne]; [by right; left|]. rewrite lookup_insert_ne in Hx by done. apply A1'. by eexists.
    + apply hinv_show; [done|done| |done]. intros p Hp. unfold filled in Hfill. destruct own as [w|]; [|by destruct (Hfill p)].
      destruct Hfill as [[HGw|HGw] HTw]; [|by destruct (HGw p)]. assert (p = w) as -> by (by eapply (h_inj _ _ _ _ _ _ _ _ _ Hi)). apply elem_of_app. by right.
    + assert (Hr : repr (<[l := CMap mm']> h') (VMap l) (TObj (overlay kvs r))).
      { apply repr_obj. exists l, mm'. split; [done|]. split; [apply lookup_insert|]. split; [by apply overlay_NoDup|].
        intros k. destruct (A6 k) as [x y Hxy|]; constructor. by eapply repr_mono. }
      destruct (overlay kvs r) eqn:Eo; [|done]. exfalso. by apply Hem, Hemp.
Qed.

(** ** the transform of an object *)
Lemma sel_instr {V} (vw : V -> vw V) x v0 v : i_ops x = [] -> jget W vw (i_jpath x) v0 = Some (GV v) ->
  is_nil vw (GV v) = false -> (forall l, vw v <> WArr l) ->
  json_instr W vw x v0 "object" [] = match o_stack W with O => Panic | S _ => Ok (GV v) end.
Proof.
  intros Ho Hg Hn Ha. unfold json_instr. change (apply_mod [] (i_jpath x)) with (i_jpath x). rewrite Hg, Hn.
  unfold convert. destruct (o_stack W) as [|n]; [done|]. cbn [convert_go]. rewrite Hn.
  assert (E : match gview vw (GV v) with WArr _ => False | _ => True end). { cbn. destruct (vw v) eqn:Ev; try done. by eapply Ha. }
  assert (El : convert_leaf W vw "object" (GV v) = (GV v, false)) by done.
  destruct (gview vw (GV v)) eqn:Eg; try done; rewrite El; cbv beta iota; rewrite Hn, Ho; done.
Qed.
Lemma sel_first {V} (vw : V -> vw V) t x v0 r : ti_meth t = MFirst -> json_instr W vw x v0 "object" [] = Ok r ->
  tis_run W vw FJson t [x] v0 "object" [] = (Ok (if is_nil vw r then GS SNil else r), [x]).
Proof. intros Hm Hr. unfold tis_run. cbn [snd fst]. rewrite Hm. cbn [run_first instr_run]. rewrite Hr. cbn [rbind]. by destruct (is_nil vw r). Qed.
Lemma sel_panic {V} (vw : V -> vw V) t x v0 : ti_meth t = MFirst -> json_instr W vw x v0 "object" [] = Panic ->
  tis_run W vw FJson t [x] v0 "object" [] = (Panic, [x]).
Proof. intros Hm Hr. unfold tis_run. cbn [snd fst]. rewrite Hm. cbn [run_first instr_run]. by rewrite Hr. Qed.
Lemma sel_pure dl x w : i_ops x = [] -> Forall (fun k => ident k = true) w -> i_jpath x = path_of (Nm <$> w) -> w ∈ ws ->
  run_ptis W FJson (Some (MFirst, dl, [x])) doc "object" [] =
    match getp w doc with
    | None | Some (TS SNil) => Some (TS SNil)
    | Some v => match o_stack W with O => None | S _ => Some v end
    end.
Proof.
  intros Ho Hid Hp Hw. unfold run_ptis.
  assert (Hg : jget W tview (i_jpath x) doc = GV <$> getp w doc).
  { unfold jget. rewrite Hp, plain_names by done. by rewrite select_getp. }
  destruct (getp w doc) as [v|] eqn:Ev.
  - destruct (is_nil tview (GV v)) eqn:En.
    + assert (Hv : v = TS SNil) by (destruct v as [[]| | | |]; done). subst v.
      rewrite (sel_first tview _ x doc (GS SNil)); [done|done|]. unfold json_instr. change (apply_mod [] (i_jpath x)) with (i_jpath x). rewrite Hg. done.
    + assert (Hj : json_instr W tview x doc "object" [] = match o_stack W with O => Panic | S _ => Ok (GV v) end).
      { apply sel_instr; [done|by rewrite Hg|done|]. intros l Hl. destruct v; try done. by eapply Harr. }
      destruct (o_stack W) as [|n].
      * rewrite (sel_panic tview _ x doc) by done. cbn. by destruct v as [[]| | | |].
      * rewrite (sel_first tview _ x doc (GV v)) by done. rewrite En. cbn. by destruct v as [[]| | | |].
  - rewrite (sel_first tview _ x doc (GS SNil)); [done|done|]. unfold json_instr. change (apply_mod [] (i_jpath x)) with (i_jpath x). by rewrite Hg.
Qed.
Lemma not_inside w d : w ∈ ws -> d ∈ wr -> ~ d `prefix_of` w.
Proof.
  intros Hw Hd Hp. destruct (Hwr d Hd) as (w' & k & Hw' & ->).
  assert (w' `prefix_of` w) by (etrans; [by apply prefix_app_r|exact Hp]).
  destruct (Hws w' w Hw' Hw) as [->|[Ha _]]; [|done]. by apply not_longer in Hp.
Qed.
Lemma distinct_getp w : forall t kvs, distinct_keys t -> getp w t = Some (TObj kvs) -> NoDup kvs.*1.
Proof.
  induction w as [|k w IH]; intros t kvs Hd Hg; cbn [getp] in Hg.
  - injection Hg as ->. apply Hd.
  - destruct t as [| |ks| |]; try done. cbn [member] in Hg. destruct (tmap ks !! k) as [u|] eqn:E; [|done]. eapply IH; [|exact Hg].
    destruct Hd as [_ Hd]. apply tmap_elem in E. clear -Hd E. induction ks as [|[k' t] ks IH]; [by apply elem_of_nil in E|].
    destruct Hd as [H1 H2]. apply elem_of_cons in E as [[= <- <-]|E]; [done|by apply IH].
Qed.

Lemma obj_ospec o T D s h q ts ts' cs acts m : hinv T D s h -> free o T D -> NoDup cs.*1 -> ook ws wr o (PObj q None ts cs) m ->
  tsrel (froms s) ts' ts -> (forall w, w ∈ sels (PObj q None ts cs) -> w ∉ T) ->
  (forall own, Forall (fun kc => ook ws wr (oadd own kc.1 o) kc.2 m) cs -> match own with None => True | Some w => Forall (fun kc => w ++ [kc.1] ∈ wr) cs end ->
    Forall2 (oact s h own o m q) acts cs) ->
  ospec T D s h (obj_json W perm FJson q None ts' acts input m)
    (oden W doc (PObj q None ts cs) m) (sels (PObj q None ts cs)) (fun t v h => repr h v t).
Proof.
  intros Hi Hfree Hnd Hj Hts Hdj Hacts. pose proof (h_ok _ _ _ _ _ _ _ _ _ Hi) as Hs. pose proof (h_sub _ _ _ _ _ _ _ _ _ Hi) as Hh.
  pose proof Hj as (_ & Hnds & _). destruct (ook_children _ _ _ _ _ _ _ _ Hj) as (own & Hown & Hch & Hsel).
  cbn [sels] in Hdj, Hnds |- *. change (List.concat (List.map (fun kc => match kc with (_, c) => sels c end) cs)) with (csels cs) in *.
  rewrite Hsel in *. clear Hsel.
  assert (HFa : Forall2 (oact s h own o m q) acts cs).
  { apply Hacts; [done|]. destruct own as [w|]; [|done]. destruct Hown as (dl & x & _ & _ & _ & _ & _ & _ & _ & H). exact H. }
  clear Hacts Hch Hj. apply NoDup_app in Hnds as (_ & Hndx & Hnds).
  assert (Hos : osub own o).
  { destruct own as [w|]; [|done]. intros k Hk. destruct (Hfree _ Hk) as (_ & w' & k' & E & HT). apply app_inj_tail in E as [<- _].
    apply (Hdj w); [by left|done]. }
  set (T1 := option_list own ++ T).
  assert (Hown_ws : forall w, own = Some w -> w ∈ ws) by (intros w ->; destruct Hown as (dl & x & _ & _ & H & _); done).
  assert (HT1 : forall s' h', hinv T D s' h' -> hinv T1 D s' h').
  { intros s' h' Hi'. unfold T1. destruct own as [w|]; [|done]. apply hinv_take; [done|by apply Hown_ws]. }
  assert (HoT : free o T1 D).
  { intros d Hd. destruct (Hfree d Hd) as (A & w & k & B & C). split; [done|]. exists w, k. split; [done|]. unfold T1. apply elem_of_app. by right. }
  assert (Hfree1 : forall k, k ∈ cs.*1 -> free (oadd own k o) T1 D).
  { intros k Hk d Hd. destruct own as [w|]; cbn [oadd] in Hd; [|by apply HoT]. apply elem_of_cons in Hd as [->|Hd]; [|by apply HoT]. split.
    - intros Hc. destruct (h_done _ _ _ _ _ _ _ _ _ Hi _ Hc) as (_ & w' & k' & HT & _ & E). apply app_inj_tail in E as [<- _].
      apply (Hdj w); [by left|done].
    - exists w, k. split; [done|]. by left. }
  assert (Hdj1 : forall w, w ∈ csels cs -> w ∉ T1).
  { intros w Hw. unfold T1. rewrite elem_of_app. intros [Hc|Hc]; [by eapply Hndx|]. apply (Hdj w); [apply elem_of_app; by right|done]. }
  assert (Hreord : forall D' s' h', hinv (csels cs ++ T1) D' s' h' -> hinv ((option_list own ++ csels cs) ++ T) D' s' h').
  { intros D' s' h' H. eapply hinv_sub; [| |exact H]; unfold T1 in *.
    - intros x Hx. repeat rewrite elem_of_app in Hx; repeat rewrite elem_of_app; tauto.
    - intros x Hx. apply (h_taken _ _ _ _ _ _ _ _ _ H). repeat rewrite elem_of_app in Hx; repeat rewrite elem_of_app; tauto. }
  (* a new map *)
  assert (Hnew : forall s1 h1, step s s1 -> vis s s1 h h1 ->
    ospec T D s h (fun _ => (l <-- alloc (CMap ∅) ;; fill l q acts m) s1)
     ((fun r => obj_or_nil (overlay [] r)) <$> all_of (List.map (fun kc => match kc with (k, c) => pair k <$> oden W doc c m end) cs))
     (option_list own ++ csels cs) (fun t v h => repr h v t)).
  { intros s1 h1 Hst1 Hv1. pose proof (hinv_step _ _ _ _ _ _ _ _ _ _ _ Hst1 Hv1 Hi) as Hi1.
    pose proof (h_ok _ _ _ _ _ _ _ _ _ Hi1) as Hs1. set (l := nxt s1).
    assert (Hfree' : hp s1 !! l = None).
    { destruct (hp s1 !! l) eqn:E; [|done]. assert (l < nxt s1) by (apply Hs1; by eexists). unfold l in *. lia. }
    set (s2 := St (<[l := CMap ∅]> (hp s1)) (S l) (froms s1) (tick s1)).
    assert (E : (l <-- alloc (CMap ∅) ;; fill l q acts m) s1 = fill l q acts m s2) by done.
    unfold ospec. rewrite E. clear E.
    assert (Hhl : h1 !! l = None) by (eapply lookup_weaken_None; [exact Hfree'|apply Hi1]).
    assert (HGl : forall p, G p <> Some l).
    { intros p Hp. pose proof (h_lt _ _ _ _ _ _ _ _ _ _ _ Hi1 Hp). unfold l in *. lia. }
    assert (Hi2 : hinv T D s2 h1) by (apply hinv_other; [done|done|done|unfold l; lia|unfold l; lia]).
    destruct (fill_ospec s h own o q l m acts cs T1 D s2 h1 ∅ []) as (Hr1 & Hr3); try done.
    { cbn. apply Hst1. }
    { apply Hv1. }
    { by apply HT1. }
    { cbn. lia. }
    { cbn. apply lookup_insert. }
    { unfold filled. destruct own as [w|]; [|done]. split; [by right|]. unfold T1. by left. }
    { constructor. }
    { intros k. unfold tmap. cbn. rewrite !lookup_empty. constructor. }
    assert (Hnx : nxt s <= nxt s1) by apply Hst1. split.
    - destruct Hr1 as (A1 & A2 & A3 & A4). cbn [nxt froms hp s2] in *. split; [done|]. split; [lia|]. split; [rewrite A3; apply Hst1|].
      intros x c Hx Hg. assert (x < nxt s) by (apply Hs; by eexists). apply A4; [|unfold l; lia|].
      + rewrite lookup_insert_ne by (unfold l; lia). eapply lookup_weaken; [exact Hx|apply Hst1].
      + intros w Hw. apply Hg, elem_of_app. by right.
    - destruct (_ <$> all_of _) as [t|]; [|done]. destruct Hr3 as (a & h' & D' & Ha & B1 & B2 & B3 & B4 & B5). exists a, h', D'. split; [done|].
      split; [|split; [by apply Hreord|split; [done|done]]]. split; [etrans; [apply Hv1|done]|]. intros x Hx.
      destruct (B2 x Hx) as [H|[->|[H|(w & Hw & H)]]].
      + destruct (proj2 (proj2 Hv1) x H); [by left|by right; left].
      + right. left. unfold l. lia.
      + right. left. cbn [nxt s2] in H. unfold l in H. lia.
      + right. right. exists w. split; [apply elem_of_app; by right|done]. }
  cbn [oden]. destruct own as [w|]; cycle 1.
  { subst ts. destruct ts'; [done|]. change (run_ptis W FJson None doc "object" m) with (Some (TS SNil)).
    change (Some (TS SNil) ≫= ?f) with (f (TS SNil)). cbv beta. change (base_of (TS SNil)) with (Some (@nil (string * tree))).
    change (Some [] ≫= ?f) with (f []). cbv beta.
    exact (Hnew s h (step_refl s Hs) (vis_refl s h Hh)). }
  destruct Hown as (dl & x & -> & Hops & Hw & Hwne & Hid & Hpath & -> & Hwrs). destruct ts' as [t'|]; [|done].
  pose proof (sel_pure dl x w Hops Hid Hpath Hw) as Hpure.
  assert (HwT : w ∉ T) by (apply Hdj; by left).
  assert (HwD : forall d, d ∈ D -> ~ d `prefix_of` w).
  { intros d Hd. apply not_inside; [done|]. by apply (h_done _ _ _ _ _ _ _ _ _ Hi). }
  pose proof (hinv_select ws wr G input doc T D s h w Hi HwD) as Hsl. destruct (G w) as [l|] eqn:EG.
  - (* a map of the document *)
    destruct Hsl as (Hsl & kvs & _ & Hgp). rewrite Hgp in Hpure.
    destruct (h_node _ _ _ _ _ _ _ _ _ Hi w l EG) as (mm & kvs' & Hl & Hgp' & Hmem). rewrite Hgp in Hgp'. injection Hgp' as <-.
    destruct Hts as (Hme & _ & Hfr).
    assert (Hj : json_instr W (view (hp s)) x input "object" [] = match o_stack W with O => Panic | S _ => Ok (GV (VMap l)) end).
    { apply sel_instr; [done| |done|done]. unfold jget. rewrite Hpath, plain_names by done. by rewrite Hsl. }
    assert (Erun : run_opt_tis W FJson (Some t') input "object" [] s = (s, match o_stack W with O => Panic | S _ => Ok (VMap l) end)).
    { cbn [run_opt_tis]. unfold run_tis. rewrite Hfr. change (default [] (Some [x])) with [x]. destruct (o_stack W).
      - rewrite (sel_panic _ t' x input Hme Hj). rewrite (insert_id (froms s)) by done. by destruct s.
      - rewrite (sel_first _ t' x input _ Hme Hj). rewrite (insert_id (froms s)) by done. cbn. by destruct s. }
    rewrite Hpure. unfold ospec, obj_json, Heap.mbind. rewrite Erun. destruct (o_stack W) as [|n].
    { cbn. split; [apply step_frs; by apply step_refl|by right]. }
    change (Some (TObj kvs) ≫= ?f) with (f (TObj kvs)). cbv beta. change (base_of (TObj kvs)) with (Some kvs). change (Some kvs ≫= ?f) with (f kvs). cbv beta.
    change (mret l s) with (s, Ok l). cbv beta iota.
    match goal with |- context[frs G _ s ?e.1] => change e with (fill l q acts [] s) end.
    destruct (fill_ospec s h (Some w) o q l [] acts cs T1 D s h mm kvs) as (Hr1 & Hr3); try done.
    { by apply HT1. }
    { by eapply h_lt. }
    { by eapply (h_hid _ _ _ _ _ _ _ _ _ Hi). }
    { split; [by left|]. unfold T1. by left. }
    { by eapply distinct_getp. }
    { intros k. assert (HkD : w ++ [k] ∉ D).
      { intros Hc. destruct (h_done _ _ _ _ _ _ _ _ _ Hi _ Hc) as (_ & w' & k' & HT & _ & E). apply app_inj_tail in E as [<- _]. done. }
      specialize (Hmem k HkD). destruct (G (w ++ [k])) eqn:Ek; [|done]. exfalso.
      apply (h_dom _ _ _ _ _ _ _ _ _ Hi) in Ek. apply Exists_exists in Ek as (w' & Hw' & Hp).
      assert (w `prefix_of` w') by (etrans; [by apply prefix_app_r|exact Hp]).
      destruct (Hws w w' Hw Hw') as [->|[Ha _]]; [|done]. by apply not_longer in Hp. }
    split.
    + destruct Hr1 as (A1 & A2 & A3 & A4). split; [done|]. split; [done|]. split; [done|]. intros y c Hy Hg. apply A4; [done| |].
      * intros ->. by apply (Hg w ltac:(by left)).
      * intros w' Hw'. apply Hg, elem_of_app. by right.
    + destruct (all_of (List.map _ cs)) as [rr|]; cbn [fmap option_fmap option_map] in Hr3 |- *; [|exact Hr3]. destruct Hr3 as (a & h' & D' & Ha & B1 & B2 & B3 & B4 & B5). exists a, h', D'. split; [done|].
      split; [|split; [by apply Hreord|split; [done|done]]]. split; [done|]. intros y Hy.
      destruct (B2 y Hy) as [H|[->|[H|(w' & Hw' & H)]]]; [by left| |by right; left|].
      * right. right. exists w. split; [by left|done].
      * right. right. exists w'. split; [apply elem_of_app; by right|done].
  - (* anything else *)
    assert (Hrun : spec s h (run_opt_tis W FJson (Some t') input "object" []) (run_ptis W FJson (Some (MFirst, dl, [x])) doc "object" []) (fun t v h => repr h v t)).
    { eapply run_opt_gen; [done|exact Hts|done|]. intros y Hy. apply elem_of_list_singleton in Hy as ->.
      change (apply_mod [] (i_jpath x)) with (i_jpath x). unfold jget. rewrite Hpath, plain_names by done.
      destruct Hsl; cbn; constructor. by constructor. }
    destruct Hrun as [Hst Hrun].
    assert (Hrest : forall (X : option (list (string * tree)) -> option tree), X None = None -> (forall s' h' t v, run_ptis W FJson (Some (MFirst, dl, [x])) doc "object" [] = Some t ->
      (run_opt_tis W FJson (Some t') input "object" [] s) = (s', Ok v) -> vis s s' h h' -> repr h' v t ->
      ospec T D s h (fun _ => (l <-- (match v with VS SNil => alloc (CMap ∅) | VMap l => mret l | _ => mfail end) ;; fill l q acts []) s') (X (base_of t)) ([w] ++ csels cs) (fun t v h => repr h v t)) ->
      ospec T D s h (obj_json W perm FJson q None (Some t') acts input []) (run_ptis W FJson (Some (MFirst, dl, [x])) doc "object" [] ≫= fun v => X (base_of v)) ([w] ++ csels cs) (fun t v h => repr h v t)).
    { intros X HX H.
      assert (E : obj_json W perm FJson q None (Some t') acts input [] s = let '(s', r) := run_opt_tis W FJson (Some t') input "object" [] s in
        match r with
        | Ok v => (l <-- (match v with VS SNil => alloc (CMap ∅) | VMap l => mret l | _ => mfail end) ;; fill l q acts []) s'
        | Err => (s', Err)
        | Panic => (s', Panic)
        end) by done.
      unfold ospec. rewrite E. clear E.
      destruct (run_opt_tis W FJson (Some t') input "object" [] s) as [s' r'] eqn:Er. cbn [fst snd] in *.
      destruct (run_ptis W FJson (Some (MFirst, dl, [x])) doc "object" []) as [t|].
      - destruct Hrun as (v & h' & -> & Hv & Hr). change (Some t ≫= ?f) with (f t). cbv beta. exact (H s' h' t v eq_refl eq_refl Hv Hr).
      - change (None ≫= ?f) with (@None tree). cbv iota. split; [|destruct Hrun as [-> |[_ ->]]; [by left|by right]].
        apply step_frs. by destruct Hrun as [-> |[_ ->]]. }
    change (oden W doc (PObj q None (Some (MFirst, dl, [x])) cs) []) with
      (run_ptis W FJson (Some (MFirst, dl, [x])) doc "object" [] ≫= fun v => (fun b => b ≫= fun kvs => (fun r => obj_or_nil (overlay kvs r)) <$>
        all_of (List.map (fun kc => match kc with (k, c) => pair k <$> oden W doc c [] end) cs)) (base_of v)).
    apply (Hrest (fun b => b ≫= fun kvs => (fun r => obj_or_nil (overlay kvs r)) <$>
        all_of (List.map (fun kc => match kc with (k, c) => pair k <$> oden W doc c [] end) cs))); [done|].
    intros s' h' t v Ht Er Hv Hr. rewrite Er in Hst. cbn [fst] in Hst.
    assert (Hno : forall kvs, t <> TObj kvs).
    { intros kvs ->. rewrite Hpure in Ht. destruct (getp w doc) as [u|] eqn:Eu; [|done]. 
      assert (u = TObj kvs) as -> by (destruct u as [[]| | | |], (o_stack W); congruence).
      assert (is_Some (G w)) as [? Hc]; [|congruence]. apply (h_full _ _ _ _ _ _ _ _ _ Hi); [|by eexists].
      apply Exists_exists. exists w. done. }
    assert (Hfail : base_of t = None -> (forall s'', (match v with VS SNil => alloc (CMap ∅) | VMap l => mret l | _ => mfail end) s'' = (s'', Err)) ->
       ospec T D s h (fun _ => (l <-- (match v with VS SNil => alloc (CMap ∅) | VMap l => mret l | _ => mfail end) ;; fill l q acts []) s')
         (base_of t ≫= fun kvs => (fun r => obj_or_nil (overlay kvs r)) <$> all_of (List.map (fun kc => match kc with (k, c) => pair k <$> oden W doc c [] end) cs))
         ([w] ++ csels cs) (fun t v h => repr h v t)).
    { intros -> E. unfold ospec, Heap.mbind. rewrite E. cbn. split; [by apply step_frs|by left]. }
    destruct t as [sc|its|kvs|n|ns].
    + apply repr_s in Hr as ->. destruct sc; try (by apply Hfail). exact (Hnew s' h' Hst Hv).
    + apply repr_arr in Hr as (a & n & b & -> & _). by apply Hfail.
    + by destruct (Hno kvs).
    + apply repr_node in Hr as ->. by apply Hfail.
    + apply repr_nodes in Hr as ->. by apply Hfail.
Qed.

(** ** the theorem *)
Theorem exec_oden p : wf_paths p -> forall o i T D s h m, ook ws wr o p m -> irel h (froms s) i p -> hinv T D s h -> free o T D ->
  (forall w, w ∈ sels p -> w ∉ T) ->
  ospec T D s h (exec W perm FJson i input m) (oden W doc p m) (sels p) (fun t v h => repr h v t).
Proof.
  induction p as [q jt d ts|q d ts cs IH|q d ts c IH] using pitr_ind'; intros Hwf o i T D s h m Hj Hi Hinv Hfree Hdj;
    destruct i as [q' jt' d' ts'|q' d' ts' cs'|q' d' ts' c']; try done.
  - cbn [irel] in Hi. destruct Hi as (-> & -> & Hd & Hts). cbn [exec oden sels]. apply ospec_spec; [done|]. by eapply scal_ospec.
  - cbn [irel] in Hi. destruct Hi as (-> & Hts & Hdd & Hcs).
    pose proof Hj as (-> & _ & _). cbn [wf_paths] in Hwf. destruct Hwf as [Hnd Hwf]. destruct d'; [done|].
    cbn [exec].
    set (acts := List.map (fun kc : string * itr => let '(_, c) := kc in (it_path c, exec W perm FJson c)) cs').
    apply (obj_ospec o); [done|done|done|done|done|done|].
    unfold acts. clear acts Hnd Hts Hdd Hj Hdj. intros own. revert cs' Hcs. induction cs as [|[k c] cs IHc]; intros [|[k' c'] cs'] Hcs Hch Hown; try done; cbn [List.map]; [constructor|].
    destruct Hcs as [[-> Hc] Hcs]. inversion Hch as [|? ? Hj1 Hj2]; subst. inversion IH as [|? ? IH1 IH2]; subst.
    destruct Hwf as [(Hn & Hpath & Hwc) Hwf]. constructor; [|apply IHc; [done|done|done|done|]].
    2: { destruct own; [|done]. by inversion Hown. }
    split; [|split; [|split; [|split]]]; cbn [fst snd] in *; [by rewrite (irel_path _ _ _ _ Hc)|done|done| |].
    + intros Hj' T' D' s' h' Hf Hsub Hi' Hfree' Hdj'. apply (IH1 Hwc (oadd own k o)); [done| |done|done|done].
      rewrite Hf. by eapply irel_mono.
    + destruct own; [|done]. by inversion Hown.
  - cbn [irel] in Hi. destruct c' as [c'|]; [|done]. destruct Hi as (-> & Hts & Hd & Hc). destruct Hwf as [_ Hwf].
    pose proof Hj as (Hcs & -> & -> & _). destruct d'; [done|]. destruct ts'; [done|].
    cbn [exec sels]. rewrite Hcs. change (oden W doc (PArr q None None c) m) with (oarr W doc q (oden W doc c) m).
    apply (arr_ospec o); [done|done|done|]. intros m' Hj' T' D' s' h' Hf Hsub Hi' Hfree' Hdj'. apply (IH Hwf o); [done| |done|done|done].
    rewrite Hf. by eapply irel_mono.
Qed.
End exec.

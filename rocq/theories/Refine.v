(** The code computes the pure reading of the transformers of class [pure], whatever the iteration
    order, without changing anything that existed before. *)
From stdpp Require Import strings list gmap.
From Coq Require Import Ascii ZArith Lia.
From Verif Require Import GoStr GoStrL Val Conv Instr Heap Den Param HeapL.

Lemma pitr_ind' (P : pitr -> Prop) :
  (forall q jt d ts, P (PScal q jt d ts)) ->
  (forall q d ts cs, Forall (fun kc => P kc.2) cs -> P (PObj q d ts cs)) ->
  (forall q d ts c, P c -> P (PArr q d ts c)) -> forall p, P p.
Proof.
  intros HS HO HA. fix IH 1. intros [q jt d ts|q d ts cs|q d ts c]; [apply HS| |apply HA, IH].
  apply HO. induction cs as [|[k c] cs IHc]; constructor; [apply IH|apply IHc].
Qed.

(** the transform section of a node and its pure reading *)
Definition tsrel (fr : gmap nat (list instr)) (ts : option tis) (pt : option ptis) : Prop :=
  match ts, pt with
  | None, None => True
  | Some t, Some (me, delim, from) => ti_meth t = me /\ ti_delim t = delim /\ fr !! ti_id t = Some from
  | _, _ => False
  end.
Fixpoint irel (h : gmap nat cell) (fr : gmap nat (list instr)) (i : itr) (p : pitr) {struct p} : Prop :=
  match p, i with
  | PScal q jt d ts, IScal q' jt' d' ts' => q' = q /\ jt' = jt /\ repr h d' d /\ tsrel fr ts' ts
  | PObj q d ts cs, IObj q' d' ts' cs' =>
    q' = q /\ tsrel fr ts' ts /\
    match d, d' with
    | None, None => True
    | Some kvs, Some a => repr h (VMap a) (TObj kvs)
    | _, _ => False
    end /\
    (fix all (cs : list (string * pitr)) (cs' : list (string * itr)) {struct cs} : Prop :=
       match cs, cs' with
       | [], [] => True
       | (k, c) :: cs, (k', c') :: cs' => (k' = k /\ irel h fr c' c) /\ all cs cs'
       | _, _ => False
       end) cs cs'
  | PArr q d ts c, IArr q' d' ts' (Some c') =>
    q' = q /\ tsrel fr ts' ts /\
    match d, d' with
    | None, None => True
    | Some l, Some (a, n) => repr h (VArr a n) (TArr l)
    | _, _ => False
    end /\ irel h fr c' c
  | _, _ => False
  end.
Lemma irel_mono h h' fr i p : h ⊆ h' -> irel h fr i p -> irel h' fr i p.
Proof.
  intros Hsub. revert i. induction p as [q jt d ts|q d ts cs IH|q d ts c IH] using pitr_ind'; intros i; destruct i; cbn [irel]; try done.
  - intros (? & ? & ? & ?). repeat split; try done. by eapply repr_mono.
  - intros (-> & Hts & Hd & Hall). split; [done|]. split; [done|].
    split; [destruct d, dflt; try done; by eapply repr_mono|].
    revert children Hall. induction cs as [|[k c] cs IHc]; intros [|[k' c'] cs'] Hall; try done.
    destruct Hall as [[-> Hc] Hall]. inversion IH; subst. split; [split; [done|by apply H1]|]. by apply IHc.
  - destruct child; [|done]. intros (-> & Hts & Hd & Hc). split; [done|]. split; [done|].
    split; [|by apply IH]. destruct d, dflt as [[a n]|]; try done. by eapply repr_mono.
Qed.
Lemma irel_path h fr i p : irel h fr i p -> it_path i = p_path p.
Proof. destruct p, i; cbn [irel]; try done; [by intros (? & _)|by intros (? & _)|destruct child; [by intros (? & _)|done]]. Qed.

Lemma spec_mheap {N : wild} {B U} s h (k : gmap nat cell -> M B) (o : option U) (Q : U -> B -> gmap nat cell -> Prop) :
  spec s h (k (hp s)) o Q -> spec s h (mbind mheap k) o Q.
Proof. done. Qed.
Lemma spec_lift_ok {N : wild} {A T} s h (c : M A) (o : option T) (Q : T -> A -> gmap nat cell -> Prop) s1 :
  hp s1 = hp s -> nxt s1 = nxt s -> froms s1 = froms s -> spec s1 h c o Q -> (c s1 = c s) -> spec s h c o Q.
Proof.
  intros E1 E2 E3 [Hst Hc] E. unfold spec, step, vis in *. rewrite E in *. rewrite E1, E2, E3 in *. done.
Qed.

(** ** all_of *)
Lemma all_of_perm {A} (l l' : list (option A)) : l ≡ₚ l' ->
  match all_of l, all_of l' with
  | Some a, Some b => a ≡ₚ b
  | None, None => True
  | _, _ => False
  end.
Proof.
  induction 1 as [|x l l' HP IH|x y l|l1 l2 l3 H1 IH1 H2 IH2]; cbn.
  - constructor.
  - destruct x as [a|]; cbn; [|done]. destruct (all_of l), (all_of l'); cbn; try done. by constructor.
  - destruct x as [a|], y as [b|]; cbn; try done; destruct (all_of l); cbn; try done. constructor.
  - destruct (all_of l1), (all_of l2), (all_of l3); try done. by etrans.
Qed.
Lemma all_of_fmap_fst {A} (f : A -> option tree) (l : list (string * A)) r :
  all_of (List.map (fun kd => pair kd.1 <$> f kd.2) l) = Some r -> r.*1 = l.*1.
Proof.
  revert r. induction l as [|[k a] l IH]; cbn; intros r.
  - by intros [= <-].
  - destruct (f a) as [t|]; cbn; [|done]. destruct (all_of _) as [r'|] eqn:E; cbn; [|done].
    intros [= <-]. cbn. f_equal. by apply IH.
Qed.

(** ** crashes *)
(** a transform section does not crash on the inputs in [I] *)
Definition calm_ts (W : oracles) (f : fmt) (I : tree -> modifier -> Prop) (ft : string) (ts : option ptis) : Prop :=
  match ts with
  | None => True
  | Some (me, delim, from) => forall it m, I it m -> (tis_run W tview f (Tis 0 me delim) from it ft m).1 <> Panic
  end.
Fixpoint calm (W : oracles) (f : fmt) (I : tree -> modifier -> Prop) (p : pitr) : Prop :=
  match p with
  | PScal q jt d ts =>
    calm_ts W f I jt ts /\
    (f = FJson -> forall it m g, I it m -> jget W tview (apply_mod m q) it = Some g -> convert W tview jt g <> None)
  | PObj _ _ ts cs =>
    calm_ts W f I "object" ts /\
    (fix all (cs : list (string * pitr)) : Prop :=
       match cs with [] => True | (_, c) :: cs => calm W f I c /\ all cs end) cs
  | PArr _ _ ts c => calm_ts W f I "array" ts /\ calm W f I c
  end.

(** ** saving a member *)

Section refine.
Context (W : oracles) (HW : jpath_parametric W) (f : fmt).
Context {N : wild} (I : tree -> modifier -> Prop) (HI : f = FXml -> forall it m n, I it m -> I (TNode n) m)
  (HM : forall it m q i, I it m -> I it (path_replace (q +:+ "[*]") (q +:+ idx_str i) m)).
Context (perm : nat -> nat -> list nat) (Hperm : forall t n, perm t n ≡ₚ seq 0 n).

Lemma save_member l q k v : name_ok k ->
  save_in_tree W l (replace1 (q +:+ "." +:+ k) q "$") v = if vnil v then mret tt else map_set l k v.
Proof.
  intros (Hd & Hb & _). unfold save_in_tree. destruct (vnil v); [done|].
  rewrite replace1_prefix.
  change "." with (chr "."%char) in Hd |- *. change "[" with (chr "["%char) in Hb.
  change (chr "."%char +:+ k) with (String "."%char k). rewrite split_chr_app by done.
  rewrite split_chr_free by (rewrite free_of_str_in, Hd; done).
  cbn [save_splits]. rewrite bool_decide_true by done. cbn.
  unfold save_leaf. change "[" with (chr "["%char).
  rewrite split_chr_free by (rewrite free_of_str_in, Hb; done). done.
Qed.

(** ** transform sections *)
Lemma run_tis_spec s h t me delim from input it ft m : stok s -> h ⊆ hp s ->
  tsrel (froms s) (Some t) (Some (me, delim, from)) -> pure_ts (Some (me, delim, from)) ->
  N \/ calm_ts W f I ft (Some (me, delim, from)) -> repr h input it -> I it m ->
  spec s h (run_tis W f t input ft m) (run_ptis W f (Some (me, delim, from)) it ft m)
       (fun t v h => repr h v t).
Proof.
  intros Hs Hh (Hme & Hde & Hfr) Hpure Hcalm Hin Hit.
  pose proof (tis_run_rel W HW (repr h) (view (hp s)) tview (fun v t => repr_view_sub h (hp s) v t Hh)
    f t (Tis 0 me delim) from input it ft m Hin Hme Hde) as Hrel.
  unfold spec, run_tis. rewrite Hfr. change (default [] (Some from)) with from.
  assert (Hfrom : (tis_run W (view (hp s)) f t from input ft m).2 = from).
  { unfold tis_run. cbn. rewrite Hme. destruct me; try done. cbn in Hpure.
    destruct from as [|x [|]]; cbn in *; try done. lia. }
  destruct (tis_run W (view (hp s)) f t from input ft m) as [r from'] eqn:Et. cbn [fst snd] in Hfrom, Hrel. subst from'.
  rewrite (insert_id (froms s)) by done.
  assert (E : St (hp s) (nxt s) (froms s) (tick s) = s) by (by destruct s). rewrite E. clear E.
  assert (Hcalm' : N \/ (tis_run W tview f (Tis 0 me delim) from it ft m).1 <> Panic).
  { destruct Hcalm as [|Hcalm]; [by left|right]. by apply Hcalm. }
  unfold run_ptis. destruct Hrel as [g gt Hg| |].
  - exact (inject_spec g gt s h Hs Hh Hg).
  - split; [by apply step_refl|]. by left.
  - split; [by apply step_refl|]. destruct Hcalm'; [by right|done].
Qed.
Lemma run_opt_spec s h ts pt input it ft m : stok s -> h ⊆ hp s ->
  tsrel (froms s) ts pt -> pure_ts pt -> N \/ calm_ts W f I ft pt -> repr h input it -> I it m ->
  spec s h (run_opt_tis W f ts input ft m) (run_ptis W f pt it ft m) (fun t v h => repr h v t).
Proof.
  intros Hs Hh Hts Hpure Hcalm Hin Hit. destruct ts as [t|], pt as [[[me delim] from]|]; try done.
  - by apply run_tis_spec.
  - by apply spec_ret.
Qed.
Lemma heap_get_spec s h path input it : stok s -> h ⊆ hp s -> repr h input it ->
  spec s h (heap_get W path input) (Some (jget W tview path it))
       (fun o o' h => option_Forall2 (grel (repr h)) o' o).
Proof.
  intros Hs Hh Hin. unfold heap_get. apply spec_mheap. apply spec_ret; [done|done|].
  apply (jget_rel W (repr h)); [done| |done]. intros a b. by apply repr_view_sub.
Qed.

(** ** scalars *)
Lemma scal_spec s h q jt d d' ts ts' input it m : stok s -> h ⊆ hp s ->
  tsrel (froms s) ts' ts -> pure_ts ts -> N \/ calm W f I (PScal q jt d ts) ->
  repr h d' d -> repr h input it -> I it m ->
  spec s h (match f with FJson => scal_json W f q jt d' ts' input m | FXml => scal_xml W f jt d' ts' input m end)
       (den_scal W f q jt d ts it m) (fun t v h => repr h v t).
Proof.
  intros Hs Hh Hts Hpure Hcalm Hd Hin Hit. unfold den_scal.
  assert (Hcalm1 : N \/ calm_ts W f I jt ts) by (destruct Hcalm as [|[? _]]; auto).
  assert (Hcalm2 : N \/ (f = FJson -> forall g, jget W tview (apply_mod m q) it = Some g -> convert W tview jt g <> None)).
  { destruct Hcalm as [|[_ Hc]]; [by left|right]. intros Hf g. by apply Hc. }
  clear Hcalm.
  assert (Hrun : spec s h (run_opt_tis W f ts' input jt m) (run_ptis W f ts it jt m) (fun t v h => repr h v t))
    by (by apply run_opt_spec).
  destruct f.
  - unfold scal_json. eapply spec_bind; [exact Hrun|]. intros t s1 v h1 _ Hst1 Hv1 Hr.
    rewrite (repr_vnil _ _ _ Hr). destruct (negb (tnil t)); [apply spec_ret; [apply Hst1|apply Hv1|done]|].
    eapply spec_bind1.
    { apply heap_get_spec; [apply Hst1|apply Hv1|]. eapply repr_mono; [apply Hv1|done]. }
    intros s2 raw h2 Hst2 Hv2 Hraw.
    assert (Hd2 : repr h2 d' d) by (eapply repr_mono; [apply Hv2|]; eapply repr_mono; [apply Hv1|done]).
    assert (Hcalm3 : N \/ forall gt, jget W tview (apply_mod m q) it = Some gt -> convert W tview jt gt <> None).
    { destruct Hcalm2; auto. }
    destruct Hraw as [g gt Hg|]; [|apply spec_ret; [apply Hst2|apply Hv2|done]].
    assert (Hcalm : N \/ convert W tview jt gt <> None) by (destruct Hcalm3; auto).
    apply spec_mheap.
    assert (Hview : forall a b, repr h2 a b -> vrel (repr h2) (view (hp s2) a) (tview b)).
    { intros a b. apply repr_view_sub. apply Hv2. }
    destruct (convert_rel W (repr h2) (view (hp s2)) tview Hview jt g gt Hg) as [[nv e] [nv' e'] [Hnv He]|];
      [|destruct Hcalm; [apply spec_panic; [done|apply Hst2]|done]].
    cbn in Hnv, He. subst e'.
    rewrite (is_nil_rel (repr h2) (view (hp s2)) tview Hview _ _ Hnv).
    destruct (is_nil tview nv'); [apply spec_ret; [apply Hst2|apply Hv2|done]|].
    destruct e; [apply spec_fail; apply Hst2|].
    apply inject_spec; [apply Hst2|apply Hv2|done].
  - unfold scal_xml. eapply spec_bind; [exact Hrun|]. intros t s1 v h1 _ Hst1 Hv1 Hr.
    rewrite (repr_vnil _ _ _ Hr).
    destruct (negb (tnil t)); (apply spec_ret; [apply Hst1|apply Hv1|]); [done|].
    eapply repr_mono; [apply Hv1|done].
Qed.

(** ** arrays *)
Lemma as_slice_spec s h v t : stok s -> h ⊆ hp s -> repr h v t ->
  spec s h (as_slice v) (Some (match t with TArr l => l | _ => [t] end))
    (fun ts sl h => repr h (slice_val sl) (TArr ts)).
Proof.
  intros Hs Hh Hr.
  assert (Hone : (forall l, t <> TArr l) -> spec s h (l <-- alloc (CArr [v]) ;; mret (Some l, 1)) (Some [t])
    (fun ts sl h => repr h (slice_val sl) (TArr ts))).
  { intros _.
    apply spec_alloc_bind; [done|done|].
    intros s' h' Hst Hv Hl. apply spec_ret; [apply Hst|apply Hv|].
    apply repr_arr. exists (nxt s), 1, [v]. split; [done|]. split; [done|]. split; [done|].
    constructor; [|constructor]. eapply repr_mono; [apply Hv|done]. }
  destruct t as [sc|ts|kvs|n|l]; unfold as_slice.
  - leaf Hr. by apply Hone.
  - apply repr_arr in Hr as Hr'. destruct Hr' as (l & n & b & -> & _). by apply spec_ret.
  - apply repr_obj in Hr as Hr'. destruct Hr' as (l & m & -> & _). by apply Hone.
  - leaf Hr. by apply Hone.
  - leaf Hr. by apply Hone.
Qed.
Lemma spec_eq {A T} s h (c : M A) (o o' : option T) (Q : T -> A -> gmap nat cell -> Prop) :
  spec s h c o Q -> o = o' -> spec s h c o' Q.
Proof. by intros ? <-. Qed.

Lemma items_spec s h i item (dens : list (option tree)) : stok s -> h ⊆ hp s ->
  (forall j d, dens !! j = Some d -> forall s' h', step s s' -> vis s s' h h' ->
     spec s' h' (item (i + j)) d (fun t v h => repr h v t)) ->
  spec s h (items (length dens) i item) (filter (fun t => tnil t = false) <$> all_of dens)
    (fun ts vs h => Forall2 (repr h) vs ts).
Proof.
  revert s h i. induction dens as [|d dens IH]; intros s h i Hs Hh Hitem; cbn [length items all_of].
  - apply spec_ret; [done|done|constructor].
  - eapply spec_eq with (o := d ≫= fun t => (filter (fun t => tnil t = false) <$> all_of dens) ≫=
      fun ts => Some (if tnil t then ts else t :: ts)).
    2:{ destruct d as [t|]; cbn; [|done]. destruct (all_of dens); cbn; [|done]. by destruct (tnil t). }
    eapply spec_bind.
    { specialize (Hitem 0 d eq_refl s h (step_refl _ Hs) (vis_refl _ _ Hh)).
      rewrite Nat.add_0_r in Hitem. exact Hitem. }
    intros t s1 v h1 _ Hst1 Hv1 Hr. cbn beta.
    eapply spec_bind.
    { apply IH; [apply Hst1|apply Hv1|]. intros j d' Hj s' h' Hst' Hv'.
      replace (S i + j) with (i + S j) by lia. apply (Hitem (S j) d' Hj).
      - by eapply step_trans.
      - eapply vis_trans; [apply Hst1|done|done]. }
    intros ts s2 vs h2 _ Hst2 Hv2 Hvs. apply spec_ret; [apply Hst2|apply Hv2|].
    rewrite (repr_vnil _ _ _ Hr). destruct (tnil t); [done|]. constructor; [|done].
    eapply repr_mono; [apply Hv2|done].
Qed.
Lemma new_array_spec s h n vs ts : stok s -> h ⊆ hp s -> Forall2 (repr h) vs ts ->
  spec s h (new_array n vs) (Some (match ts with [] => TS SNil | _ => TArr ts end))
    (fun t v h => repr h v t).
Proof.
  intros Hs Hh HF. unfold new_array. destruct HF as [|v t vs ts Hv HF]; [by apply spec_ret|].
  apply spec_alloc_bind; [done|done|].
  intros s' h' Hst Hvis Hl. apply spec_ret; [apply Hst|apply Hvis|].
  apply repr_arr. eexists _, _, _. split; [reflexivity|]. split; [exact Hl|].
  split; [rewrite app_length; cbn; lia|].
  rewrite take_app_alt by done.
  eapply Forall2_impl; [by constructor|]. intros x y Hxy. eapply repr_mono; [apply Hvis|done].
Qed.

(** the value of a child, as an action and in the pure reading *)
Definition child_ok (s : st) (h : gmap nat cell) (ex : val -> modifier -> M val)
    (d : tree -> modifier -> option tree) : Prop :=
  forall s' h' input it m, step s s' -> h ⊆ h' -> h' ⊆ hp s' -> repr h' input it -> I it m ->
    spec s' h' (ex input m) (d it m) (fun t v h => repr h v t).

Lemma arr_spec s h q d d' ts ts' ex dn input it m : stok s -> h ⊆ hp s ->
  tsrel (froms s) ts' ts -> pure_ts ts -> N \/ calm_ts W f I "array" ts -> (f = FJson -> ts = None /\ d = None) ->
  match d, d' with
  | None, None => True
  | Some l, Some (a, n) => repr h (VArr a n) (TArr l)
  | _, _ => False
  end ->
  child_ok s h ex dn -> repr h input it -> I it m ->
  spec s h (match f with FJson => arr_json W f q d' ts' (Some ex) input m | FXml => arr_xml W f q d' ts' (Some ex) input m end)
       (den_arr W f q d ts dn it m) (fun t v h => repr h v t).
Proof.
  intros Hs Hh Hts Hpure Hcalm Hcl Hd Hex Hin Hit. unfold den_arr.
  assert (Hrun : spec s h (run_opt_tis W f ts' input "array" m) (run_ptis W f ts it "array" m) (fun t v h => repr h v t))
    by (by apply run_opt_spec).
  unfold den_items. destruct f.
  - destruct (Hcl eq_refl) as [-> ->]. destruct d'; [done|]. destruct ts'; [done|]. clear Hcl.
    unfold arr_json. cbn zeta. set (path := apply_mod m q).
    eapply spec_bind with (Q1 := fun its sb h => sb.2 = false /\
      (forall l, its = l -> length l = sb.1.2)).
    { unfold base_json. cbn [run_opt_tis].
      eapply spec_bind1; [apply (spec_ret s h (VS SNil) tt (fun _ v h' => v = VS SNil /\ h' = h)); done|].
      intros s1 v h1 Hst1 Hv1 [-> ->]. cbn [vnil negb].
      eapply spec_bind1.
      { apply (heap_get_spec s1 h path input it); [apply Hst1|apply Hv1|done]. }
      intros s2 raw h2 Hst2 Hv2 Hraw. apply spec_mheap.
      assert (Hview : forall a b, repr h2 a b -> vrel (repr h2) (view (hp s2) a) (tview b)).
      { intros a b. apply repr_view_sub. apply Hv2. }
      destruct Hraw as [g gt Hg|]; cycle 1.
      { apply spec_ret; [apply Hst2|apply Hv2|]. split; [done|]. by intros l <-. }
      rewrite (is_nil_rel (repr h2) (view (hp s2)) tview Hview _ _ Hg).
      assert (Hnil : is_nil tview gt = tnil (gtree gt)).
      { by destruct gt as [[[]| | | |]|[]|l0|l0]. }
      rewrite Hnil. destruct (tnil (gtree gt)) eqn:En; cbn [negb].
      { destruct (gtree gt) as [[]| | | |]; try done.
        apply spec_ret; [apply Hst2|apply Hv2|]. split; [done|]. by intros l <-. }
      eapply spec_bind1; [apply inject_spec; [apply Hst2|apply Hv2|exact Hg]|].
      intros s3 v h3 Hst3 Hv3 Hv. cbn in Hv.
      eapply spec_eq with (o := Some (match gtree gt with TArr l => l | _ => [gtree gt] end)).
      2:{ by destruct (gtree gt) as [[]| | | |]. }
      change (Some ?x) with (Some x ≫= fun y => Some y).
      eapply spec_bind; [apply as_slice_spec; [apply Hst3|apply Hv3|exact Hv]|].
      intros l s4 sl h4 [= <-] Hst4 Hv4 Hsl. apply spec_ret; [apply Hst4|apply Hv4|]. split; [done|].
      intros ? <-. apply repr_arr in Hsl as (a & n & b & Hsl & _ & Hn & HF). cbn. destruct sl as [? ?]. injection Hsl as -> ->.
      apply Forall2_length in HF. rewrite take_length in HF. cbn. lia. }
    intros its s1 [base changed] h1 _ Hst1 Hv1 [Hch Hlen]. cbn in Hch. subst changed.
    specialize (Hlen its eq_refl). cbn in Hlen.
    eapply spec_bind1; [apply (spec_ret s1 h1 input tt (fun _ v h' => v = input /\ h' = h1)); [apply Hst1|apply Hv1|done]|].
    intros s2 input' h2 Hst2 Hv2 [-> ->].
    match goal with |- context[all_of ?l] => set (dens := l) end.
    assert (Hld : length dens = base.2) by (unfold dens; by rewrite imap_length).
    rewrite <- Hld.
    eapply spec_eq with (o := (filter (fun t => tnil t = false) <$> all_of dens) ≫=
      fun ts => Some (match ts with [] => TS SNil | _ => TArr ts end)).
    2:{ unfold arr_of. destruct (all_of dens); cbn; [|done]. by destruct (filter _ l). }
    eapply spec_bind.
    { apply items_spec; [apply Hst2|apply Hv2|]. intros j dj Hj s' h' Hst' Hv'.
      unfold dens in Hj. rewrite list_lookup_imap in Hj. destruct (its !! j); [|done]. cbn in Hj.
      injection Hj as <-. apply Hex.
      - eapply step_trans; [|exact Hst']. by eapply step_trans.
      - etrans; [apply Hv1|]. apply Hv'.
      - apply Hv'.
      - eapply repr_mono; [|exact Hin]. etrans; [apply Hv1|apply Hv'].
      - by apply HM. }
    intros tl s3 vs h3 _ Hst3 Hv3 Hvs. apply new_array_spec; [apply Hst3|apply Hv3|done].
  - unfold arr_xml. cbn zeta. set (path := apply_mod m q).
    eapply spec_bind with (Q1 := fun its sb h => its = [] /\ sb.1.2 = 0 \/ repr h (slice_val sb.1) (TArr its)).
    { unfold base_xml. eapply spec_bind; [exact Hrun|]. intros t s1 v h1 _ Hst1 Hv1 Hr.
      assert (Hsl : forall sl : slice, (forall l, t <> TNodes l) -> t <> TS SNil ->
        spec s1 h1 (s <-- as_slice v ;; mret (s, true)) (match t with TArr l => Some l | _ => Some [t] end)
          (fun its (sb : slice * bool) h => its = [] /\ sb.1.2 = 0 \/ repr h (slice_val sb.1) (TArr its))).
      { intros _ _ _. eapply spec_eq with (o := Some (match t with TArr l => l | _ => [t] end) ≫= fun l => Some l).
        2:{ by destruct t. }
        eapply spec_bind; [apply as_slice_spec; [apply Hst1|apply Hv1|exact Hr]|].
        intros l s2 sl h2 _ Hst2 Hv2 Hsl. apply spec_ret; [apply Hst2|apply Hv2|]. by right. }
      destruct t as [sc|l|kvs|n|l].
      - leaf Hr. destruct sc; try by (apply Hsl; [exact (None, 0)| |]).
        apply spec_ret; [apply Hst1|apply Hv1|].
        destruct d as [l|], d' as [[a n]|]; try done; cbn; [|by left]. right. eapply repr_mono; [apply Hv1|done].
      - apply repr_arr in Hr as Hr'. destruct Hr' as (a & n & b & -> & _). by apply Hsl; [exact (None, 0)| |].
      - apply repr_obj in Hr as Hr'. destruct Hr' as (a & mm & -> & _). by apply Hsl; [exact (None, 0)| |].
      - leaf Hr. by apply Hsl; [exact (None, 0)| |].
      - leaf Hr. apply spec_alloc_bind; [apply Hst1|apply Hv1|].
        intros s2 h2 Hst2 Hv2 Hl. apply spec_ret; [apply Hst2|apply Hv2|]. right.
        apply repr_arr. eexists _, _, _. split; [reflexivity|]. split; [exact Hl|]. cbn [snd].
        rewrite fmap_length. split; [done|]. rewrite take_ge by (by rewrite fmap_length).
        apply Forall2_fmap. apply Forall_Forall2_diag. by apply Forall_forall. }
    intros its s1 [base changed] h1 _ Hst1 Hv1 Hb. cbn [fst] in Hb |- *.
    match goal with |- context[all_of ?l] => set (dens := l) end.
    assert (Hlen : length its = base.2).
    { destruct Hb as [[-> Hb]|Hb]; [done|]. apply repr_arr in Hb as (a & n & b & Hsl & _ & Hn & HF).
      destruct base as [? ?]. injection Hsl as -> ->. apply Forall2_length in HF. rewrite take_length in HF. cbn. lia. }
    assert (Hld : length dens = base.2) by (unfold dens; by rewrite imap_length).
    rewrite <- Hld.
    eapply spec_eq with (o := (filter (fun t => tnil t = false) <$> all_of dens) ≫=
      fun ts => Some (match ts with [] => TS SNil | _ => TArr ts end)).
    2:{ unfold arr_of. destruct (all_of dens); cbn; [|done]. by destruct (filter _ l). }
    eapply spec_bind.
    { apply items_spec; [apply Hst1|apply Hv1|]. intros j dj Hj s' h' Hst' Hv'.
      unfold dens in Hj. rewrite list_lookup_imap in Hj. destruct (its !! j) as [tj|] eqn:Ej; [|done]. cbn in Hj.
      injection Hj as <-.
      destruct Hb as [[-> Hb]|Hb]; [done|]. apply repr_arr in Hb as (a & n & b & Hsl & Hla & Hn & HF).
      destruct base as [? ?]. injection Hsl as -> ->.
      destruct (Forall2_lookup_r _ _ _ _ _ HF Ej) as (vj & Evj & Hvj).
      unfold slice_get. rewrite Nat.add_0_l. cbn [fst snd].
      assert (Hla' : hp s' !! a = Some (CArr b)).
      { eapply lookup_weaken; [exact Hla|]. etrans; [apply Hv'|apply Hv']. }
      assert (Hvj' : repr h' vj tj) by (eapply repr_mono; [apply Hv'|done]).
      eapply spec_bind1 with (t := tt) (Q1 := fun _ v h => v = vj /\ h = h').
      { apply spec_mheap. unfold harr. rewrite Hla', Evj. apply spec_ret; [apply Hst'|apply Hv'|done]. }
      intros s2 v h2 Hst2 Hv2 [-> ->].
      assert (Hno : (forall n, tj <> TNode n) -> spec s2 h' (mret vj) (Some tj) (fun t v h => repr h v t)).
      { intros _. apply spec_ret; [apply Hst2|apply Hv2|done]. }
      destruct tj as [sc|lt|kvs|nn|ln].
      - leaf Hvj'. by apply Hno.
      - apply repr_arr in Hvj' as Hr'. destruct Hr' as (a' & n' & b' & -> & _). by apply Hno.
      - apply repr_obj in Hvj' as Hr'. destruct Hr' as (a' & mm & -> & _). by apply Hno.
      - leaf Hvj'. apply Hex.
        + eapply step_trans; [|exact Hst2]. by eapply step_trans.
        + etrans; [apply Hv1|apply Hv'].
        + apply Hv2.
        + done.
        + apply HM. by eapply HI.
      - leaf Hvj'. by apply Hno. }
    intros tl s3 vs h3 _ Hst3 Hv3 Hvs. apply new_array_spec; [apply Hst3|apply Hv3|done].
Qed.

(** ** objects *)
Definition put (tm : gmap string tree) (kt : string * tree) : gmap string tree :=
  if tnil kt.2 then tm else <[kt.1 := kt.2]> tm.
Lemma put_all tm kvs : NoDup kvs.*1 ->
  foldl put tm kvs = list_to_map (filter (fun kv => tnil kv.2 = false) kvs) ∪ tm.
Proof.
  revert tm. induction kvs as [|[k t] kvs IH]; intros tm Hnd; [change (tm = ∅ ∪ tm); by rewrite (left_id_L ∅ (∪))|].
  cbn [fmap list_fmap fst] in Hnd. apply NoDup_cons in Hnd as [Hk Hnd]. cbn [foldl].
  rewrite IH by done. unfold put. cbn [fst snd]. rewrite filter_cons. cbn [fst snd].
  destruct (tnil t); case_decide; try done.
  match goal with |- _ = list_to_map ((k, t) :: ?l) ∪ tm =>
    change (list_to_map ((k, t) :: l) : gmap string tree) with (<[k := t]> (list_to_map l : gmap string tree)) end.
  rewrite <- insert_union_l. rewrite <- insert_union_r; [done|].
  apply not_elem_of_list_to_map. intros Hin. apply Hk.
  apply elem_of_list_fmap in Hin as ([k' t'] & -> & Hin). apply elem_of_list_filter in Hin as [_ Hin].
  by apply elem_of_list_fmap_1 with (f := fst) in Hin.
Qed.
Lemma filter_keys (P : string * tree -> Prop) `{!forall x, Decision (P x)} (l : list (string * tree)) :
  NoDup l.*1 -> NoDup (filter P l).*1.
Proof.
  induction l as [|[k t] l IH]; cbn; [done|]. intros Hnd. apply NoDup_cons in Hnd as [Hk Hnd].
  case_decide; [|by apply IH]. cbn. apply NoDup_cons. split; [|by apply IH].
  intros Hin. apply Hk. apply elem_of_list_fmap in Hin as ([k' t'] & -> & Hin).
  apply elem_of_list_filter in Hin as [_ Hin]. by apply elem_of_list_fmap_1 with (f := fst) in Hin.
Qed.
Lemma omap_seq {A} (l : list A) : omap (fun i => l !! i) (seq 0 (length l)) = l.
Proof.
  assert (H : forall pre, omap (fun i => (pre ++ l) !! i) (seq (length pre) (length l)) = l).
  { induction l as [|x l IH]; intros pre; [done|]. cbn.
    rewrite list_lookup_middle by done. f_equal.
    specialize (IH (pre ++ [x])). rewrite app_length, Nat.add_1_r in IH. rewrite <- IH at 2.
    by rewrite <- app_assoc. }
  apply (H []).
Qed.
Lemma omap_perm {A} (l : list A) t : omap (fun i => l !! i) (perm t (length l)) ≡ₚ l.
Proof. transitivity (omap (fun i => l !! i) (seq 0 (length l))); [|by rewrite omap_seq]. apply omap_Permutation, Hperm. Qed.
Lemma omap_Forall2 {A B} (P : A -> B -> Prop) l1 l2 is : Forall2 P l1 l2 ->
  Forall2 P (omap (fun i => l1 !! i) is) (omap (fun i => l2 !! i) is).
Proof.
  intros HF. induction is as [|i is IH]; [constructor|]. cbn.
  destruct (l1 !! i) as [x|] eqn:E1.
  - destruct (Forall2_lookup_l _ _ _ _ _ HF E1) as (y & -> & Hxy). by constructor.
  - apply lookup_ge_None_1 in E1. rewrite (Forall2_length _ _ _ HF) in E1.
    by rewrite lookup_ge_None_2 by done.
Qed.

Notation act := (string * (val -> modifier -> M val))%type.
Notation dact := (string * (tree -> modifier -> option tree))%type.
Definition act_ok (s : st) (h : gmap nat cell) (q : string) (a : act) (d : dact) : Prop :=
  a.1 = q +:+ "." +:+ d.1 /\ name_ok d.1 /\ child_ok s h a.2 d.2.

Lemma save_children_spec s0 h0 q l acts dacts input it m : 
  Forall2 (act_ok s0 h0 q) acts dacts -> forall s h mm tm,
  step s0 s -> l < nxt s -> h0 ⊆ h -> h ⊆ hp s -> repr h input it -> I it m ->
  hp s !! l = Some (CMap mm) -> h !! l = None -> hp s0 !! l = None ->
  (forall x, is_Some (h !! x) -> is_Some (h0 !! x) \/ l < x) ->
  (forall k, option_Forall2 (repr h) (mm !! k) (tm !! k)) ->
  let r := save_children W q l acts input m s in
  step s0 r.1 /\ nxt s <= nxt r.1 /\
  match all_of (List.map (fun kd : dact => pair kd.1 <$> kd.2 it m) dacts) with
  | Some kvs => r.2 = Ok tt /\ exists h' mm', hp r.1 !! l = Some (CMap mm') /\
      h ⊆ h' /\ h' ⊆ hp r.1 /\ h' !! l = None /\
      (forall x, is_Some (h' !! x) -> is_Some (h0 !! x) \/ l < x) /\
      (forall k, option_Forall2 (repr h') (mm' !! k) (foldl put tm kvs !! k))
  | None => r.2 = Err \/ (N : Prop) /\ r.2 = Panic
  end.
Proof.
  induction 1 as [|[cpath ex] [k dn] acts dacts [Hp [Hname Hex]] HF IH];
    intros s h mm tm Hst Hl Hh0 Hh Hin Hit Hm Hhl Hs0l Hdom Hmm; cbn [save_children List.map all_of fst snd] in *.
  - cbn. split; [done|]. split; [done|]. split; [done|]. exists h, mm. by repeat (split; [done|]).
  - specialize (Hex s h input it m Hst Hh0 Hh Hin Hit). destruct Hex as [Hst1 Hex].
    cbv zeta. unfold Heap.mbind. destruct (ex input m s) as [s1 r1]. cbn [fst snd] in *.
    destruct (dn it m) as [t|]; cbn; cycle 1.
    { assert (Hs01 : step s0 s1) by (by eapply step_trans).
      destruct Hex as [-> | [HN ->]]; cbn; (split; [done|]); (split; [apply Hst1|]); auto. }
    destruct Hex as (v & h1 & -> & Hvis & Hv). subst cpath.
    rewrite save_member by done.
    assert (Hm1 : hp s1 !! l = Some (CMap mm)) by (eapply lookup_weaken; [exact Hm|apply Hst1]).
    assert (Hhl1 : h1 !! l = None).
    { destruct (h1 !! l) eqn:E; [|done]. destruct (proj2 (proj2 Hvis) l) as [[c' Hc]|Hc]; [by eexists| |lia].
      congruence. }
    assert (Hdom1 : forall x, is_Some (h1 !! x) -> is_Some (h0 !! x) \/ l < x).
    { intros x Hx. destruct (proj2 (proj2 Hvis) x Hx) as [Hx'|Hx']; [by apply Hdom|]. right. lia. }
    assert (Hmm1 : forall k, option_Forall2 (repr h1) (mm !! k) (tm !! k)).
    { intros k'. destruct (Hmm k'); constructor. eapply repr_mono; [apply Hvis|done]. }
    rewrite (repr_vnil _ _ _ Hv). destruct (tnil t) eqn:Et.
    + assert (Hs01 : step s0 s1) by (by eapply step_trans).
      cbn. destruct (IH s1 h1 mm tm) as (Hr1 & Hr2 & Hr3); try done.
      { pose proof (proj1 (proj2 (proj2 Hst1))). lia. }
      { etrans; [done|apply Hvis]. }
      { apply Hvis. }
      { eapply repr_mono; [apply Hvis|done]. }
      split; [done|]. split; [pose proof (proj1 (proj2 (proj2 Hst1))); lia|].
      destruct (all_of (List.map _ dacts)) as [kvs|]; cbn; [|done].
      destruct Hr3 as (Hr & h' & mm' & A1 & A2 & A3 & A4 & A5 & A6). split; [done|]. exists h', mm'.
      split; [done|]. split; [etrans; [apply Hvis|done]|]. repeat (split; [done|]).
      unfold put at 2. cbn. by rewrite Et.
    + set (s2 := St (<[l := CMap (<[k := v]> (hmap (hp s1) l))]> (hp s1)) (nxt s1) (froms s1) (tick s1)).
      change (map_set l k v s1) with (s2, Ok tt). cbv beta iota zeta.
      assert (Hhm : hmap (hp s1) l = mm) by (unfold hmap; by rewrite Hm1).
      assert (Hn1 : nxt s <= nxt s1) by apply Hst1.
      destruct (IH s2 h1 (<[k := v]> mm) (<[k := t]> tm)) as (Hr1 & Hr2 & Hr3); try done.
      { split; [|split; [|split]]; cbn.
        - intros x [c Hx]. cbn in *. destruct (decide (x = l)) as [->|Hne]; [lia|].
          rewrite lookup_insert_ne in Hx by done. apply (proj1 Hst1). by eexists.
        - apply insert_subseteq_r; [done|]. etrans; [apply Hst|apply Hst1].
        - pose proof (proj1 (proj2 (proj2 Hst))). lia.
        - etrans; [apply Hst1|apply Hst]. }
      { cbn. lia. }
      { etrans; [done|apply Hvis]. }
      { cbn. apply insert_subseteq_r; [done|apply Hvis]. }
      { eapply repr_mono; [apply Hvis|done]. }
      { cbn. rewrite Hhm. apply lookup_insert. }
      { intros k'. destruct (decide (k' = k)) as [->|Hne].
        - rewrite !lookup_insert. by constructor.
        - rewrite !lookup_insert_ne by done. apply Hmm1. }
      split; [done|]. split; [cbn in Hr2; lia|].
      destruct (all_of (List.map _ dacts)) as [kvs|]; cbn; [|done].
      destruct Hr3 as (Hr & h' & mm' & A1 & A2 & A3 & A4 & A5 & A6). split; [done|]. exists h', mm'.
      split; [done|]. split; [etrans; [apply Hvis|done]|]. repeat (split; [done|]).
      unfold put at 2. cbn. by rewrite Et.
Qed.

Lemma obj_run_spec s h q acts dacts input it m : stok s -> h ⊆ hp s ->
  NoDup dacts.*1 -> Forall2 (act_ok s h q) acts dacts -> repr h input it -> I it m ->
  spec s h (l <-- alloc (CMap ∅) ;; acts' <-- shuffle perm acts ;; save_children W q l acts' input m ;;; finish_obj l)
    (obj_of <$> all_of (List.map (fun kd : dact => pair kd.1 <$> kd.2 it m) dacts))
    (fun t v h => repr h v t).
Proof.
  intros Hs Hh Hnd HF Hin Hit.
  set (l := nxt s).
  assert (Hfree : hp s !! l = None).
  { destruct (hp s !! l) eqn:E; [|done]. assert (l < nxt s) by (apply Hs; by eexists). unfold l in *. lia. }
  set (s1 := St (<[l := CMap ∅]> (hp s)) (S l) (froms s) (S (tick s))).
  set (is := perm (tick s) (length acts)).
  set (acts' := omap (fun i => acts !! i) is). set (dacts' := omap (fun i => dacts !! i) is).
  assert (HF' : Forall2 (act_ok s h q) acts' dacts') by (by apply omap_Forall2).
  assert (HP : dacts' ≡ₚ dacts).
  { unfold dacts', is. rewrite (Forall2_length _ _ _ HF). apply omap_perm. }
  unfold spec.
  assert (E : (l <-- alloc (CMap ∅) ;; acts' <-- shuffle perm acts ;; save_children W q l acts' input m ;;; finish_obj l) s
    = (save_children W q l acts' input m ;;; finish_obj l) s1) by done.
  rewrite E. clear E.
  assert (Hhl : h !! l = None) by (by eapply lookup_weaken_None).
  assert (Hst1 : step s s1).
  { split; [|split; [|split]]; cbn; [|by apply insert_subseteq|unfold l; lia|done].
    intros x [c Hx]. cbn in *. destruct (decide (x = l)) as [->|Hne]; [lia|].
    rewrite lookup_insert_ne in Hx by done. assert (x < nxt s) by (apply Hs; by eexists). unfold l. lia. }
  pose proof (save_children_spec s h q l acts' dacts' input it m HF' s1 h ∅ ∅ Hst1) as Hsc.
  destruct Hsc as (Hr1 & Hr2 & Hr3); try done.
  { cbn. lia. }
  { cbn. by apply insert_subseteq_r. }
  { apply lookup_insert. }
  { by left. }
  { intros k. rewrite !lookup_empty. constructor. }
  pose proof (all_of_perm _ _ (Permutation_map (fun kd : dact => pair kd.1 <$> kd.2 it m) HP)) as Hao.
  unfold Heap.mbind. destruct (save_children W q l acts' input m s1) as [s2 r2]. cbn [fst snd] in *.
  destruct (all_of (List.map _ dacts')) as [kvs'|] eqn:E'; cycle 1.
  { destruct (all_of (List.map _ dacts)) as [kvs|]; [done|]. cbn. destruct Hr3 as [-> | [HN ->]]; cbn; auto. }
  destruct (all_of (List.map _ dacts)) as [kvs|] eqn:Ekvs; [|done]. cbn.
  assert (Hkeys : NoDup kvs.*1).
  { assert (kvs.*1 = dacts.*1) as ->; [|done].
    exact (all_of_fmap_fst (fun dn => dn it m) dacts kvs Ekvs). }
  destruct Hr3 as (-> & h' & mm & A1 & A2 & A3 & A4 & A5 & A6). cbn.
  assert (Htm : foldl put ∅ kvs' = list_to_map (filter (fun kv => tnil kv.2 = false) kvs)).
  { rewrite put_all by (by rewrite Hao). rewrite (right_id_L ∅ (∪)).
    apply list_to_map_proper.
    - apply filter_keys. by rewrite Hao.
    - by rewrite Hao. }
  rewrite Htm in A6. clear Htm.
  unfold finish_obj, obj_of. cbn. set (fl := filter (fun kv : string * tree => tnil kv.2 = false) kvs) in *.
  assert (Hfl : NoDup fl.*1).
  { by apply filter_keys. }
  assert (Hhm : hmap (hp s2) l = mm) by (unfold hmap; by rewrite A1). rewrite Hhm.
  case_decide as Hem.
  - cbn. split; [done|]. exists (VS SNil), h'. split; [done|]. split.
    + split; [done|]. split; [done|]. intros x Hx. destruct (A5 x Hx); [by left|right; unfold l in *; lia].
    + destruct fl as [|[k t] fl']; [done|]. exfalso. specialize (A6 k). rewrite Hem in A6.
      change (list_to_map ((k, t) :: fl') : gmap string tree) with (<[k := t]> (list_to_map fl' : gmap string tree)) in A6.
      rewrite lookup_empty, lookup_insert in A6. inversion A6.
  - cbn. split; [done|]. exists (VMap l), (<[l := CMap mm]> h'). split; [done|].
    assert (Hsub : h' ⊆ <[l := CMap mm]> h') by (by apply insert_subseteq).
    split.
    + split; [by etrans|]. split.
      * rewrite <- (insert_id (hp s2) l (CMap mm)) by done. by apply insert_mono.
      * intros x [c Hx]. destruct (decide (x = l)) as [->|Hne]; [right; unfold l; lia|].
        rewrite lookup_insert_ne in Hx by done. destruct (A5 x); [by eexists|by left|right; unfold l in *; lia].
    + assert (Hne : fl <> []).
      { intros Hfe. apply Hem. apply map_empty. intros k. specialize (A6 k). rewrite Hfe in A6. cbn in A6.
        rewrite lookup_empty in A6. by inversion A6. }
      assert (Hr : repr (<[l := CMap mm]> h') (VMap l) (TObj fl)).
      { apply repr_obj. exists l, mm. split; [done|]. split; [apply lookup_insert|]. split; [done|].
        intros k. unfold tmap. destruct (A6 k) as [x y Hxy|]; constructor. by eapply repr_mono. }
      by destruct fl.
Qed.

(** ** the theorem *)
Theorem exec_den p : wf_paths p -> pure f p -> N \/ calm W f I p -> forall i s h input it m, stok s -> h ⊆ hp s ->
  irel h (froms s) i p -> repr h input it -> I it m ->
  spec s h (exec W perm f i input m) (den W f p it m) (fun t v h => repr h v t).
Proof.
  induction p as [q jt d ts|q d ts cs IH|q d ts c IH] using pitr_ind'; intros Hwf Hpure Hcalm i s h input it m Hs Hh Hi Hin Hit;
    destruct i as [q' jt' d' ts'|q' d' ts' cs'|q' d' ts' c']; try done.
  - cbn [irel] in Hi. destruct Hi as (-> & -> & Hd & Hts). cbn [exec den]. by apply scal_spec.
  - cbn [irel] in Hi. destruct Hi as (-> & Hts & Hdd & Hcs).
    cbn [wf_paths] in Hwf. destruct Hwf as [Hnd Hwf]. cbn [pure] in Hpure. destruct Hpure as (Hpts & -> & Hcl & Hpc).
    destruct d'; [done|]. cbn [exec den].
    assert (Hcalm1 : N \/ calm_ts W f I "object" ts) by (destruct Hcalm as [|[? _]]; auto).
    assert (Hcalm2 : Forall (fun kc => N \/ calm W f I kc.2) cs).
    { destruct Hcalm as [HN|[_ Hc]]; [apply Forall_forall; by left|]. clear -Hc.
      induction cs as [|[k c] cs IHc]; constructor; [right; apply Hc|apply IHc, Hc]. }
    clear Hcalm.
    match goal with |- spec _ _ ?e (den_obj _ _ _ ?da _ _) _ => set (dacts := da) end.
    set (acts := List.map (fun kc : string * itr => let '(_, c) := kc in (it_path c, exec W perm f c)) cs').
    assert (Hkeys : dacts.*1 = cs.*1).
    { unfold dacts. clear. induction cs as [|[k c] cs IH]; cbn; [done|]. by f_equal. }
    assert (HF : Forall2 (act_ok s h q) acts dacts).
    { unfold acts, dacts. clear acts dacts Hkeys Hnd Hts Hcl Hdd. revert cs' Hcs Hcalm2.
      induction cs as [|[k c] cs IHc]; intros [|[k' c'] cs'] Hcs Hcalm; try done; cbn; [constructor|].
      destruct Hcs as [[-> Hc] Hcs]. inversion Hcalm as [|? ? Hcalm1' Hcalm2']; subst. inversion IH as [|? ? IH1 IH2]; subst.
      destruct Hwf as [(Hn & Hpath & Hwc) Hwf]. destruct Hpc as [Hpc1 Hpc].
      constructor; [|by apply IHc].
      split; [|split]; cbn; [by rewrite (irel_path _ _ _ _ Hc)|done|].
      intros s' h' input' it' m' Hst Hsub Hsub' Hr Hit'. apply IH1; [done|done|done|apply Hst|done| |done|done].
      rewrite (proj2 (proj2 (proj2 Hst))). by eapply irel_mono. }
    assert (Hrun : forall s' h' input it, step s s' -> h ⊆ h' -> h' ⊆ hp s' -> repr h' input it -> I it m ->
      spec s' h' (l <-- alloc (CMap ∅) ;; acts' <-- shuffle perm acts ;; save_children W q l acts' input m ;;; finish_obj l)
       (obj_of <$> all_of (List.map (fun kd : dact => pair kd.1 <$> kd.2 it m) dacts)) (fun t v h => repr h v t)).
    { intros s' h' input' it' Hst Hsub Hsub' Hr Hit'. apply obj_run_spec; [apply Hst|done|by rewrite Hkeys| |done|done].
      eapply Forall2_impl; [exact HF|]. intros a d (A1 & A2 & A3). split; [done|]. split; [done|].
      intros s2 h2 i2 t2 m2 B1 B2 B3 B4 B5. apply A3; [by eapply step_trans|by etrans|done|done|done]. }
    unfold den_obj. destruct f eqn:Ef.
    + specialize (Hcl eq_refl). subst ts. destruct ts'; [done|]. unfold obj_json. cbn [run_opt_tis].
      change (spec s h (l <-- alloc (CMap ∅) ;; acts' <-- shuffle perm acts ;; save_children W q l acts' input m ;;; finish_obj l)
       (obj_of <$> all_of (List.map (fun kd : dact => pair kd.1 <$> kd.2 it m) dacts)) (fun t v h => repr h v t)).
      apply Hrun; [by apply step_refl|done|done|done|done].
    + unfold obj_xml. cbn zeta. destruct ts' as [t'|], ts as [[[me delim] from]|]; try done; cycle 1.
      { cbn. apply Hrun; [by apply step_refl|done|done|done|done]. }
      eapply spec_bind; [rewrite <- Ef in Hcalm1 |- *; apply run_tis_spec; eassumption|].
      intros t s1 v h1 _ Hst1 Hv1 Hr. cbv beta.
      assert (Hin1 : repr h1 input it) by (eapply repr_mono; [apply Hv1|done]).
      destruct t as [sc|lt|kvs|n|l].
      * leaf Hr. destruct sc as [|b|z|z|fl|str|tm]; try (apply spec_fail; apply Hst1).
        -- apply spec_ret; [apply Hst1|apply Hv1|done].
        -- destruct str; [|apply spec_fail; apply Hst1]. apply spec_ret; [apply Hst1|apply Hv1|done].
      * apply repr_arr in Hr as (a & n & b & -> & _). apply spec_fail, Hst1.
      * apply repr_obj in Hr as (a & n & -> & _). apply spec_fail, Hst1.
      * leaf Hr. apply Hrun; [done|apply Hv1|apply Hv1|done|by eapply HI].
      * leaf Hr. destruct l as [|n l]; apply Hrun; try done; try apply Hv1; try by eapply HI.
  - cbn [irel] in Hi. destruct c' as [c'|]; [|done]. destruct Hi as (-> & Hts & Hd & Hc).
    destruct Hwf as [_ Hwf]. destruct Hpure as (Hpts & Hcl & Hpc). cbn [exec den].
    apply arr_spec; try done.
    { destruct Hcalm as [|[? _]]; auto. }
    intros s' h' input' it' m' Hst Hsub Hsub' Hr Hit'. apply IH; [done|done| |apply Hst|done| |done|done].
    { destruct Hcalm as [|[_ ?]]; auto. }
    rewrite (proj2 (proj2 (proj2 Hst))). by eapply irel_mono.
Qed.
End refine.

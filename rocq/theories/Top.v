(** Whole transforms: parsing, transforming and printing a document. *)
From stdpp Require Import strings list gmap.
From Coq Require Import ZArith Lia.
From Verif Require Import GoStr GoStrL Val Conv Instr Heap Den Param HeapL Refine.

(** ** parsing *)
Lemma load_spec {N : wild} t s h : distinct_keys t -> stok s -> h ⊆ hp s ->
  spec s h (load t) (Some t) (fun t v h => repr h v t).
Proof.
  revert s h. induction t as [sc|ts IH|kvs IH|n|l] using tree_ind'; intros s h Hd Hs Hh; cbn [load];
    try by apply spec_ret.
  - set (go := fix go (l : list tree) : M (list val) :=
              match l with [] => mret [] | t :: l' => v <-- load t ;; vs <-- go l' ;; mret (v :: vs) end).
    assert (Hgo : forall s h, stok s -> h ⊆ hp s ->
      spec s h (go ts) (Some ts) (fun ts vs h => Forall2 (repr h) vs ts)).
    { clear s h Hs Hh. induction ts as [|t ts IHt]; intros s h Hs Hh; cbn.
      - apply spec_ret; [done|done|constructor].
      - destruct Hd as [Hd1 Hd]. inversion IH as [|? ? IH1 IH2]; subst.
        eapply spec_bind1; [by apply IH1|]. intros s1 v h1 Hst1 Hv1 Hr. cbv beta in Hr.
        eapply spec_bind1; [apply IHt; [done|done|apply Hst1|apply Hv1]|].
        intros s2 vs h2 Hst2 Hv2 Hvs. apply spec_ret; [apply Hst2|apply Hv2|]. constructor; [|done].
        eapply repr_mono; [apply Hv2|done]. }
    eapply spec_bind1; [by apply Hgo|]. intros s1 vs h1 Hst1 Hv1 Hvs. cbv beta in Hvs.
    apply spec_alloc_bind; [apply Hst1|apply Hv1|]. intros s2 h2 Hst2 Hv2 Hl.
    apply spec_ret; [apply Hst2|apply Hv2|]. apply repr_arr. eexists _, _, _. split; [reflexivity|].
    split; [exact Hl|]. split; [done|]. rewrite take_ge by done.
    eapply Forall2_impl; [exact Hvs|]. intros x y. apply repr_mono, Hv2.
  - set (go := fix go (l : list (string * tree)) : M (gmap string val) :=
             match l with
             | [] => mret ∅
             | (k, t) :: l' => v <-- load t ;; m <-- go l' ;; mret (<[k := v]> m)
             end).
    destruct Hd as [Hnd Hd].
    assert (Hgo : forall s h, stok s -> h ⊆ hp s ->
      spec s h (go kvs) (Some kvs) (fun kvs m h => forall k, option_Forall2 (repr h) (m !! k) (tmap kvs !! k))).
    { clear s h Hs Hh Hnd. induction kvs as [|[k t] kvs IHt]; intros s h Hs Hh; cbn [go].
      - apply spec_ret; [done|done|]. intros k. unfold tmap. cbn. rewrite !lookup_empty. constructor.
      - destruct Hd as [Hd1 Hd]. inversion IH as [|? ? IH1 IH2]; subst. fold go.
        eapply spec_bind1; [by apply IH1|]. intros s1 v h1 Hst1 Hv1 Hr. cbv beta in Hr. cbn [snd] in Hr.
        eapply spec_bind1; [apply IHt; [done|done|apply Hst1|apply Hv1]|].
        intros s2 m h2 Hst2 Hv2 Hm. cbv beta in Hm. apply spec_ret; [apply Hst2|apply Hv2|].
        intros k'. change (tmap ((k, t) :: kvs)) with (<[k := t]> (tmap kvs)).
        destruct (decide (k' = k)) as [->|Hne].
        + rewrite !lookup_insert. constructor. eapply repr_mono; [apply Hv2|done].
        + rewrite !lookup_insert_ne by done. apply Hm. }
    eapply spec_bind1; [by apply Hgo|]. intros s1 m h1 Hst1 Hv1 Hm. cbv beta in Hm.
    apply spec_alloc_bind; [apply Hst1|apply Hv1|]. intros s2 h2 Hst2 Hv2 Hl.
    apply spec_ret; [apply Hst2|apply Hv2|]. apply repr_obj. eexists _, _. split; [reflexivity|].
    split; [exact Hl|]. split; [done|]. intros k. destruct (Hm k); constructor.
    eapply repr_mono; [apply Hv2|done].
Qed.

(** ** printing *)
Lemma foldr_max_le (l : list nat) n : foldr Nat.max 0 l <= n <-> Forall (fun d => d <= n) l.
Proof.
  induction l as [|d l IH]; cbn; [split; [constructor|lia]|]. rewrite Forall_cons, <- IH. lia.
Qed.
Lemma depth_pos t : 1 <= depth t.
Proof. destruct t; cbn; lia. Qed.
Lemma mapM_some {A B} (f : A -> option B) l r : Forall2 (fun a b => f a = Some b) l r -> mapM f l = Some r.
Proof. induction 1 as [|a b l r Hab HF IH]; cbn; [done|]. rewrite Hab. cbn. by rewrite IH. Qed.
Lemma mapM_none {A B} (f : A -> option B) l : Exists (fun a => f a = None) l -> mapM f l = None.
Proof.
  induction 1 as [a l Ha|a l HE IH]; cbn; [by rewrite Ha|]. destruct (f a); cbn; [|done]. by rewrite IH.
Qed.
Lemma tmap_canon kvs k :
  (list_to_map (List.map (fun kv : string * tree => let (k, t') := kv in (k, canon t')) kvs) : gmap string tree) !! k
  = canon <$> tmap kvs !! k.
Proof.
  induction kvs as [|[k' t] kvs IH]; [done|]. unfold tmap. cbn [List.map list_to_map foldr uncurry].
  cbn. destruct (decide (k = k')) as [->|Hne]; [by rewrite !lookup_insert|].
  by rewrite !lookup_insert_ne.
Qed.

Lemma reify_repr h v t fuel : repr h v t ->
  reify fuel h v = if decide (depth t <= fuel) then Some (canon t) else None.
Proof.
  revert v t. induction fuel as [|n IH]; intros v t Hr.
  - pose proof (depth_pos t). cbn. case_decide; [lia|done].
  - destruct t as [sc|ts|kvs|k|l].
    + leaf Hr. cbn. case_decide; [done|lia].
    + apply repr_arr in Hr as (l & k & b & -> & Hl & Hk & HF). cbn [reify harr]. rewrite Hl.
      assert (HF' : Forall2 (fun v t => reify n h v = if decide (depth t <= n) then Some (canon t) else None) (take k b) ts).
      { eapply Forall2_impl; [exact HF|]. intros x y Hxy. by apply IH. }
      cbn [depth canon]. case_decide as Hdep.
      * assert (Hall : Forall (fun t => depth t <= n) ts).
        { apply le_S_n in Hdep. apply foldr_max_le in Hdep. by apply Forall_fmap in Hdep. }
        erewrite mapM_some; [cbn; reflexivity|]. clear Hdep HF. apply Forall2_fmap_r.
        induction HF' as [|x y l1 l2 Hxy HF' IHF]; constructor; inversion Hall; subst.
        -- cbv beta. rewrite Hxy. by case_decide.
        -- by apply IHF.
      * rewrite mapM_none; [done|].
        assert (Hex : Exists (fun t => ~ depth t <= n) ts).
        { apply not_Forall_Exists; [solve_decision|]. intros Hall. apply Hdep. apply le_n_S, foldr_max_le.
          by apply Forall_fmap. }
        clear Hdep HF. induction HF' as [|x y l1 l2 Hxy HF' IHF]; [by inversion Hex|].
        inversion Hex; subst; [left|right; by apply IHF]. rewrite Hxy. by case_decide.
    + apply repr_obj in Hr as (l & m & -> & Hl & Hnd & HF). cbn [reify]. cbv zeta. unfold hmap at 1 2. rewrite Hl.
      set (cm := list_to_map (List.map (fun kv : string * tree => let (k, t') := kv in (k, canon t')) kvs) : gmap string tree).
      assert (Hdom : dom m = dom cm).
      { apply set_eq. intros k. rewrite !elem_of_dom. unfold cm. rewrite tmap_canon, fmap_is_Some.
        destruct (HF k); split; intros [? ?]; try done; by eexists. }
      change (canon (TObj kvs)) with (TObj (omap (fun k => pair k <$> cm !! k) (elements (dom cm)))).
      rewrite <- Hdom.
      assert (Hel : forall k, k ∈ elements (dom m) -> exists v t, m !! k = Some v /\ tmap kvs !! k = Some t /\ repr h v t).
      { intros k Hk. apply elem_of_elements, elem_of_dom in Hk as [v Hv]. pose proof (HF k) as Hk.
        rewrite Hv in Hk. inversion Hk; subst. eauto. }
      cbn [depth]. case_decide as Hdep.
      * assert (Hall : forall k t, tmap kvs !! k = Some t -> depth t <= n).
        { apply le_S_n, foldr_max_le in Hdep. intros k t Ht. apply elem_of_list_to_map_2 in Ht.
          rewrite Forall_forall in Hdep. apply Hdep. apply elem_of_list_In, in_map_iff. exists (k, t).
          split; [done|]. by apply elem_of_list_In. }
        erewrite mapM_some; [cbn; reflexivity|].
        revert Hel. induction (elements (dom m)) as [|k ks IHk]; intros Hel; cbn; [constructor|].
        destruct (Hel k ltac:(left)) as (v & t & Hv & Ht & Hr).
        rewrite (tmap_canon kvs k : cm !! k = _), Ht. cbn. constructor.
        -- rewrite Hv. cbn. rewrite (IH _ _ Hr). case_decide as Hd; [done|]. exfalso. eauto.
        -- apply IHk. intros k' Hk'. apply Hel. by right.
      * rewrite mapM_none; [done|].
        assert (Hex : exists k t, tmap kvs !! k = Some t /\ ~ depth t <= n).
        { rewrite <- Nat.succ_le_mono, foldr_max_le in Hdep.
          apply not_Forall_Exists in Hdep; [|solve_decision]. apply Exists_exists in Hdep as (d & Hd & Hdn).
          apply elem_of_list_In, in_map_iff in Hd as ([k t] & <- & Hin). exists k, t. split; [|done].
          apply elem_of_list_to_map_1; [done|]. by apply elem_of_list_In. }
        destruct Hex as (k & t & Ht & Hdt). apply Exists_exists. exists k.
        pose proof (HF k) as Hk. rewrite Ht in Hk. inversion Hk as [v ? Hr E1 E2|]; subst.
        split; [apply elem_of_elements, elem_of_dom; by eexists|].
        cbn. rewrite (IH _ _ Hr). case_decide; [done|]. done.
    + leaf Hr. cbn. case_decide; [done|lia].
    + leaf Hr. cbn. case_decide; [done|lia].
Qed.
Lemma tree_ok_canon t : distinct_keys t -> tree_ok (canon t) = tree_ok t.
Proof.
  induction t as [sc|ts IH|kvs IH|n|l] using tree_ind'; intros Hd; cbn [canon tree_ok]; try done.
  - induction ts as [|t ts IHt]; [done|]. cbn. destruct Hd as [Hd1 Hd]. inversion IH as [|? ? IH1 IH2]; subst.
    rewrite IH1 by done. f_equal. by apply IHt.
  - destruct Hd as [Hnd Hd].
    assert (Hc : forall k t, (k, t) ∈ kvs -> tree_ok (canon t) = tree_ok t).
    { clear Hnd. induction kvs as [|[k t] kvs IHk]; intros k' t' Hin; [by apply elem_of_nil in Hin|].
      destruct Hd as [Hd1 Hd]. inversion IH as [|? ? IH1 IH2]; subst.
      apply elem_of_cons in Hin as [[= -> ->]|Hin]; [by apply IH1|]. by eapply IHk. }
    set (cm := list_to_map (List.map (fun kv : string * tree => let (k, t') := kv in (k, canon t')) kvs) : gmap string tree).
    apply eq_bool_prop_intro. rewrite !forallb_True, !Forall_forall. split.
    + intros H [k t] Hin. rewrite <- (Hc k t Hin).
      apply (H (k, canon t)). apply elem_of_list_omap. exists k.
      assert (Hk : cm !! k = Some (canon t)).
      { unfold cm. rewrite tmap_canon. unfold tmap. by rewrite (elem_of_list_to_map_1 _ _ _ Hnd Hin). }
      split; [apply elem_of_elements, elem_of_dom; by eexists|]. by rewrite Hk.
    + intros H [k t'] Hin. apply elem_of_list_omap in Hin as (k' & Hk & Hin).
      destruct (cm !! k') as [t2|] eqn:E; [|done]. cbn in Hin. injection Hin as -> ->.
      unfold cm in E. rewrite tmap_canon in E. apply fmap_Some in E as (t & Ht & ->).
      unfold tmap in Ht. apply elem_of_list_to_map_2 in Ht. rewrite (Hc k t Ht). exact (H (k, t) Ht).
Qed.
Lemma repr_distinct h v t : repr h v t -> distinct_keys t.
Proof.
  revert v. induction t as [sc|ts IH|kvs IH|n|l] using tree_ind'; intros v Hr; try done.
  - apply repr_arr in Hr as (l & n & b & -> & _ & _ & HF). cbn. revert HF. generalize (take n b).
    induction ts as [|t ts IHt]; intros vs HF; [done|]. inversion HF as [|x ? vs' ? Hx HF']; subst. inversion IH as [|? ? IH1 IH2]; subst.
    split; [by eapply IH1|]. by eapply IHt.
  - apply repr_obj in Hr as (l & m & -> & _ & Hnd & HF). cbn. split; [done|].
    assert (Hall : forall k t, (k, t) ∈ kvs -> exists v, repr h v t).
    { intros k t Hin. pose proof (HF k) as Hk. unfold tmap in Hk.
      rewrite (elem_of_list_to_map_1 _ _ _ Hnd Hin) in Hk. inversion Hk; subst. eauto. }
    clear HF Hnd. induction kvs as [|[k t] kvs IHk]; [done|]. inversion IH as [|? ? IH1 IH2]; subst. split.
    + destruct (Hall k t ltac:(left)) as [v Hv]. by apply IH1 in Hv.
    + apply IHk; [done|]. intros k' t' Hin. apply (Hall k'). by right.
Qed.

Section top.
Context (W : oracles) (HW : jpath_parametric W).
Context (perm : nat -> nat -> list nat) (Hperm : forall t n, perm t n ≡ₚ seq 0 n).

(** the document printed for a value *)
Definition print (t : tree) : res tree :=
  if decide (depth t <= o_stack W) then if tree_ok t then Ok (canon t) else Err else Err.
Lemma marshal_spec s v t : repr (hp s) v t -> marshal W v s = (s, print t).
Proof.
  intros Hr. unfold marshal, print. rewrite (reify_repr _ _ _ _ Hr). case_decide; [|done].
  by rewrite (tree_ok_canon _ (repr_distinct _ _ _ Hr)).
Qed.

(** a node, and modifiers that replace paths ending in [*] *)
Definition node_mod (t : tree) (m : modifier) : Prop :=
  (exists n, t = TNode n) /\ Forall (fun on => exists q, on.1 = q +:+ "[*]") m.
Definition outcome (o : option tree) (r : res tree) : Prop :=
  match o with Some t => r = print t | None => r = Err \/ r = Panic end.

Lemma json_transform_gen {N : wild} i p doc s : wf_paths p -> pure FJson p -> N \/ calm W FJson (fun t _ => doc = t) p ->
  distinct_keys doc -> stok s -> irel (hp s) (froms s) i p ->
  let r := base_json_transform W perm FJson i doc s in
  step s r.1 /\
  match den W FJson p doc [] with Some t => r.2 = print t | None => r.2 = Err \/ (N : Prop) /\ r.2 = Panic end.
Proof.
  intros Hwf Hpure Hcalm Hdoc Hs Hi. cbv zeta. unfold base_json_transform.
  pose proof (load_spec doc s (hp s) Hdoc Hs ltac:(done)) as [Hst1 (v & h1 & Hr1 & Hv1 & Hv)].
  unfold Heap.mbind. destruct (load doc s) as [s1 r1]. cbn [fst snd] in *. subst r1.
  assert (Hi1 : irel h1 (froms s1) i p).
  { rewrite (proj2 (proj2 (proj2 Hst1))). eapply irel_mono; [|exact Hi]. apply Hv1. }
  assert (HI : FJson = FXml -> forall (it : tree) (m : modifier) n, doc = it -> doc = TNode n) by done.
  pose proof (exec_den W HW FJson (fun t _ => doc = t) HI (fun _ _ _ _ H => H) perm Hperm p Hwf Hpure Hcalm i s1 h1 v doc [] (proj1 Hst1)
    (proj1 (proj2 Hv1)) Hi1 Hv eq_refl) as [Hst2 Hr2].
  destruct (exec W perm FJson i v [] s1) as [s2 r2]. cbn [fst snd] in *.
  assert (Hst : step s s2) by (by eapply step_trans).
  destruct (den W FJson p doc []) as [t|]; cbn.
  - destruct Hr2 as (v2 & h2 & -> & Hv2 & Hvt). rewrite (marshal_spec s2 v2 t); [done|].
    eapply repr_mono; [|exact Hvt]. apply Hv2.
  - destruct Hr2 as [-> | [HN ->]]; cbn; auto.
Qed.
Lemma xml_transform_gen {N : wild} i p n s : wf_paths p -> pure FXml p ->
  N \/ calm W FXml node_mod p -> stok s -> irel (hp s) (froms s) i p ->
  let r := base_xml_transform W perm FXml i n s in
  step s r.1 /\
  match den W FXml p (TNode n) [] with Some t => r.2 = print t | None => r.2 = Err \/ (N : Prop) /\ r.2 = Panic end.
Proof.
  intros Hwf Hpure Hcalm Hs Hi. cbv zeta. unfold base_xml_transform.
  assert (HI : FXml = FXml -> forall it m n, node_mod it m -> node_mod (TNode n) m).
  { intros _ it m n0 [_ Hm]. split; [by eexists|done]. }
  assert (HM : forall it m q i, node_mod it m -> node_mod it (path_replace (q +:+ "[*]") (q +:+ idx_str i) m)).
  { intros it m q j [Hit Hm]. split; [done|]. apply Forall_app. split; [done|]. constructor; [|done]. by exists q. }
  pose proof (exec_den W HW FXml node_mod HI HM perm Hperm p Hwf Hpure Hcalm i s (hp s) (VNode n)
    (TNode n) [] Hs ltac:(done) Hi ltac:(done) (conj (ex_intro _ n eq_refl) (List.Forall_nil _))) as [Hst2 Hr2].
  unfold Heap.mbind. destruct (exec W perm FXml i (VNode n) [] s) as [s2 r2]. cbn [fst snd] in *.
  destruct (den W FXml p (TNode n) []) as [t|]; cbn.
  - destruct Hr2 as (v2 & h2 & -> & Hv2 & Hvt). rewrite (marshal_spec s2 v2 t); [done|].
    eapply repr_mono; [|exact Hvt]. apply Hv2.
  - destruct Hr2 as [-> | [HN ->]]; cbn; auto.
Qed.
Theorem json_transform_den i p doc s : wf_paths p -> pure FJson p -> distinct_keys doc -> stok s ->
  irel (hp s) (froms s) i p ->
  let r := base_json_transform W perm FJson i doc s in
  step s r.1 /\ outcome (den W FJson p doc []) r.2.
Proof.
  intros Hwf Hpure Hdoc Hs Hi. cbv zeta.
  destruct (json_transform_gen (N := True) i p doc s Hwf Hpure (or_introl I) Hdoc Hs Hi) as [Hst Hr].
  split; [done|]. unfold outcome. destruct (den W FJson p doc []); [done|]. destruct Hr as [|[_ ?]]; auto.
Qed.
Theorem xml_transform_den i p n s : wf_paths p -> pure FXml p -> stok s ->
  irel (hp s) (froms s) i p ->
  let r := base_xml_transform W perm FXml i n s in
  step s r.1 /\ outcome (den W FXml p (TNode n) []) r.2.
Proof.
  intros Hwf Hpure Hs Hi. cbv zeta.
  destruct (xml_transform_gen (N := True) i p n s Hwf Hpure (or_introl I) Hs Hi) as [Hst Hr].
  split; [done|]. unfold outcome. destruct (den W FXml p (TNode n) []); [done|]. destruct Hr as [|[_ ?]]; auto.
Qed.
(** no crash *)
Theorem json_transform_calm i p doc s : wf_paths p -> pure FJson p -> calm W FJson (fun t _ => doc = t) p ->
  distinct_keys doc -> stok s -> irel (hp s) (froms s) i p ->
  (base_json_transform W perm FJson i doc s).2 <> Panic.
Proof.
  intros Hwf Hpure Hcalm Hdoc Hs Hi.
  destruct (json_transform_gen (N := False) i p doc s Hwf Hpure (or_intror Hcalm) Hdoc Hs Hi) as [_ Hr].
  destruct (den W FJson p doc []) as [t|]; [|destruct Hr as [-> |[[] _]]; done].
  rewrite Hr. unfold print. case_decide; [|done]. by destruct (tree_ok t).
Qed.
Theorem xml_transform_calm i p n s : wf_paths p -> pure FXml p -> calm W FXml node_mod p ->
  stok s -> irel (hp s) (froms s) i p ->
  (base_xml_transform W perm FXml i n s).2 <> Panic.
Proof.
  intros Hwf Hpure Hcalm Hs Hi.
  destruct (xml_transform_gen (N := False) i p n s Hwf Hpure (or_intror Hcalm) Hs Hi) as [_ Hr].
  destruct (den W FXml p (TNode n) []) as [t|]; [|destruct Hr as [-> |[[] _]]; done].
  rewrite Hr. unfold print. case_decide; [|done]. by destruct (tree_ok t).
Qed.
End top.

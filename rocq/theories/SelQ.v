(** The pure reading of a schema with transforms of objects is the projection of SpecSel; calls. *)
From stdpp Require Import strings list gmap.
From Coq Require Import ZArith Lia.
From Verif Require Import GoStr GoStrL Val Conv Instr Heap Schema Build Api SpecPath PathL Den SpecSchema Param HeapL Refine Top BuildL
  SpecProj ProjL SpecRun RunL SpecArr ArrT ArrH ArrW ArrD ArrE ArrP ArrQ SelH SelD SelE SpecSel SelP.
From Verif Require Import SpecDef.
Notation idents := (Forall (fun k => ident k = true)).

Lemma obj_of_overlay r : obj_of r = obj_or_nil (overlay [] r).
Proof. unfold obj_of, overlay. cbv zeta. change (filter ?P []) with (@nil (string * tree)). rewrite app_nil_r. by destruct (filter _ r). Qed.
Lemma locate_getp w t : locate (loc w) t = getp w t.
Proof. revert t. induction w as [|k w IH]; intros t; [done|]. cbn. destruct (member k t); [|done]. apply IH. Qed.

(** ** the reading is the projection *)
Section oproj.
Context (W : oracles).
Lemma oden_den doc :
  (forall σ σp s p, prel σ σp s p -> forall m, oden W doc p m = den W FJson p doc m) /\
  (forall σ cs cs', prel_all σ cs cs' -> forall m,
     List.map (fun kc : string * pitr => match kc with (k, c) => pair k <$> oden W doc c m end) cs' =
     List.map (fun kd : string * (tree -> modifier -> option tree) => pair kd.1 <$> kd.2 doc m)
       (List.map (fun kc => match kc with (k, c) => (k, den W FJson c) end) cs')).
Proof.
  apply prel_mutind.
  - done.
  - intros σ σp cs cs' _ IH _ m. cbn [oden den run_ptis]. unfold den_obj. rewrite <- IH.
    change (Some ?x ≫= ?f) with (f x). cbv beta. cbn [base_of]. change (Some ?x ≫= ?f) with (f x). cbv beta.
    destruct (all_of _) as [r|]; [|done]. cbn. by rewrite obj_of_overlay.
  - intros σ σp c c' _ IH m. cbn [oden den]. unfold oarr, den_arr, jbase, den_items. cbv zeta. cbn [run_ptis].
    change (Some ?x ≫= ?f) with (f x). cbv beta. cbn [tnil negb].
    assert (E : forall its : list tree, arr_of <$> all_of (imap (fun i (_ : tree) => oden W doc c' (path_replace (apply_mod m (path_of σ) +:+ "[*]") (apply_mod m (path_of σ) +:+ idx_str i) m)) its)
       = arr_of <$> all_of (imap (fun i (_ : tree) => den W FJson c' doc (path_replace (apply_mod m (path_of σ) +:+ "[*]") (apply_mod m (path_of σ) +:+ idx_str i) m)) its)).
    { intros its. do 2 f_equal. apply imap_ext_all. intros. apply IH. }
    destruct (jget W tview (apply_mod m (path_of σ)) doc) as [g|]; [|done].
    destruct (gtree g) as [[]|l|kvs|n|l]; cbn [tnil negb]; try done; change (Some ?x ≫= ?f) with (f x); cbv beta; cbn [fst snd listed]; by rewrite E.
  - done.
  - intros σ k c cs c' cs' _ _ IH1 _ IH2 m. cbn [List.map fst snd]. by rewrite IH1, IH2.
Qed.
Context (Hstack : 0 < o_stack W).
Lemma chosen_eq ρp x dl pt doc : idents ρp -> by_names x -> tsr (loc ρp) (Some (MFirst, dl, [(x, [])])) pt -> small doc ->
  (forall l, getp (goal ρp x) doc <> Some (TArr l)) ->
  (v ← run_ptis W FJson pt doc "object" []; base_of v) = chosen doc (Some x) (locate (loc ρp) doc).
Proof.
  intros Hidp Hx Ht Hsm Hna.
  rewrite (run_transformed W pt (Some (MFirst, dl, [(x, [])])) doc "object" [] (loc ρp) (loc ρp)); [|exact Ht|apply nested_loc|by apply loc_concrete|done].
  assert (Es : source doc (locate (loc ρp) doc) x = getp (goal ρp x) doc).
  { rewrite <- locate_getp. destruct (goal_spec ρp x Hidp Hx) as (_ & _ & _ & ->). destruct x as [τ|τ]; cbn [source]; [by rewrite locate_app|done]. }
  unfold transformed, chosen. cbn [fmap list_fmap first_of]. unfold entry. cbn [fst snd]. rewrite Es.
  destruct (getp (goal ρp x) doc) as [t|]; [|done].
  assert (Hc : (forall l, t <> TArr l) -> t <> TS SNil -> convert W tview "object" (GV t) = Some (GV t, false)).
  { intros H1 H2. unfold convert. destruct (o_stack W) as [|n]; [lia|]. cbn [convert_go]. destruct t as [[]|l|kvs|n'|l']; try done. by destruct (H1 l). }
  assert (Hna' : forall l, t <> TArr l) by (intros l ->; by eapply Hna).
  destruct t as [[]|l|kvs|n|l]; try done; try (rewrite Hc by done; done). 
Qed.
Lemma oden_oproject doc (Hsm : small doc) (ws : list (list string)) (Harr : forall w l, w ∈ ws -> getp w doc <> Some (TArr l)) :
  (forall ρ ρp s p, orel ρ ρp s p -> idents ρ -> idents ρp -> (forall w, w ∈ selections s ρ ρp -> w ∈ ws) ->
     oden W doc p [] = oproject W doc s (locate (loc ρp) doc) (locate (loc ρ) doc)) /\
  (forall ρ cs cs', orel_all ρ cs cs' -> idents ρ ->
     (forall w, w ∈ List.concat (List.map (fun kc => match kc with (k, c) => selections c (ρ ++ [k]) ρ end) cs) -> w ∈ ws) ->
     List.map (fun kc : string * pitr => match kc with (k, c) => pair k <$> oden W doc c [] end) cs' =
     List.map (fun kc : string * osch => match kc with (k, c) => pair k <$> oproject W doc c (locate (loc ρ) doc) (locate (loc ρ) doc ≫= member k) end) cs).
Proof.
  apply orel_mutind.
  - intros ρ ρp jt d ts pt Ht Hid Hidp _. cbn [oden oproject].
    pose proof (proj1 (den_project W) (loc ρ) (loc ρp) (Leaf jt d ts) _ (prel_leaf _ _ jt d ts pt Ht) (loc ρ) (loc ρp) [] doc
      (nested_loc ρ) (nested_loc ρp) (loc_concrete _ Hid) (loc_concrete _ Hidp) Hsm) as H. exact H.
  - intros ρ ρp c c' Hc Hid Hidp _. cbn [oproject].
    assert (Hp : prel (loc ρ) (loc ρp) (Lst c) (PArr (path_of (loc ρ)) None None c')) by (by constructor).
    rewrite (proj1 (oden_den doc) _ _ _ _ Hp).
    by apply (proj1 (den_project W) (loc ρ) (loc ρp) (Lst c) _ Hp (loc ρ) (loc ρp) [] doc (nested_loc ρ) (nested_loc ρp) (loc_concrete _ Hid) (loc_concrete _ Hidp) Hsm).
  - intros ρ ρp sel cs pt cs' _ IH _ Hsel Hid Hidp Hin. cbn [oden oproject selections] in *. rewrite IH; [|done|intros w Hw; apply Hin, elem_of_app; by right].
    set (rest := fun kvs => (fun r => obj_or_nil (overlay kvs r)) <$> all_of (List.map (fun kc : string * osch => match kc with (k, c) => pair k <$> oproject W doc c (locate (loc ρ) doc) (locate (loc ρ) doc ≫= member k) end) cs)).
    transitivity ((v ← run_ptis W FJson pt doc "object" []; base_of v) ≫= rest).
    { destruct (run_ptis W FJson pt doc "object" []) as [v|]; done. }
    destruct sel as [x|]; [|by subst].
    destruct Hsel as [Hx [dl Ht]]. rewrite (chosen_eq ρp x dl pt doc); try done.
    intros l. apply Harr, Hin. cbn. by left.
  - done.
  - intros ρ k c cs c' cs' Hk Hc IHc Hcs IHcs Hid Hin. cbn [List.map List.concat] in *.
    assert (E : locate (loc (ρ ++ [k])) doc = locate (loc ρ) doc ≫= member k) by (by rewrite loc_snoc, locate_name).
    f_equal; [|apply IHcs; [done|intros w Hw; apply Hin, elem_of_app; by right]].
    rewrite IHc; [by rewrite E|apply Forall_app; split; [done|by constructor]|done|]. intros w Hw. apply Hin, elem_of_app. by left.
Qed.
End oproj.

(** ** from the raw schema *)
Lemma oshape_reads W tid :
  (forall raw s, oshape W tid raw s -> forall ρp k, idents (ρp ++ [k]) ->
   exists p, reads W tid (loc (ρp ++ [k])) raw p /\ orel (ρp ++ [k]) ρp s p) /\
  (forall ps cs, oshape_all W tid ps cs -> forall ρ, idents ρ -> Forall (fun kp => ident kp.1 = true) ps ->
   exists cs', reads_all W tid (loc ρ) ps cs' /\ orel_all ρ cs cs').
Proof.
  apply oshape_mutind.
  - intros raw jt nl jt' ts Hft Hna Hobj Hlt Hdk Hsec ρp k Hid. apply Forall_app in Hid as [Hidp Hk]. inversion Hk; subst.
    destruct (section_sec W tid raw ts (loc ρp) Hsec) as (pt & Hpt & Htr).
    eexists. split; [|by constructor]. eapply reads_leaf; try done. rewrite loc_snoc, parent_member; [done|by apply ident_seg_ok|by apply ident_plain].
  - intros raw nl i c Hft Hi [Hd Hb] Hc ρp k Hid. pose proof Hid as Hidk. apply Forall_app in Hid as [Hidp Hk]. inversion Hk; subst.
    destruct (proj1 (shape_reads W tid) i c Hc (loc (ρp ++ [k]) ++ [Star]) (loc (ρp ++ [k]) ++ [Star])) as (c' & H3 & H4).
    { split; [apply Forall_app; split; [by apply ident_seg_ok|]; constructor; [exact I|constructor]|]. right. by eexists. }
    exists (PArr (path_of (loc (ρp ++ [k]))) None None c'). split; [|by constructor].
    eapply reads_arr; try done.
    + by apply section_bare.
    + unfold dflt_of. by rewrite Hd.
    + unfold dflt_of. by rewrite Hd.
  - intros raw nl ps sel cs Hft Hps Hne Hd Hsel Hnd Hidc Hall IH ρp k Hid. pose proof Hid as Hidk. apply Forall_app in Hid as [Hidp Hk]. inversion Hk as [|? ? Hk1 _]; subst.
    destruct (IH (ρp ++ [k]) Hidk Hidc) as (cs' & H1 & H2).
    assert (E : cs.*1 = ps.*1). { clear -Hall. induction Hall; cbn; [done|by f_equal]. }
    assert (Hs : exists pt, section W tid raw (path_of (loc ρp)) = Ok pt /\
      match sel with None => pt = None | Some x => by_names x /\ exists dl, tsr (loc ρp) (Some (MFirst, dl, [(x, [])])) pt end).
    { destruct sel as [x|].
      - destruct Hsel as (dl & Hsec & Hx). destruct (section_sec W tid raw _ (loc ρp) Hsec) as (pt & Hpt & Htr). exists pt. split; [done|]. split; [done|]. by exists dl.
      - exists None. split; [|done]. by apply section_bare. }
    destruct Hs as (pt & Hpt & Hsel'). exists (PObj (path_of (loc (ρp ++ [k]))) None pt cs'). split.
    + eapply reads_obj; try done.
      * rewrite loc_snoc, parent_member; [done|by apply ident_seg_ok|by apply ident_plain].
      * by rewrite Hd.
      * eapply Forall_impl; [exact Hidc|]. intros kp. apply ident_plain.
    + constructor; [done|by rewrite E|done].
  - intros ρ _ _. exists []. split; constructor.
  - intros k p ps c cs Hp IHp Hps IHps ρ Hid Hidc. inversion Hidc as [|? ? Hk Hid']; subst. cbn in Hk.
    destruct (IHp ρ k) as (p' & H1 & H2). { apply Forall_app. split; [done|by constructor]. }
    destruct (IHps ρ Hid Hid') as (cs' & H3 & H4). exists ((k, p') :: cs'). split; constructor; try done. by rewrite <- loc_snoc.
Qed.
Lemma oshape_inst W tid :
  (forall raw s, oshape W tid raw s -> forall σ r, inst raw σ r -> well_named1 r) /\
  (forall ps cs, oshape_all W tid ps cs -> forall k p σ r, (k, p) ∈ ps -> inst p σ r -> well_named1 r).
Proof.
  apply oshape_mutind.
  - intros raw jt nl jt' ts Hft Hna Hobj Hlt Hdk Hsec σ r Hr.
    assert (r = raw) as ->.
    { inversion Hr as [|? nl2 ps k p σ' ? Hft2 Hps Hin|? nl2 i σ' ? Hft2]; subst; [done| |]; rewrite Hft in Hft2; injection Hft2 as -> ->; [|done].
      rewrite Hobj in Hps by done. injection Hps as <-. by apply elem_of_nil in Hin. }
    split; [|done].
    intros nl2 ps Hft2 Hps. rewrite Hft in Hft2. injection Hft2 as -> ->. rewrite Hobj in Hps by done. injection Hps as <-. split; constructor.
  - intros raw nl i c Hft Hi [Hd Hs] Hc σ r Hr.
    inversion Hr as [|? nl2 ps2 k p σ' ? Hft2 Hps2 Hin Hr'|? nl2 i2 σ' ? Hft2 Hi2 Hr']; subst; [|congruence|].
    + split; [|unfold dflt_of; by rewrite Hd]. intros nl2 ps2 Hft2. congruence.
    + rewrite Hi in Hi2. injection Hi2 as <-. by eapply (proj1 (shape_inst W tid) _ _ Hc).
  - intros raw nl ps sel cs Hft Hps Hne Hd Hs Hnd Hid Hall IH σ r Hr.
    inversion Hr as [|? nl2 ps2 k p σ' ? Hft2 Hps2 Hin Hr'|? nl2 i σ' ? Hft2]; subst; [| |congruence].
    + split.
      * intros nl2 ps2 _ Hps2. rewrite Hps in Hps2. injection Hps2 as <-. split; [done|]. eapply Forall_impl; [exact Hid|]. intros kp. apply ident_plain.
      * by rewrite Hd.
    + rewrite Hps in Hps2. injection Hps2 as <-. by eapply IH.
  - intros k p σ r Hin. by apply elem_of_nil in Hin.
  - intros k p ps c cs Hp IHp Hps IHps k' p' σ r Hin Hr. apply elem_of_cons in Hin as [[= -> ->]|Hin]; [by eapply IHp|by eapply IHps].
Qed.
Lemma oshaped_ok W tid ps s : oshaped W tid ps s -> well_named (Some ps) None.
Proof.
  intros (cs & -> & Hnd & Hid & Hall). split.
  - intros ps' [= <-]. split; [done|]. eapply Forall_impl; [exact Hid|]. intros kp. apply ident_plain.
  - intros σ r Hr. inversion Hr; subst; [|done]. by eapply (proj2 (oshape_inst W tid)).
Qed.
Lemma oshaped_reads W tid ps s p : oshaped W tid ps s -> schema_reads W tid (Some ps) None p -> orel [] [] s p.
Proof.
  intros (cs & -> & Hnd & Hid & Hall) (cs' & -> & Hr).
  destruct (proj2 (oshape_reads W tid) ps cs Hall [] ltac:(constructor) Hid) as (cs2 & H1 & H2).
  rewrite (proj2 (reads_fun W tid) _ _ _ H1 _ Hr). constructor; [done| |done].
  assert (E : cs.*1 = ps.*1); [|by rewrite E]. clear -Hall. induction Hall; cbn; [done|by f_equal].
Qed.

(** ** what is selected and replaced *)
Lemma orel_idents :
  (forall ρ ρp s p, orel ρ ρp s p -> idents ρ -> idents ρp ->
     (forall w, w ∈ selections s ρ ρp -> idents w) /\
     (forall d, d ∈ replaced s ρ ρp -> idents d /\ exists w k, w ∈ selections s ρ ρp /\ d = w ++ [k])) /\
  (forall ρ cs cs', orel_all ρ cs cs' -> idents ρ ->
     let sl := List.concat (List.map (fun kc => match kc with (k, c) => selections c (ρ ++ [k]) ρ end) cs) in
     idents cs.*1 /\ (forall w, w ∈ sl -> idents w) /\
     (forall d, d ∈ List.concat (List.map (fun kc => match kc with (k, c) => replaced c (ρ ++ [k]) ρ end) cs) ->
        idents d /\ exists w k, w ∈ sl /\ d = w ++ [k])).
Proof.
  apply orel_mutind.
  - intros ρ ρp jt d ts pt _ _ _. split; intros w Hw; by apply elem_of_nil in Hw.
  - intros ρ ρp c c' _ _ _. split; intros w Hw; by apply elem_of_nil in Hw.
  - intros ρ ρp sel cs pt cs' _ IH _ Hsel Hid Hidp. cbn [selections replaced]. destruct (IH Hid) as (H0 & H1 & H2). split.
    + intros w Hw. apply elem_of_app in Hw as [Hw|Hw]; [|by apply H1]. destruct sel as [x|]; [|by apply elem_of_nil in Hw].
      apply elem_of_list_singleton in Hw as ->. destruct Hsel as [Hx _]. by apply goal_spec.
    + intros d Hd. apply elem_of_app in Hd as [Hd|Hd].
      * destruct sel as [x|]; [|by apply elem_of_nil in Hd]. destruct Hsel as [Hx _]. apply elem_of_list_In, in_map_iff in Hd as ([k c] & <- & Hkc).
        apply elem_of_list_In in Hkc. cbn [fst]. split.
        -- apply Forall_app. split; [by apply goal_spec|]. constructor; [|constructor]. rewrite Forall_forall in H0. apply H0. by apply (elem_of_list_fmap_1 fst) in Hkc.
        -- exists (goal ρp x), k. split; [|done]. apply elem_of_app. left. cbn. by left.
      * destruct (H2 d Hd) as (A & w & k & Hw & ->). split; [done|]. exists w, k. split; [|done]. apply elem_of_app. by right.
  - intros ρ _. split; [constructor|]. split; intros w Hw; by apply elem_of_nil in Hw.
  - intros ρ k c cs c' cs' Hk _ IHc _ IHcs Hid. cbv zeta. cbn [List.map List.concat fmap list_fmap fst]. destruct (IHcs Hid) as (H0 & H1 & H2).
    destruct IHc as [C1 C2]; [by apply Forall_app; split; [|constructor]|done|]. split; [by constructor|]. split.
    + intros w Hw. apply elem_of_app in Hw as [Hw|Hw]; [by apply C1|by apply H1].
    + intros d Hd. apply elem_of_app in Hd as [Hd|Hd].
      * destruct (C2 d Hd) as (A & w & k' & Hw & ->). split; [done|]. exists w, k'. split; [|done]. apply elem_of_app. by left.
      * destruct (H2 d Hd) as (A & w & k' & Hw & ->). split; [done|]. exists w, k'. split; [|done]. apply elem_of_app. by right.
Qed.

(** ** calls *)
Section calls.
Context (W : oracles) (HW : jpath_parametric W) (E : env) (HE : unmarshals E).
Lemma tnv_ospec perm i p sc raw doc s : orders perm -> wf_paths p -> orel [] [] sc p -> separated sc -> stok s -> irel (hp s) (froms s) i p ->
  e_json E raw = Some doc -> no_array sc doc ->
  let r := transform_no_validation W E perm FJson i raw s in
  step s r.1 /\ outcome W (oden W doc p []) r.2.
Proof.
  intros Ho Hwf Hr [Hsep Hun] Hs Hi Ed Hna. cbv zeta. cbn [transform_no_validation]. unfold Api.base_json. rewrite Ed.
  destruct (proj1 orel_idents _ _ _ _ Hr ltac:(constructor) ltac:(constructor)) as [HI1 HI2].
  apply (json_transform_oden W HW perm Ho (selections sc [] []) (replaced sc [] [])); try done.
  - intros w w' Hw Hw'. apply elem_of_list_lookup in Hw as [a Ha]. apply elem_of_list_lookup in Hw' as [b Hb].
    destruct (decide (a = b)) as [->|Hne]; [left; congruence|]. right. by eapply Hsep.
  - intros d Hd. by apply HI2.
  - by eapply HE.
  - intros w l Hw. rewrite <- locate_getp. by apply Hna.
  - eapply (proj1 (orel_ook _ _ HI1 (fun d Hd => proj1 (HI2 d Hd)) (fun d Hd => proj2 (HI2 d Hd)))); [exact Hr|constructor|constructor| |done|done|exact Hun].
    apply NoDup_alt. intros a b w Ha Hb. destruct (decide (a = b)) as [|Hne]; [done|]. by destruct (Hsep a b w w Ha Hb Hne) as [[] _].
Qed.
(** a new transformer *)
Lemma oshaped_new tid ps sc i s perm raw doc : 0 < o_stack W ->
  oshaped W tid ps sc -> separated sc -> new_transformer W tid (Some ps) None st0 = (s, Ok i) -> orders perm ->
  e_json E raw = Some doc -> small doc -> no_array sc doc ->
  outcome W (oproject W doc sc (Some doc) (Some doc)) (transform_no_validation W E perm FJson i raw s).2.
Proof.
  intros Hst0 Hsh Hsep Hn Ho Hj Hsm Hna. pose proof (oshaped_ok _ _ _ _ Hsh) as Hw.
  destruct (new_reads W tid (Some ps) None s i Hw Hn) as (p & Hr & Hst & Hi).
  pose proof (oshaped_reads _ _ _ _ _ Hsh Hr) as Hrel.
  destruct (tnv_ospec perm i p sc raw doc s Ho) as [_ H]; try done.
  { eapply schema_wf; [exact Hw|done]. }
  rewrite (proj1 (oden_oproject W Hst0 doc Hsm (selections sc [] []) ltac:(intros w l Hw'; rewrite <- locate_getp; by apply Hna)) [] [] sc p Hrel) in H; try done; constructor.
Qed.
End calls.

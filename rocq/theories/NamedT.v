(** Whole files, when structs are not nested. *)
From stdpp Require Import strings list gmap.
From Coq Require Import Ascii ZArith Lia.
From Verif Require Import GoStr GoStrL Val Conv Schema Inst Load SpecPath PathL SpecWalk WalkL SpecLoad FlatL SpecGen SpecNamed Gen GenL SortL GenP GenM GenT KeyedL NamedL NamedM.

(** what the walk meets has distinct, non-empty names *)
Lemma ndeclares_named title rename pointers :
  (forall P k req null r ty Ss, nholds title rename pointers P k req null r ty Ss -> forall τ x ps, kinst KW r τ x -> KW x = (true, KObj ps) -> named ps) /\
  (forall P req k r d Ss, ndeclares title rename pointers P req k r d Ss -> field_name k /\ forall τ x ps, kinst KW r τ x -> KW x = (true, KObj ps) -> named ps) /\
  (forall P reqs ps ds Ss, ndeclares_all title rename pointers P reqs ps ds Ss ->
     Forall (fun kp => field_name kp.1 /\ forall τ x qs, kinst KW kp.2 τ x -> KW x = (true, KObj qs) -> named qs) ps).
Proof.
  assert (Hleaf : forall r, KW r = (true, KLeaf) -> forall τ x ps, kinst KW r τ x -> KW x = (true, KObj ps) -> named ps).
  { intros r Hr τ x ps Hk HK. destruct Hk; congruence. }
  assert (Hobj : forall r i ps, d_inst false r = Ok i -> one_type i "object" -> n_props i = Some ps -> NoDup ps.*1 ->
    Forall (fun kp => field_name kp.1 /\ forall τ x qs, kinst KW kp.2 τ x -> KW x = (true, KObj qs) -> named qs) ps ->
    forall τ x qs, kinst KW r τ x -> KW x = (true, KObj qs) -> named qs).
  { intros r i ps Hi Ht Hps Hnd IH τ x qs Hk HK.
    assert (HKr : KW r = (true, KObj ps)). { rewrite (KW_ok _ _ Hi), (one_type_has i _ _ Ht) by done. by rewrite Hps. }
    destruct Hk as [|raw ps0 k p σ x HK' Hin Hk|raw j σ x HK' Hk]; [| |congruence].
    + assert (qs = ps) as -> by congruence. split; [done|]. eapply Forall_impl; [exact IH|]. intros [k p] [[(_ & _ & Hne) _] _]. done.
    + assert (ps0 = ps) as -> by congruence. destruct (proj1 (Forall_forall _ _) IH _ Hin) as [_ Hn]. by eapply Hn. }
  apply ndeclares_mutind.
  - intros P k req null r i t b Hi Ht Hb. apply Hleaf. rewrite (KW_ok _ _ Hi), !(one_type_has i t _ Ht) by done.
    rewrite !bool_decide_eq_false_2; [done|..]; intros <-; done.
  - intros P k req null r i Hi Ht Hfm. apply Hleaf. by rewrite (KW_ok _ _ Hi), !(one_type_has i _ _ Ht) by done.
  - intros P k req null r i ps d ds Ss Hi Ht Hps _ IH _ Hnd. by eapply Hobj.
  - intros P k req null r i ps Ss Hi Ht Hps _ IH Hnd _. by eapply Hobj.
  - intros P req k r i ty Ss Hi Hk _ IH. done.
  - intros P req k r i y ty Ss Hi Ht Hk Hy _ IH. split; [done|]. intros τ x ps Hkx HK.
    assert (HKr : KW r = (true, KArr y)). { rewrite (KW_ok _ _ Hi), !(one_type_has i _ _ Ht) by done. cbn. by rewrite Hy. }
    destruct Hkx as [|raw ps0 k' p σ x HK' Hin Hkx|raw j σ x HK' Hkx]; [congruence|congruence|]. assert (j = y) as -> by congruence. by eapply IH.
  - intros P req k r i y j Hi Ht Hk Hy Hj (Hh & Ho & Ha). split; [done|]. intros τ x ps Hkx HK.
    assert (HKr : KW r = (true, KArr y)). { rewrite (KW_ok _ _ Hi), !(one_type_has i _ _ Ht) by done. cbn. by rewrite Hy. }
    destruct Hkx as [|raw ps0 k' p σ x HK' Hin Hkx|raw z σ x HK' Hkx]; [congruence|congruence|]. assert (z = y) as -> by congruence.
    eapply Hleaf; [|done|done]. rewrite (KW_ok _ _ Hj). unfold has_type. change (default [] (n_type j)) with (types j). by rewrite !bool_decide_eq_false_2 by done.
  - constructor.
  - intros P reqs k r i ps ds Ss Hi (Hh & Ho & Ha) Hk _ IH. constructor; [|done]. split; [done|]. apply Hleaf. cbn.
    rewrite (KW_ok _ _ Hi). unfold has_type. change (default [] (n_type i)) with (types i). by rewrite !bool_decide_eq_false_2 by done.
  - intros P reqs k r d ps ds Ss Ss' _ Hd _ IH. by constructor.
Qed.

Section gen.
Context (W : oracles) (A : args) (root_name : string).
Notation rename := (a_fieldNames A).
Notation title := (exported W).
Notation pointers := (a_pointers A).
Notation K0 := (title root_name).
Notation does := (does title K0 (gmk) (gfld W A)).
Notation does_value := (does_value title K0 (gmk) (gfld W A)).
Notation ngood := (ngood A).
Notation vitem := (vitem W A).
Notation pitem := (pitem W A).
Notation ritem := (ritem W A).
Notation field_res := (field_res W A).

Lemma hydrated_fld tp s k Q i : hydrated_leaf i -> gfld W A tp s k Q i = Ok s.
Proof.
  intros (Hh & Ho & Ha). unfold gfld. assert (Hob : has_type "object" i = false) by (by apply bool_decide_eq_false_2). rewrite Hob.
  rewrite add_hydrated; [cbn; by rewrite with_same|]. by apply bool_decide_eq_true_2.
Qed.
Lemma leaf_fld tp s k Q i t arr desc name null : start W A arr (g_fields s) k i desc name null -> one_type i t -> t <> "array" -> t <> "object" -> t <> "graphql-hydration" ->
  gfld W A tp s k Q i = Ok (with_fields s (put k (first_field arr k t i desc name null) (g_fields s))).
Proof.
  intros Hst Ht Hta Hto Hth. unfold gfld. rewrite (one_type_has i t _ Ht) by done. rewrite bool_decide_eq_false_2 by congruence.
  cbn [add_field]. rewrite (one_type_has i t _ Ht) by done. rewrite bool_decide_eq_false_2 by congruence. by rewrite (leaf_first W A _ _ _ _ _ _ _ _ Hst Ht).
Qed.
Lemma array_fld tp s k Q i : assocd k (g_fields s) = None -> one_type i "array" ->
  gfld W A tp s k Q i = Ok (with_fields s (put k (Field true (n_desc i) false [] k "" (title (default k (rename k))) (nullable i) []) (g_fields s))).
Proof.
  intros Hn Ht. unfold gfld. rewrite (one_type_has i _ _ Ht) by done. cbn [bool_decide]. 
  assert (bool_decide ("object" = "array") = false) as -> by done. cbn [add_field]. rewrite (one_type_has i _ _ Ht) by done.
  assert (bool_decide ("graphql-hydration" = "array") = false) as -> by done. by rewrite (array_first W A _ _ _ Hn Ht).
Qed.
Definition obj_field (arr : bool) (k ty desc name : string) (null : bool) : field := Field arr desc false [] k ty name (arr && null) [].
Lemma object_fld tp s k Q i arr desc name null : start W A arr (g_fields s) k i desc name null -> one_type i "object" -> capital Q ->
  gfld W A tp s k Q i = Ok (with_fields s (put k (obj_field arr k (gty A s k Q i) desc name null) (g_fields s))).
Proof.
  intros Hst Ht HQ. unfold gfld. rewrite (one_type_has i _ _ Ht) by done. assert (bool_decide ("object" = "object") = true) as -> by done.
  set (ty := gty A s k Q i).
  assert (Hty : ty = Q \/ ty = "*" +:+ Q). { unfold ty, gty. destruct (_ || _); [by right|by left]. }
  assert (Hne : forall x, x ∈ ["boolean"; "number"; "integer"; "string"; "date-time"; "object"; "array"; "null"; "graphql-hydration"; "";
    "bool"; "float64"; "int64"; "time.Time"; "map[string]string"; "struct"; "[]"] -> ty <> x).
  { intros x Hx. destruct Hty as [-> | ->]; [by apply capital_ne|]. intros <-. repeat (apply elem_of_cons in Hx as [Hx|Hx]; [done|]). by apply elem_of_nil in Hx. }
  assert (Ho : one_type (as_type i ty) ty).
  { split; [|apply Hne; set_solver]. change (types (as_type i ty)) with [ty]. rewrite filter_cons_True; [done|]. apply Hne. set_solver. }
  assert (Hs : start W A arr (g_fields s) k (as_type i ty) desc name (arr && null)).
  { destruct arr; [done|]. destruct Hst as (H1 & H2 & H3 & H4). split_and!; [done..|]. cbn. symmetry. apply bool_decide_eq_false_2. cbn. intros H%elem_of_list_singleton.
    symmetry in H. revert H. apply Hne. set_solver. }
  cbn [add_field]. rewrite (one_type_has (as_type i ty) ty _ Ho) by done. rewrite bool_decide_eq_false_2 by (intros E; symmetry in E; revert E; apply Hne; set_solver).
  rewrite (leaf_first W A _ _ _ _ _ _ _ _ Hs Ho) by (apply Hne; set_solver). cbn [rbind]. do 2 f_equal. unfold first_field, obj_field.
  rewrite decide_False by (apply Hne; set_solver). rewrite decide_False; [done|]. intros [E _]. revert E. apply Hne. set_solver.
Qed.
Lemma cons_nil : cons [] [] [].
Proof. split; [intros k H; by apply elem_of_nil in H|]. split; [intros k H; by apply elem_of_nil in H|intros Q ds H; by apply elem_of_nil in H]. Qed.
Lemma field_res_nil req d f : (forall nested excl, cons nested excl [] -> ngood nested excl req f d) -> field_res req d [] f [].
Proof. intros H. destruct (H [] [] cons_nil) as (Hgo & Htm & _). split; [by exists []|]. split_and!; [done..|]. done. Qed.

Lemma nodup_sublist {B} (l k : list B) : sublist l k -> NoDup k -> NoDup l.
Proof.
  induction 1 as [|x l k H IH|x l k H IH]; intros Hn; [done| |]; apply NoDup_cons in Hn as [Hx Hn]; [|by apply IH]. constructor; [|by apply IH].
  intros Hl. apply Hx. by eapply elem_of_submseteq, sublist_submseteq.
Qed.
Lemma Forall2_perm {B C} (R : B -> C -> Prop) k k' : k ≡ₚ k' -> forall l, Forall2 R l k -> exists l', l' ≡ₚ l /\ Forall2 R l' k'.
Proof.
  induction 1 as [|x k k' Hp IH|x y k|k1 k2 k3 H1 IH1 H2 IH2]; intros l H.
  - by exists l.
  - inversion H as [|b c l0 k0 Hb Hl]; subst. destruct (IH _ Hl) as (l' & Hl' & HR). exists (b :: l'). split; [by rewrite Hl'|by constructor].
  - inversion H as [|b c l0 k0 Hb Hl]; subst. inversion Hl as [|b' c' l1 k1 Hb' Hl']; subst. exists (b' :: b :: l1). split; [by constructor|by repeat constructor].
  - destruct (IH1 _ H) as (l1 & Hp1 & HR1). destruct (IH2 _ HR1) as (l2 & Hp2 & HR2). exists l2. split; [by rewrite Hp2|done].
Qed.
Lemma nil_len {B C} (l : list B) (l' : list C) : length l = length l' -> l = [] <-> l' = [].
Proof. destruct l, l'; cbn; try done; split; done. Qed.
Lemma value_does_leaf tp P k r i t req null arr desc name ty : field_name k -> d_inst false r = Ok i -> one_type i t -> t <> "array" -> t <> "object" -> t <> "graphql-hydration" ->
  (forall nested excl, cons nested excl [] -> ngood nested excl req (first_field arr k t i desc name null) (GDecl desc name k req (Some (arrt arr ty)))) ->
  does_value tp P (vitem arr k r i req null desc name ty []).
Proof.
  intros Hk Hi Ht Hta Hto Hth Hg.
  pose proof (value_leaf title K0 (gmk) (gfld W A) tp P k r i (fun s => start W A arr (g_fields s) k i desc name null /\ bool_decide (k ∈ g_req s) = req)
    (fun s s' => s' = with_fields s (put k (first_field arr k t i desc name null) (g_fields s))) Hk Hi) as [H1 H2].
  - rewrite (one_type_has i t _ Ht) by done. apply bool_decide_eq_false_2. congruence.
  - rewrite (one_type_has i t _ Ht) by done. apply bool_decide_eq_false_2. congruence.
  - intros s [Hs _]. eexists. split; [by eapply leaf_fld|done].
  - split; [done|]. cbn in *. intros gs a st vs ok Hkey Hgs Htop Hp Hf Hw. destruct (H2 gs a st vs ok Hkey Hgs Htop Hp Hf Hw) as (Hok & s & N & Hr & HN & -> & ->).
    split; [done|]. eexists _, []. split; [exact Hr|]. split; [done|]. eexists. split; [done|]. split; [|by apply field_res_nil].
    unfold first_field. by destruct (decide (t = "object")).
Qed.
Lemma value_does_object tp P k r i ps es ds Ss req null arr desc name ty : field_name k -> capital (P +:+ title k) -> d_inst false r = Ok i -> one_type i "object" -> n_props i = Some ps ->
  map (fun e => (e_k e, e_r e)) es = ps -> omap e_d es = ds -> es ≫= e_S = Ss -> Forall (fun e => e_d e = None -> e_S e = []) es ->
  Forall (does false (P +:+ title k)) (map (ritem (n_required i)) es) -> NoDup ps.*1 -> NoDup (map d_go ds) ->
  uses_time (GDecl desc name k req (Some (arrt arr ty))) = false ->
  (forall nested excl, cons nested excl ((P +:+ title k, by_name ds) :: Ss) ->
     ngood nested excl req (obj_field arr k (if (pointers && negb req) || nullable i then "*" +:+ (P +:+ title k) else P +:+ title k) desc name null) (GDecl desc name k req (Some (arrt arr ty)))) ->
  does_value tp P (vitem arr k r i req null desc name ty ((P +:+ title k, by_name ds) :: Ss)).
Proof.
  intros Hk HQ Hi Ht Hps Hes Hds HSs Hnone Hdo Hndp Hndd Hut Hg. set (Q := P +:+ title k) in *.
  assert (Hndk : NoDup (map e_k es)). { rewrite <- Hes in Hndp. assert (E : map e_k es = (map (fun e => (e_k e, e_r e)) es).*1) by (clear; induction es; [done|]; cbn; by f_equal). by rewrite E. }
  pose proof (value_object title K0 (gmk) (gfld W A) tp P k r i ps (map (ritem (n_required i)) es)
    (fun s => start W A arr (g_fields s) k i desc name null /\ bool_decide (k ∈ g_req s) = req)
    (fun s s' => s' = with_fields s (put k (obj_field arr k (gty A s k Q i) desc name null) (g_fields s))) Hk Hi) as [H1 H2].
  - by rewrite (one_type_has i _ _ Ht).
  - done.
  - by rewrite ritem_pairs.
  - done.
  - by apply ritem_compat.
  - intros s _. apply Forall_forall. intros it (e & -> & _)%elem_of_list_fmap. done.
  - intros s [Hs _]. eexists. split; [by apply object_fld|done].
  - split; [done|]. cbn [vitem NamedM.vitem it_k it_r it_keys it_pre it_R] in *. intros gs a st vs ok Hkey Hgs Htop Hp Hf Hw.
    fold Q in H2. rewrite ritem_keys, HSs in H2.
    destruct (H2 gs a st vs ok Hkey Hgs Htop Hp Hf Hw) as (Hok & s & N & Hr & HN & -> & its' & c & N' & Hits & -> & Hch).
    split; [done|]. eexists _, _. split; [exact Hr|]. split; [exact HN|]. eexists. split; [done|]. split; [done|].
    apply Permutation_map_inv in Hits as (es' & -> & Hes').
    assert (Hnd' : NoDup (map e_k es')). { by rewrite <- Hes'. }
    destruct (chain_fields W A (n_required i) es' (gmk tp (cur st P) k Q i) c N' Hnd') as (L & M & -> & Hsub & HM & HL & Hmw).
    { intros e _. done. }
    { by rewrite <- Hes'. }
    { exact Hch. }
    cbn [gmk g_fields app with_fields] in *.
    assert (HSe : es' ≫= e_S ≡ₚ Ss). { by rewrite <- HSs, Hes'. }
    assert (Hde : omap e_d es' ≡ₚ ds). { by rewrite <- Hds, Hes'. }

    assert (HSub : forall x, x ∈ es' ≫= e_S -> x ∈ (Q, by_name ds) :: Ss). { intros x Hx. right. by rewrite <- HSe. }
    assert (HnL : NoDup L.*1). { eapply nodup_sublist; [exact Hsub|done]. }
    split.
    + destruct (Forall2_perm _ _ _ HSe _ Hmw) as (M' & HM' & Hmw').
      exists ((Q, GStruct Q L (n_required i) []) :: M'). split; [by rewrite HM', HM|]. constructor.
      * split.
        -- split_and!; [done..|]. cbn. apply Forall2_length in HL. rewrite (Permutation_length Hde), <- (Permutation_length (by_name_perm ds)) in HL.
           apply nil_len. done.
        -- intros nested excl Hc. split.
           ++ cbn [snd g_fields fst]. rewrite (time_all A _ _ _ _ HL). rewrite (existsb_perm _ _ _ (by_name_perm ds)). by apply existsb_perm.
           ++ intros ord Hord. cbn. eapply struct_text; [|done|exact HL|done|done|done]. eapply cons_sub; [exact HSub|done].
      * eapply Forall2_impl; [exact Hmw'|]. intros n x H. eapply mw_sub; [|exact H]. intros y Hy. by apply HSub.
    + unfold gty. rewrite (proj2 Hp). change (has_type "null" i) with (nullable i).
      split; [done|]. split; [|done]. rewrite Hut. cbn. apply bool_decide_eq_false_2. destruct (_ || _); [done|]. apply capital_ne; [done|set_solver].
Qed.

Lemma ndeclares_does :
  (forall P k req null r ty Ss, nholds title rename pointers P k req null r ty Ss -> capital P -> field_name k -> exists i, d_inst false r = Ok i /\
     forall tp arr desc name, (arr = false -> null = nullable i) -> does_value tp P (vitem arr k r i req null desc name ty Ss)) /\
  (forall P req k r d Ss, ndeclares title rename pointers P req k r d Ss -> capital P -> forall tp, does tp P (pitem req (Ent k r (Some d) Ss))) /\
  (forall P reqs ps ds Ss, ndeclares_all title rename pointers P reqs ps ds Ss -> capital P ->
     exists es, map (fun e => (e_k e, e_r e)) es = ps /\ omap e_d es = ds /\ es ≫= e_S = Ss /\ Forall (fun e => e_d e = None -> e_S e = []) es /\
       forall tp, Forall (does tp P) (map (ritem reqs) es)).
Proof.
  apply ndeclares_mutind.
  - intros P k req null r i t b Hi Ht Hb HP Hk. exists i. split; [done|]. intros tp arr desc name _.
    destruct (base_go A req arr desc k i t name null b Hb) as (Hf & Hin & Hnd & Hgo & Htm).
    assert (Hne : t <> "array" /\ t <> "object" /\ t <> "graphql-hydration"). { split_and!; intros ->; by repeat (apply elem_of_cons in Hin as [Hin|Hin]; [done|]); apply elem_of_nil in Hin. }
    destruct Hne as (? & ? & ?). eapply value_does_leaf; [done..|]. intros nested excl Hc. unfold first_field. rewrite decide_False by done. rewrite decide_False by done.
    by eapply ngood_flat.
  - intros P k req null r i Hi Ht Hfm HP Hk. exists i. split; [done|]. intros tp arr desc name _. eapply value_does_leaf; [done..|].
    intros nested excl Hc. unfold first_field. rewrite decide_False by done. rewrite decide_True by done. eapply ngood_flat; [done|done|set_solver| |done].
    unfold go_type. cbn. by destruct arr, null, (pointers && negb req).
  - intros P k req null r i ps d ds Ss Hi Ht Hps _ IH Hndd Hndp HP Hk. exists i. split; [done|]. intros tp arr desc name Hnl.
    assert (HQ : capital (P +:+ title k)) by (by apply capital_app). destruct (IH HQ) as (es & H1 & H2 & H3 & H4 & H5).
    eapply value_does_object; [done..| |]; [by destruct arr, (_ || _)|]. intros nested excl Hc. unfold obj_field.
    eapply ngood_named; [exact Hc|done|left| |by intros ->]. intros E. pose proof (Permutation_length (by_name_perm (d :: ds))) as Hl. by rewrite E in Hl.
  - intros P k req null r i ps Ss Hi Ht Hps _ IH Hndp Hptr HP Hk. exists i. split; [done|]. intros tp arr desc name Hnl.
    assert (HQ : capital (P +:+ title k)) by (by apply capital_app). destruct (IH HQ) as (es & H1 & H2 & H3 & H4 & H5).
    change (@nil gdecl) with (by_name []). eapply value_does_object; [done..|constructor| |]; [by destruct arr, null|]. intros nested excl Hc. unfold obj_field. rewrite Hptr.
    assert (En : null = arr && null). { destruct arr; [done|]. rewrite Hnl by done. by apply orb_false_iff in Hptr as [_ ->]. }
    rewrite En at 2. eapply ngood_map; [exact Hc|done|left].
  - intros P req k r i ty Ss Hi Hk _ IH HP tp. destruct (IH HP Hk) as (i' & Hi' & Hd). rewrite Hi in Hi'. injection Hi' as <-.
    destruct (does_plain _ _ _ _ _ _ _ (Hd tp false (n_desc i) (title (default k (rename k))) ltac:(done))) as [_ H]. split; [done|].
    cbn in *. intros gs st vs ok Hkey Hgs Htop [Hp Hrq] Hf Hw. apply (H gs st vs ok); done.
  - intros P req k r i x ty Ss Hi Ht Hk Hx _ IH HP tp. destruct (IH HP Hk) as (j & Hj & Hd).
    set (f0 := Field true (n_desc i) false [] k "" (title (default k (rename k))) (nullable i) []).
    set (vi := vitem true k x j req (nullable i) (n_desc i) (title (default k (rename k))) ty Ss).
    pose proof (does_array title K0 (gmk) (gfld W A) tp P k r i x Ss.*1 (fun s => assocd k (g_fields s) = None /\ bool_decide (k ∈ g_req s) = req)
      (it_pre vi) (it_R vi) (fun s s' => s' = with_fields s (put k f0 (g_fields s))) Hi) as [H1 H2].
    + by rewrite (one_type_has i _ _ Ht).
    + by rewrite (one_type_has i _ _ Ht).
    + done.
    + exact (Hd tp true (n_desc i) (title (default k (rename k))) ltac:(done)).
    + intros s [Hs Hrq]. eexists. split; [by apply array_fld|]. split; [done|]. cbn. split; [|done]. by rewrite assocd_put, decide_True.
    + split; [done|]. cbn in *. intros gs st vs ok Hkey Hgs Htop Hp Hf Hw. destruct (H2 gs st vs ok Hkey Hgs Htop Hp Hf Hw) as (Hok & s & N & Hr & HN & s' & -> & f & -> & Hfj & HR).
      split; [done|]. eexists _, _. split; [exact Hr|]. split; [done|]. exists f. split; [|done]. cbn. by rewrite put_put.
  - intros P req k r i x j Hi Ht Hk Hx Hj Hh HP tp.
    set (f0 := Field true (n_desc i) false [] k "" (title (default k (rename k))) (nullable i) []).
    pose proof (does_array title K0 (gmk) (gfld W A) tp P k r i x [] (fun s => assocd k (g_fields s) = None /\ bool_decide (k ∈ g_req s) = req)
      (fun _ => True) (fun s s' N => s' = s /\ N = []) (fun s s' => s' = with_fields s (put k f0 (g_fields s))) Hi) as [H1 H2].
    + by rewrite (one_type_has i _ _ Ht).
    + by rewrite (one_type_has i _ _ Ht).
    + done.
    + eapply value_leaf; [done|done| | |].
      * apply bool_decide_eq_false_2. apply Hh.
      * apply bool_decide_eq_false_2. apply Hh.
      * intros s _. exists s. split; [by apply hydrated_fld|done].
    + intros s [Hs Hrq]. eexists. split; [by apply array_fld|]. done.
    + split; [done|]. cbn in *. intros gs st vs ok Hkey Hgs Htop Hp Hf Hw. destruct (H2 gs st vs ok Hkey Hgs Htop Hp Hf Hw) as (Hok & s & N & Hr & HN & s' & -> & -> & ->).
      split; [done|]. eexists _, _. split; [exact Hr|]. split; [done|]. exists f0. split; [done|]. split; [done|]. apply field_res_nil. intros nested excl Hc. by eapply ngood_none.
  - intros P reqs HP. exists []. split_and!; [done..|constructor|]. intros tp. constructor.
  - intros P reqs k r i ps ds Ss Hi Hh Hk _ IH HP. destruct (IH HP) as (es & <- & <- & <- & H4 & H5). exists (Ent k r None [] :: es).
    split_and!; [done..|by constructor|]. intros tp. cbn. constructor; [|apply H5].
    pose proof (value_leaf title K0 (gmk) (gfld W A) tp P k r i (fun s => True) (fun s s' => s' = s) Hk Hi) as H.
    apply does_plain. destruct H as [_ H].
    + apply bool_decide_eq_false_2. apply Hh.
    + apply bool_decide_eq_false_2. apply Hh.
    + intros s _. exists s. split; [by apply hydrated_fld|done].
    + split; [done|]. cbn in *. intros gs a st vs ok Hkey Hgs Htop Hp Hf Hw. by apply (H gs a st vs ok).
  - intros P reqs k r d ps ds Ss Ss' _ Hd _ IH HP. destruct (IH HP) as (es & <- & <- & <- & H4 & H5). exists (Ent k r (Some d) Ss :: es).
    split_and!; [done..|by constructor|]. intros tp. cbn. constructor; [|apply H5]. by apply Hd.
Qed.
End gen.

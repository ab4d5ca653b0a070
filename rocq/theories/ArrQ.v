(** The pure reading of a schema with array transforms and defaults is the projection of SpecArr; histories. *)
From stdpp Require Import strings list gmap.
From Coq Require Import ZArith Lia.
From Verif Require Import GoStr GoStrL Val Conv Instr Heap Schema Build Api SpecPath PathL Den SpecSchema Param HeapL Refine Top BuildL
  SpecProj ProjL SpecRun RunL SpecArr ArrT ArrH ArrW ArrD ArrE ArrP.

(** ** the reading is the projection *)
Section jproj.
Context (W : oracles).
Lemma jden_den :
  (forall σ σp s p, prel σ σp s p -> forall cur m, jden W p cur m = den W FJson p cur m) /\
  (forall σ cs cs', prel_all σ cs cs' -> forall cur m,
     List.map (fun kc : string * pitr => match kc with (k, c) => pair k <$> jden W c cur m end) cs' =
     List.map (fun kd : string * (tree -> modifier -> option tree) => pair kd.1 <$> kd.2 cur m)
       (List.map (fun kc => match kc with (k, c) => (k, den W FJson c) end) cs')).
Proof.
  apply prel_mutind.
  - done.
  - intros σ σp cs cs' _ IH _ cur m. cbn [jden den]. unfold den_obj. by rewrite IH.
  - intros σ σp c c' _ IH cur m. cbn [jden den]. unfold jarr, den_arr, jbase, den_items. cbv zeta. cbn [run_ptis].
    change (Some ?x ≫= ?f) with (f x). cbv beta. cbn [tnil negb].
    assert (E : forall its : list tree, arr_of <$> all_of (imap (fun i (_ : tree) => jden W c' cur (path_replace (apply_mod m (path_of σ) +:+ "[*]") (apply_mod m (path_of σ) +:+ idx_str i) m)) its)
       = arr_of <$> all_of (imap (fun i (_ : tree) => den W FJson c' cur (path_replace (apply_mod m (path_of σ) +:+ "[*]") (apply_mod m (path_of σ) +:+ idx_str i) m)) its)).
    { intros its. do 2 f_equal. apply imap_ext_all. intros. apply IH. }
    destruct (jget W tview (apply_mod m (path_of σ)) cur) as [g|]; [|done].
    destruct (gtree g) as [[]|l|kvs|n|l]; cbn [tnil negb]; try done; change (Some ?x ≫= ?f) with (f x); cbv beta; cbn [fst snd listed]; change (Some ?x ≫= ?f) with (f x); cbv beta; by rewrite E.
  - done.
  - intros σ k c cs c' cs' _ _ IH1 _ IH2 cur m. cbn [List.map fst snd]. by rewrite IH1, IH2.
Qed.
Lemma small_set k b kvs : small b -> small (TObj kvs) -> small (TObj (set_key k b kvs)).
Proof.
  intros Hb Hk. apply small_obj. apply small_obj in Hk. unfold set_key. constructor; [done|]. by apply Forall_keep.
Qed.
Lemma small_stored w : forall b t t', small b -> small t -> stored w b t = Some t' -> small t'.
Proof.
  induction w as [|k w IH]; intros b t t' Hb Ht E; [done|]. destruct t as [| |kvs| |]; try done. destruct w as [|k' w].
  - cbn in E. injection E as <-. by apply small_set.
  - rewrite stored_eq in E by done. destruct (stored (k' :: w) b (sub k kvs)) as [u|] eqn:Eu; [|done]. cbn in E. injection E as <-.
    apply small_set; [|done]. eapply IH; [exact Hb| |exact Eu]. unfold sub. destruct (tmap kvs !! k) as [x|] eqn:Ex; [|done].
    assert (Hx : small x) by (by eapply (small_member k (TObj kvs))). destruct x as [[]| | | |]; done.
Qed.
Lemma base_items_eq ρ ρp d ts pt doc : tsr (loc ρp) ts pt -> Forall (fun k => ident k = true) ρ -> Forall (fun k => ident k = true) ρp -> small doc ->
  jbase W (path_of (loc ρ)) d pt doc [] = base_items W doc d ts (locate (loc ρp) doc) (locate (loc ρ) doc).
Proof.
  intros Ht Hid Hidp Hsm. unfold jbase, base_items.
  rewrite (run_transformed W pt ts doc "array" [] (loc ρp) (loc ρp)); [|done|apply nested_loc|by apply loc_concrete|done].
  destruct (transformed W doc "array" (locate (loc ρp) doc) ts) as [g| |]; [|done|done].
  change (Some ?x ≫= ?f) with (f x). cbv beta. rewrite tnil_gtree. destruct (is_nil tview g) eqn:En; cbn [negb].
  - rewrite jget_locate by (done || by apply loc_concrete). destruct (locate (loc ρ) doc) as [t|]; [|done].
    cbn [fmap option_fmap option_map gtree]. destruct t as [[]| | | |]; done.
  - rewrite <- tnil_gtree in En. destruct (gtree g) as [[]| | | |]; done.
Qed.
Lemma jden_jproject :
  (forall ρ ρp s p, jrel ρ ρp s p -> forall doc, Forall (fun k => ident k = true) ρ -> Forall (fun k => ident k = true) ρp -> small doc ->
     sized W doc s (locate (loc ρp) doc) (locate (loc ρ) doc) ->
     jden W p doc [] = jproject W doc s ρ (locate (loc ρp) doc) (locate (loc ρ) doc)) /\
  (forall ρ cs cs', jrel_all ρ cs cs' -> forall doc, Forall (fun k => ident k = true) ρ -> small doc ->
     sized W doc (JRec cs) None (locate (loc ρ) doc) ->
     List.map (fun kc : string * pitr => match kc with (k, c) => pair k <$> jden W c doc [] end) cs' =
     List.map (fun kc : string * jsch => match kc with (k, c) => pair k <$> jproject W doc c (ρ ++ [k]) (locate (loc ρ) doc) (locate (loc ρ) doc ≫= member k) end) cs).
Proof.
  apply jrel_mutind.
  - intros ρ ρp jt d ts pt Ht doc Hid Hidp Hsm _. cbn [jden jproject].
    pose proof (proj1 (den_project W) (loc ρ) (loc ρp) (Leaf jt d ts) _ (prel_leaf _ _ jt d ts pt Ht) (loc ρ) (loc ρp) [] doc
      (nested_loc ρ) (nested_loc ρp) (loc_concrete _ Hid) (loc_concrete _ Hidp) Hsm) as H. exact H.
  - intros ρ ρp cs cs' _ IH _ doc Hid Hidp Hsm Hsz. cbn [jden jproject]. by rewrite IH.
  - intros ρ ρp d ts pt c c' Hne Ht Hc doc Hid Hidp Hsm Hsz. cbn [jden jproject]. unfold jarr. cbv zeta. change (apply_mod [] ?x) with x.
    rewrite (base_items_eq ρ ρp d ts pt doc) by done. cbn [sized] in Hsz.
    destruct (base_items W doc d ts (locate (loc ρp) doc) (locate (loc ρ) doc)) as [[its ch]|]; [|done].
    change (Some ?x ≫= ?f) with (f x). cbv beta. cbn [fst snd]. rewrite plain_loc by done. change (default [] (Some ρ)) with ρ.
    assert (E : forall doc', small doc' -> arr_of <$> all_of (imap (fun i (_ : tree) => jden W c' doc' (path_replace (path_of (loc ρ) +:+ "[*]") (path_of (loc ρ) +:+ idx_str i) [])) its)
      = arr_of <$> all_of (imap (fun i (_ : tree) => project W doc' c (locate (loc ρ) doc' ≫= item i) (locate (loc ρ) doc' ≫= item i)) its)).
    { intros doc' Hsm'. do 2 f_equal. apply imap_ext_all. intros i _.
      rewrite (proj1 jden_den _ _ _ _ Hc).
      pose proof (nested_item [] (loc ρ) (loc ρ) i (nested_loc ρ)) as Hn.
      assert (Hρ' : Forall concrete (loc ρ ++ [Ix i])) by (apply Forall_app; split; [by apply loc_concrete|]; constructor; [exact I|constructor]).
      unfold item_mod in Hn. change (apply_mod [] ?x) with x in Hn.
      rewrite (proj1 (den_project W) _ _ _ _ Hc (loc ρ ++ [Ix i]) (loc ρ ++ [Ix i])) by done. by rewrite locate_ix. }
    destruct ch.
    + destruct (stored ρ (TArr its) doc) as [doc'|] eqn:Es; [|done]. change (Some ?x ≫= ?f) with (f x). cbv beta.
      apply E. eapply small_stored; [|exact Hsm|exact Es]. by apply Hsz.
    + change (Some ?x ≫= ?f) with (f x). cbv beta. by apply E.
  - done.
  - intros ρ k c cs c' cs' Hk Hc IHc Hcs IHcs doc Hid Hsm Hsz. cbn [sized] in Hsz. destruct Hsz as [Hs1 Hs2]. cbn [List.map]. f_equal; [|by apply IHcs].
    assert (E : locate (loc (ρ ++ [k])) doc = locate (loc ρ) doc ≫= member k) by (by rewrite loc_snoc, locate_name).
    rewrite IHc; [by rewrite E|apply Forall_app; split; [done|by constructor]|done|done|by rewrite E].
Qed.
End jproj.

(** ** from the raw schema *)
Lemma ident_seg_ok w : Forall (fun k => ident k = true) w -> Forall seg_ok (loc w).
Proof. intros H. apply Forall_fmap. eapply Forall_impl; [exact H|]. intros k Hk. by apply ident_plain. Qed.
Lemma jshape_reads W tid :
  (forall raw s, jshape W tid raw s -> forall ρp k, Forall (fun k => ident k = true) (ρp ++ [k]) ->
   exists p, reads W tid (loc (ρp ++ [k])) raw p /\ jrel (ρp ++ [k]) ρp s p) /\
  (forall ps cs, jshape_all W tid ps cs -> forall ρ, Forall (fun k => ident k = true) ρ -> Forall (fun kp => ident kp.1 = true) ps ->
   exists cs', reads_all W tid (loc ρ) ps cs' /\ jrel_all ρ cs cs').
Proof.
  apply jshape_mutind.
  - intros raw jt nl jt' ts Hft Hna Hobj Hlt Hdk Hsec ρp k Hid. apply Forall_app in Hid as [Hidp Hk]. inversion Hk; subst.
    destruct (section_sec W tid raw ts (loc ρp) Hsec) as (pt & Hpt & Htr).
    eexists. split; [|by constructor]. eapply reads_leaf; try done. rewrite loc_snoc, parent_member; [done|by apply ident_seg_ok|by apply ident_plain].
  - intros raw nl ps cs Hft Hps Hne [Hd Hs] Hnd Hidc Hall IH ρp k Hid.
    destruct (IH (ρp ++ [k]) Hid Hidc) as (cs' & H1 & H2). exists (PObj (path_of (loc (ρp ++ [k]))) None None cs'). split.
    + eapply reads_obj; try done.
      * by apply section_bare.
      * unfold dflt_of. by rewrite Hd.
      * unfold dflt_of. by rewrite Hd.
      * eapply Forall_impl; [exact Hidc|]. intros kp. apply ident_plain.
    + constructor; [done|]. assert (E : cs.*1 = ps.*1); [|by rewrite E]. clear -Hall. induction Hall; cbn; [done|by f_equal].
  - intros raw nl i d ts c Hft Hi Hd Hdk Hsec Hc ρp k Hid. pose proof Hid as Hidk. apply Forall_app in Hid as [Hidp Hk]. inversion Hk; subst.
    destruct (section_sec W tid raw ts (loc ρp) Hsec) as (pt & Hpt & Htr).
    destruct (proj1 (shape_reads W tid) i c Hc (loc (ρp ++ [k]) ++ [Star]) (loc (ρp ++ [k]) ++ [Star])) as (c' & H3 & H4).
    { split; [apply Forall_app; split; [by apply ident_seg_ok|]; constructor; [exact I|constructor]|]. right. by eexists. }
    exists (PArr (path_of (loc (ρp ++ [k]))) d pt c'). split.
    + eapply reads_arr; try done. rewrite loc_snoc, parent_member; [done|by apply ident_seg_ok|by apply ident_plain].
    + constructor; [by destruct ρp|done|done].
  - intros ρ _ _. exists []. split; constructor.
  - intros k p ps c cs Hp IHp Hps IHps ρ Hid Hidc. inversion Hidc as [|? ? Hk Hid']; subst. cbn in Hk.
    destruct (IHp ρ k) as (p' & H1 & H2). { apply Forall_app. split; [done|by constructor]. }
    destruct (IHps ρ Hid Hid') as (cs' & H3 & H4). exists ((k, p') :: cs'). split; constructor; try done. by rewrite <- loc_snoc.
Qed.
Lemma jshape_inst W tid :
  (forall raw s, jshape W tid raw s -> forall σ r, inst raw σ r -> well_named1 r) /\
  (forall ps cs, jshape_all W tid ps cs -> forall k p σ r, (k, p) ∈ ps -> inst p σ r -> well_named1 r).
Proof.
  apply jshape_mutind.
  - intros raw jt nl jt' ts Hft Hna Hobj Hlt Hdk Hsec σ r Hr.
    assert (r = raw) as ->.
    { inversion Hr as [|? nl2 ps k p σ' ? Hft2 Hps Hin|? nl2 i σ' ? Hft2]; subst; [done| |]; rewrite Hft in Hft2; injection Hft2 as -> ->; [|done].
      rewrite Hobj in Hps by done. injection Hps as <-. by apply elem_of_nil in Hin. }
    split; [|done].
    intros nl2 ps Hft2 Hps. rewrite Hft in Hft2. injection Hft2 as -> ->. rewrite Hobj in Hps by done. injection Hps as <-. split; constructor.
  - intros raw nl ps cs Hft Hps Hne [Hd Hs] Hnd Hid Hall IH σ r Hr.
    inversion Hr as [|? nl2 ps2 k p σ' ? Hft2 Hps2 Hin Hr'|? nl2 i σ' ? Hft2]; subst; [| |congruence].
    + split.
      * intros nl2 ps2 _ Hps2. rewrite Hps in Hps2. injection Hps2 as <-. split; [done|]. eapply Forall_impl; [exact Hid|]. intros kp. apply ident_plain.
      * unfold dflt_of. by rewrite Hd.
    + rewrite Hps in Hps2. injection Hps2 as <-. by eapply IH.
  - intros raw nl i d ts c Hft Hi Hd Hdk Hsec Hc σ r Hr.
    inversion Hr as [|? nl2 ps2 k p σ' ? Hft2 Hps2 Hin Hr'|? nl2 i2 σ' ? Hft2 Hi2 Hr']; subst; [|congruence|].
    + split; [|done]. intros nl2 ps2 Hft2. congruence.
    + rewrite Hi in Hi2. injection Hi2 as <-. by eapply (proj1 (shape_inst W tid) _ _ Hc).
  - intros k p σ r Hin. by apply elem_of_nil in Hin.
  - intros k p ps c cs Hp IHp Hps IHps k' p' σ r Hin Hr. apply elem_of_cons in Hin as [[= -> ->]|Hin]; [by eapply IHp|by eapply IHps].
Qed.
Lemma jshaped_ok W tid ps s : jshaped W tid ps s -> well_named (Some ps) None.
Proof.
  intros (cs & -> & Hnd & Hid & Hall). split.
  - intros ps' [= <-]. split; [done|]. eapply Forall_impl; [exact Hid|]. intros kp. apply ident_plain.
  - intros σ r Hr. inversion Hr; subst; [|done]. by eapply (proj2 (jshape_inst W tid)).
Qed.
Lemma jshaped_reads W tid ps s p : jshaped W tid ps s -> schema_reads W tid (Some ps) None p -> jrel [] [] s p.
Proof.
  intros (cs & -> & Hnd & Hid & Hall) (cs' & -> & Hr).
  destruct (proj2 (jshape_reads W tid) ps cs Hall [] ltac:(constructor) Hid) as (cs2 & H1 & H2).
  rewrite (proj2 (reads_fun W tid) _ _ _ H1 _ Hr). constructor; [done|].
  assert (E : cs.*1 = ps.*1); [|by rewrite E]. clear -Hall. induction Hall; cbn; [done|by f_equal].
Qed.

(** ** histories *)
Section calls.
Context (W : oracles) (HW : jpath_parametric W) (E : env) (HE : unmarshals E).
Lemma jstores_ident :
  (forall ρ ρp s p, jrel ρ ρp s p -> Forall (fun k => ident k = true) ρ -> forall w, w ∈ stores s ρ -> Forall (fun k => ident k = true) w) /\
  (forall ρ cs cs', jrel_all ρ cs cs' -> Forall (fun k => ident k = true) ρ -> forall w, w ∈ stores (JRec cs) ρ -> Forall (fun k => ident k = true) w).
Proof.
  apply jrel_mutind.
  - intros ρ ρp jt d ts pt _ _ w Hw. by apply elem_of_nil in Hw.
  - intros ρ ρp cs cs' _ IH _ Hid. by apply IH.
  - intros ρ ρp d ts pt c c' _ _ _ Hid w Hw. destruct (stores_lst d ts c ρ) as [[E1 _]|[E1 _]]; rewrite E1 in Hw; [by apply elem_of_nil in Hw|].
    by apply elem_of_list_singleton in Hw as ->.
  - intros ρ _ w Hw. by apply elem_of_nil in Hw.
  - intros ρ k c cs c' cs' Hk _ IHc _ IHcs Hid w Hw. cbn [stores List.map List.concat] in Hw. apply elem_of_app in Hw as [Hw|Hw].
    + apply IHc; [|done]. apply Forall_app. split; [done|by constructor].
    + by apply IHcs.
Qed.
Lemma jrel_root_jok s p : jrel [] [] s p -> separate (stores s []) s [] [] -> jok (stores s []) [] p [].
Proof.
  intros Hr Hsep. pose proof (proj1 jrel_distinct _ _ _ _ Hr) as Hd.
  eapply (proj1 (jrel_jok (stores s []) ltac:(by eapply (proj1 jstores_ident)))); [done|constructor|constructor| |done|done].
  intros w Hw. by left.
Qed.
Lemma tnv_jspec perm i p sc raw s : orders perm -> wf_paths p -> jrel [] [] sc p -> separate (stores sc []) sc [] [] -> stok s -> irel (hp s) (froms s) i p ->
  let r := transform_no_validation W E perm FJson i raw s in
  step s r.1 /\ outcome W (t ← e_json E raw; jden W p t []) r.2.
Proof.
  intros Ho Hwf Hr Hsep Hs Hi. cbv zeta. cbn [transform_no_validation]. unfold Api.base_json. destruct (e_json E raw) as [doc|] eqn:Ed.
  - change (Some doc ≫= fun t => jden W p t []) with (jden W p doc []).
    apply (json_transform_jden W HW perm Ho (stores sc [])); try done.
    + apply stores_apart. by eapply (proj1 jrel_distinct).
    + by apply jrel_root_jok.
    + by eapply HE.
  - split; [|by left]. by split_and!.
Qed.
Lemma serve_step perm i p sc c s : orders perm -> wf_paths p -> jrel [] [] sc p -> separate (stores sc []) sc [] [] -> stok s -> irel (hp s) (froms s) i p ->
  step s (serve W E perm FJson i c s).1.
Proof.
  intros Ho Hwf Hr Hsep Hs Hi. pose proof (tnv_jspec perm i p sc (raw_of c) s Ho Hwf Hr Hsep Hs Hi) as [H1 _].
  destruct c as [raw|raw]; cbn [serve raw_of] in *; [|done]. by rewrite transform_eq.
Qed.
Lemma jstate_reads tid ps sc i s : jshaped W tid ps sc -> separate (stores sc []) sc [] [] -> state W E FJson tid (Some ps) None i s ->
  exists p, schema_reads W tid (Some ps) None p /\ stok s /\ irel (hp s) (froms s) i p.
Proof.
  intros Hsh Hsep. pose proof (jshaped_ok _ _ _ _ Hsh) as Hw. induction 1 as [s Hn|s perm c Hst IH Ho].
  - by eapply new_reads.
  - destruct IH as (p & Hr & Hs & Hi). exists p. split; [done|].
    destruct (serve_step perm i p sc c s Ho) as (H1 & H2 & H3 & H4); try done.
    { by eapply schema_wf. } { by eapply jshaped_reads. }
    split; [done|]. rewrite H4. by eapply irel_mono.
Qed.
Lemma jshaped_transform tid ps sc i s perm raw doc :
  jshaped W tid ps sc -> separate (stores sc []) sc [] [] -> state W E FJson tid (Some ps) None i s -> orders perm ->
  e_json E raw = Some doc -> small doc -> sized W doc sc (Some doc) (Some doc) ->
  outcome W (jproject W doc sc [] (Some doc) (Some doc)) (transform_no_validation W E perm FJson i raw s).2.
Proof.
  intros Hsh Hsep Hs Ho Hj Hsm Hsz. destruct (jstate_reads _ _ _ _ _ Hsh Hsep Hs) as (p & Hr & Hst & Hi).
  pose proof (jshaped_reads _ _ _ _ _ Hsh Hr) as Hrel.
  destruct (tnv_jspec perm i p sc raw s Ho) as [_ H]; try done.
  { eapply schema_wf; [by eapply jshaped_ok|done]. }
  rewrite Hj in H. change (Some doc ≫= ?g) with (g doc) in H. cbv beta in H.
  rewrite (proj1 (jden_jproject W) [] [] sc p Hrel doc) in H; try done; constructor.
Qed.
Lemma jshaped_steady tid ps sc i s perm perm' c s' :
  jshaped W tid ps sc -> separate (stores sc []) sc [] [] ->
  state W E FJson tid (Some ps) None i s -> state W E FJson tid (Some ps) None i s' -> orders perm -> orders perm' ->
  SpecRun.same (serve W E perm FJson i c s).2 (serve W E perm' FJson i c s').2.
Proof.
  intros Hsh Hsep Hs Hs' Ho Ho'. destruct (jstate_reads _ _ _ _ _ Hsh Hsep Hs) as (p & Hr & Hst & Hi).
  destruct (jstate_reads _ _ _ _ _ Hsh Hsep Hs') as (p' & Hr' & Hst' & Hi').
  assert (p' = p) as ->.
  { destruct Hr as (cs & -> & Hr), Hr' as (cs' & -> & Hr'). f_equal. by eapply (proj2 (reads_fun W tid)). }
  pose proof (jshaped_reads _ _ _ _ _ Hsh Hr) as Hrel.
  assert (Hwf : wf_paths p) by (eapply schema_wf; [by eapply jshaped_ok|done]).
  destruct (tnv_jspec perm i p sc (raw_of c) s Ho Hwf Hrel Hsep Hst Hi) as [_ H1].
  destruct (tnv_jspec perm' i p sc (raw_of c) s' Ho' Hwf Hrel Hsep Hst' Hi') as [_ H2].
  assert (H : SpecRun.same (transform_no_validation W E perm FJson i (raw_of c) s).2 (transform_no_validation W E perm' FJson i (raw_of c) s').2).
  { unfold outcome in H1, H2. destruct (e_json E (raw_of c) ≫= _) as [t|].
    - rewrite H1, H2. by destruct (print W t).
    - by destruct H1 as [-> | ->], H2 as [-> | ->]. }
  destruct c as [raw|raw]; cbn [serve raw_of] in *; [|done]. rewrite !transform_eq. cbv zeta. cbn [snd].
  destruct (transform_no_validation W E perm FJson i raw s).2, (transform_no_validation W E perm' FJson i raw s').2; try done.
  cbn in H. subst. cbn [rbind]. by destruct (check E _).
Qed.
End calls.

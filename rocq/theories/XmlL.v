(** XML transformers compute the document of SpecXml. *)
From stdpp Require Import strings list gmap.
From Coq Require Import ZArith Lia.
From Verif Require Import GoStr GoStrL Val Conv Instr Heap Schema Build Api SpecPath PathL Den Param HeapL Refine Top
  SpecSchema BuildL SpecProj ProjL SpecRun RunL SpecXml.

Lemma str_in_trans p q s : str_in p q = true -> str_in q s = true -> str_in p s = true.
Proof.
  rewrite !str_in_spec. intros (a & b & ->) (c & d & ->). exists (c +:+ a), (b +:+ d). by rewrite <- !app_assoc_s.
Qed.
Lemma nested_free m σ ρ x : nested m σ ρ -> str_in "$" x = false -> apply_mod m x = x.
Proof.
  intros Hn Hx. induction Hn as [|m σ ρ k Hn IH|m σ ρ i Hn IH]; [done|done|].
  unfold item_mod. rewrite apply_mod_snoc, IH. apply replace1_absent. rewrite (nested_path _ _ _ Hn).
  destruct (str_in (path_of ρ +:+ "[*]") x) eqn:E; [|done].
  assert (H : str_in "$" x = true); [|congruence]. eapply str_in_trans; [|exact E]. done.
Qed.

(** ** the reading of such a schema *)
Definition xtsr (ts : option xsec) (pt : option ptis) : Prop :=
  match ts, pt with
  | None, None => True
  | Some (me, delim, from), Some (me', delim', is) =>
    me' = me /\ delim' = delim /\ (me = MLast -> length from <= 1) /\
    Forall2 (fun xo i => i_xpath i = xo.1 /\ i_ops i = xo.2 /\ xpath_only xo.1) from is
  | _, _ => False
  end.
Inductive xrel : list seg -> xsch -> pitr -> Prop :=
| xrel_leaf σ jt d ts pt : xtsr ts pt -> xrel σ (XLeaf jt d ts) (PScal (path_of σ) jt d pt)
| xrel_rec σ ts pt cs cs' : xtsr ts pt -> xrel_all σ cs cs' -> xrel σ (XRec ts cs) (PObj (path_of σ) None pt cs')
| xrel_lst σ ts pt d d' c c' : xtsr ts pt -> default [] d' = d -> xrel (σ ++ [Star]) c c' -> xrel σ (XLst d ts c) (PArr (path_of σ) d' pt c')
with xrel_all : list seg -> list (string * xsch) -> list (string * pitr) -> Prop :=
| xrel_nil σ : xrel_all σ [] []
| xrel_cons σ k c cs c' cs' : xrel (σ ++ [Nm k]) c c' -> xrel_all σ cs cs' ->
    xrel_all σ ((k, c) :: cs) ((k, c') :: cs').
Scheme xrel_ind2 := Induction for xrel Sort Prop with xrel_all_ind2 := Induction for xrel_all Sort Prop.
Combined Scheme xrel_mutind from xrel_ind2, xrel_all_ind2.

Section proj.
Context (W : oracles).
Lemma xentry_instr i xo n jt m σ ρ : nested m σ ρ -> i_xpath i = xo.1 -> i_ops i = xo.2 -> xpath_only xo.1 ->
  xml_instr W tview i (TNode n) jt m = xentry W jt n xo.
Proof.
  intros Hn Hx Ho (Hs & _). unfold xml_instr, xentry. rewrite Hx, Ho, (nested_free _ _ _ _ Hn Hs). cbn [tview].
  destruct (o_xfind W n xo.1) as [[|n0 ns]|]; try done.
Qed.
Lemma run_xvalue pt ts n jt m σ ρ : xtsr ts pt -> nested m σ ρ ->
  run_ptis W FXml pt (TNode n) jt m = match xvalue W jt n ts with Ok g => Some (gtree g) | _ => None end.
Proof.
  intros Ht Hn. unfold run_ptis, xvalue, xtsr in *.
  destruct ts as [[[me delim] from]|], pt as [[[me' delim'] is]|]; try done.
  destruct Ht as (-> & -> & Hlast & HF).
  assert (HF2 : Forall2 (fun i r => xml_instr W tview i (TNode n) jt m = r) is (xentry W jt n <$> from)).
  { clear Hlast. induction HF as [|xo i from is (H1 & H2 & H3) HF IH]; cbn; [constructor|]. constructor; [|done].
    by eapply xentry_instr. }
  unfold tis_run. cbn [ti_meth ti_delim fst instr_run]. destruct me; cbn -[xml_instr].
  - by rewrite (run_first_first _ _ _ HF2).
  - assert (Er : rev is = is).
    { specialize (Hlast eq_refl). apply Forall2_length in HF. destruct is as [|i [|i' is]]; [done|done|]. cbn in HF. lia. }
    rewrite Er. by rewrite (run_first_first _ _ _ HF2).
  - by rewrite (run_concat_concat _ _ _ _ _ HF2).
Qed.
Lemma den_xproject :
  (forall σ s p, xrel σ s p -> forall ρ m n, nested m σ ρ -> den W FXml p (TNode n) m = xproject W s n) /\
  (forall σ cs cs', xrel_all σ cs cs' -> forall ρ m n, nested m σ ρ ->
   List.map (fun kd : string * (tree -> modifier -> option tree) => pair kd.1 <$> kd.2 (TNode n) m)
     (List.map (fun kc => match kc with (k, c) => (k, den W FXml c) end) cs') =
   List.map (fun kc => match kc with (k, c) => pair k <$> xproject W c n end) cs).
Proof.
  apply xrel_mutind.
  - intros σ jt d ts pt Ht ρ m n Hn. cbn [den xproject]. unfold den_scal.
    rewrite (run_xvalue pt ts n jt m σ ρ) by done.
    destruct (xvalue W jt n ts) as [g| |]; [|done|done]. cbn. rewrite tnil_gtree. by destruct (is_nil tview g).
  - intros σ ts pt cs cs' Ht Hall IH ρ m n Hn. cbn [den xproject]. unfold den_obj.
    destruct pt as [pt|], ts as [ts|]; try (by destruct ts as [[]]); try (by destruct pt as [[]]).
    + rewrite (run_xvalue (Some pt) (Some ts) n "object" m σ ρ) by done.
      destruct (xvalue W "object" n (Some ts)) as [g| |]; try done. cbn.
      destruct (gtree g) as [[| | | | |[]|]| | |k|[|k l]]; try done; by rewrite (IH ρ).
    + by rewrite (IH ρ).
  - intros σ ts pt d d' c c' Ht <- Hc IH ρ m n Hn. cbn [den xproject].
    unfold den_arr, den_items. cbn zeta iota. rewrite (nested_path _ _ _ Hn).
    rewrite (run_xvalue pt ts n "array" m σ ρ) by done.
    destruct (xvalue W "array" n ts) as [g| |]; try done.
    change (Some (gtree g) ≫= ?h) with (h (gtree g)). cbv beta.
    assert (E : forall its : list tree, arr_of <$> all_of (imap (fun i t => match t with TNode _ => den W FXml c' t
         (path_replace (path_of ρ +:+ "[*]") (path_of ρ +:+ idx_str i) m) | _ => Some t end) its)
       = arr_of <$> all_of (List.map (fun t => match t with TNode k => xproject W c k | _ => Some t end) its)).
    { intros its. f_equal. f_equal. apply list_eq. intros i. rewrite list_lookup_imap. change (List.map ?g its) with (g <$> its). rewrite list_lookup_fmap.
      destruct (its !! i) as [t|]; [|done]. cbn. f_equal. destruct t; try done.
      apply (IH (ρ ++ [Ix i])). rewrite <- (nested_path _ _ _ Hn). by apply nested_item. }
    unfold xelems. destruct (gtree g) as [[]|l|kvs|k|l]; apply E.
  - done.
  - intros σ k c cs c' cs' Hc IHc Hcs IHcs ρ m n Hn. cbn [List.map fst snd]. f_equal; [|by eapply IHcs].
    rewrite (IHc (ρ ++ [Nm k]) m n); [done|by constructor].
Qed.
End proj.

(** ** from the raw schema *)
Lemma rebase_xpath parent x : xpath_only x -> rebase1 parent x = x.
Proof. intros (_ & H1 & H2). unfold rebase1. by rewrite (replace_prefix1_miss "@."), replace_prefix1_miss. Qed.
Lemma section_xsec W tid raw ts parent : xsec_of W tid raw ts ->
  exists pt, section W tid raw parent = Ok pt /\ xtsr ts pt.
Proof.
  unfold xsec_of, section. destruct ts as [[[me delim] from]|].
  - intros (t & is & -> & Hne & Hd & HF & Hl).
    exists (Some (me, delim, rebase parent <$> is)). split.
    + assert (E : rbind (dec_tis W t) (fun d => match all_some d.2 with
         | Some is0 => Ok (Some (d.1.1, d.1.2, rebase parent <$> is0)) | None => Panic end)
         = Ok (Some (me, delim, rebase parent <$> is))).
      { rewrite Hd. cbn. by rewrite all_some_some. }
      destruct t as [[| | | | |str|]| | | |]; try exact E. by destruct str.
    + cbn. split; [done|]. split; [done|]. split; [done|]. clear Hd Hl.
      induction HF as [|i xo is from (H1 & H2 & H3) HF IH]; cbn; [constructor|]. constructor; [|done].
      rewrite rebase_unfold. cbn. rewrite H1. split; [by apply rebase_xpath|]. done.
  - intros ->. by exists None.
Qed.
Lemma xshape_reads W tid :
  (forall raw s, xshape W tid raw s -> forall σ, exists p, reads W tid σ raw p /\ xrel σ s p) /\
  (forall ps cs, xshape_all W tid ps cs -> forall σ, exists cs', reads_all W tid σ ps cs' /\ xrel_all σ cs cs').
Proof.
  apply xshape_mutind.
  - intros raw jt nl jt' ts Hft Hna Hobj Hlt Hdk Hsec σ.
    destruct (section_xsec W tid raw ts (parent_path (path_of σ) KScalar) Hsec) as (pt & Hpt & Htr).
    eexists. split; [by eapply reads_leaf|]. by constructor.
  - intros raw nl ps ts cs Hft Hps Hne Hd Hsec Hnd Hid Hall IH σ.
    destruct (section_xsec W tid raw ts (parent_path (path_of σ) KObject) Hsec) as (pt & Hpt & Htr).
    destruct (IH σ) as (cs' & H1 & H2). exists (PObj (path_of σ) None pt cs'). split; [|by constructor].
    eapply reads_obj; try done; [by rewrite Hd|]. eapply Forall_impl; [exact Hid|]. intros kp. apply ident_plain.
  - intros raw nl i d ts c Hft Hi Hd Hdk Hsec Hc IH σ.
    destruct (section_xsec W tid raw ts (parent_path (path_of σ) KArray) Hsec) as (pt & Hpt & Htr).
    destruct (IH (σ ++ [Star])) as (c' & H1 & H2). destruct Hd as [[Hd ->]|Hd].
    + exists (PArr (path_of σ) None pt c'). split; [|by constructor]. by eapply reads_arr.
    + exists (PArr (path_of σ) (Some d) pt c'). split; [|by constructor]. by eapply reads_arr.
  - intros σ. exists []. split; constructor.
  - intros k p ps c cs Hp IHp Hps IHps σ. destruct (IHp (σ ++ [Nm k])) as (p' & H1 & H2).
    destruct (IHps σ) as (cs' & H3 & H4). exists ((k, p') :: cs'). split; by constructor.
Qed.
Lemma xsec_last W tid raw ts : xsec_of W tid raw ts -> forall t delim from,
  jlookup "transform" raw ≫= jlookup tid = Some t -> dec_tis W t = Ok (MLast, delim, from) -> length from <= 1.
Proof.
  intros Hsec t delim from Ht Hd. unfold xsec_of in Hsec. destruct ts as [[[me delim2] from2]|]; [|congruence].
  destruct Hsec as (t2 & is & Ht2 & _ & Hd2 & HF & Hl). rewrite Ht in Ht2. injection Ht2 as <-. rewrite Hd in Hd2. injection Hd2 as <- <- ->.
  rewrite fmap_length, (Forall2_length _ _ _ HF). by apply Hl.
Qed.
Lemma xshape_inst W tid :
  (forall raw s, xshape W tid raw s -> forall σ r, inst raw σ r -> well_named1 r /\ tame1 W tid FXml r) /\
  (forall ps cs, xshape_all W tid ps cs -> forall k p σ r, (k, p) ∈ ps -> inst p σ r -> well_named1 r /\ tame1 W tid FXml r).
Proof.
  apply xshape_mutind.
  - intros raw jt nl jt' ts Hft Hna Hobj Hlt Hdk Hsec σ r Hr.
    assert (r = raw) as ->.
    { inversion Hr as [|? nl2 ps k p σ' ? Hft2 Hps Hin|? nl2 i σ' ? Hft2]; subst; [done| |]; rewrite Hft in Hft2; injection Hft2 as -> ->; [|done].
      rewrite Hobj in Hps by done. injection Hps as <-. by apply elem_of_nil in Hin. }
    split; [split; [|done]|split; [|split]].
    + intros nl2 ps Hft2 Hps. rewrite Hft in Hft2. injection Hft2 as -> ->. rewrite Hobj in Hps by done. injection Hps as <-. split; constructor.
    + by eapply xsec_last.
    + intros nl2 ps Hft2 Hps Hne. rewrite Hft in Hft2. injection Hft2 as -> ->. rewrite Hobj in Hps by done. congruence.
    + intros nl2 Hft2. rewrite Hft in Hft2. congruence.
  - intros raw nl ps ts cs Hft Hps Hne Hd Hsec Hnd Hid Hall IH σ r Hr.
    inversion Hr as [|? nl2 ps2 k p σ' ? Hft2 Hps2 Hin Hr'|? nl2 i σ' ? Hft2]; subst; [| |congruence].
    + split; [split|split; [|split]].
      * intros nl2 ps2 _ Hps2. rewrite Hps in Hps2. injection Hps2 as <-. split; [done|]. eapply Forall_impl; [exact Hid|]. intros kp. apply ident_plain.
      * by rewrite Hd.
      * by eapply xsec_last.
      * intros. split; [done|]. done.
      * by intros.
    + rewrite Hps in Hps2. injection Hps2 as <-. by eapply IH.
  - intros raw nl i d ts c Hft Hi Hd Hdk Hsec Hc IH σ r Hr.
    inversion Hr as [|? nl2 ps2 k p σ' ? Hft2 Hps2 Hin Hr'|? nl2 i2 σ' ? Hft2 Hi2 Hr']; subst; [|congruence|].
    + split; [split|split; [|split]].
      * intros nl2 ps2 Hft2. congruence.
      * done.
      * by eapply xsec_last.
      * intros. congruence.
      * by intros.
    + rewrite Hi in Hi2. injection Hi2 as <-. by eapply IH.
  - intros k p σ r Hin. by apply elem_of_nil in Hin.
  - intros k p ps c cs Hp IHp Hps IHps k' p' σ r Hin Hr. apply elem_of_cons in Hin as [[= -> ->]|Hin]; [by eapply IHp|by eapply IHps].
Qed.
(** a whole schema: properties, or items *)
Lemma xshaped_ok W tid props items s : xshaped W tid props items s -> well_named props items /\ tame W tid FXml props items.
Proof.
  intros Hs. destruct s as [jt d ts|[ts|] cs|[|] [ts|] c]; try done; destruct props as [ps|], items as [i|]; try done; cbn in Hs.
  - destruct Hs as (Hnd & Hid & Hall). split; [split|].
    + intros ps' [= <-]. split; [done|]. eapply Forall_impl; [exact Hid|]. intros kp. apply ident_plain.
    + intros σ r Hr. inversion Hr; subst; [|done]. by eapply (proj2 (xshape_inst W tid)).
    + intros σ r Hr. inversion Hr; subst; [|done]. by eapply (proj2 (xshape_inst W tid)).
  - split; [split|].
    + done.
    + intros σ r Hr. inversion Hr as [? ? ? ? Hin|? ? ? Hi]; subst; [by apply elem_of_nil in Hin|]. injection Hi as <-. by eapply (proj1 (xshape_inst W tid)).
    + intros σ r Hr. inversion Hr as [? ? ? ? Hin|? ? ? Hi]; subst; [by apply elem_of_nil in Hin|]. injection Hi as <-. by eapply (proj1 (xshape_inst W tid)).
Qed.
Lemma xshaped_reads W tid props items s p : xshaped W tid props items s -> schema_reads W tid props items p -> xrel [] s p.
Proof.
  intros Hs Hr. destruct s as [jt d ts|[ts|] cs|[|] [ts|] c]; try done; destruct props as [ps|], items as [i|]; try done; cbn in Hs.
  - destruct Hs as (Hnd & Hid & Hall). destruct (proj2 (xshape_reads W tid) ps cs Hall []) as (cs' & H1 & H2).
    destruct Hr as (cs2 & -> & Hr). rewrite (proj2 (reads_fun W tid) _ _ _ H1 _ Hr). by apply (xrel_rec []).
  - destruct (proj1 (xshape_reads W tid) i c Hs [Star]) as (c' & H1 & H2).
    destruct Hr as (cs2 & -> & Hr). rewrite (proj1 (reads_fun W tid) _ _ _ H1 _ Hr). by apply (xrel_lst []).
Qed.
Section shaped.
Context (W : oracles) (HW : jpath_parametric W) (E : env) (HE : unmarshals E).
Lemma xshaped_transform tid props items sc i s perm raw n :
  xshaped W tid props items sc -> state W E FXml tid props items i s -> orders perm ->
  e_xml E raw = Some n ->
  outcome W (xproject W sc n) (transform_no_validation W E perm FXml i raw s).2.
Proof.
  intros Hsh Hs Ho Hj. destruct (xshaped_ok _ _ _ _ _ Hsh) as [Hw Ht].
  destruct (state_reads W HW E HE _ _ _ _ _ _ Hw Ht Hs) as (p & Hr & Hst & Hi).
  destruct (tnv_spec W HW E HE perm FXml i p raw s Ho) as [_ H]; try done.
  { by eapply schema_wf. } { by eapply schema_pure. }
  cbn [input_of] in H. rewrite Hj in H. change ((TNode <$> Some n) ≫= ?g) with (g (TNode n)) in H. cbv beta in H.
  by rewrite (proj1 (den_xproject W) [] sc p (xshaped_reads _ _ _ _ _ _ Hsh Hr) [] [] n) in H by constructor.
Qed.
End shaped.
Lemma xroot_array W (HW : jpath_parametric W) E (HE : unmarshals E) tid it c i s perm raw n : 0 < o_stack W ->
  xshape W tid it c -> state W E FXml tid None (Some it) i s -> orders perm -> e_xml E raw = Some n ->
  (transform_no_validation W E perm FXml i raw s).2 = Ok (TS SNil).
Proof.
  intros Hst Hsh Hs Ho Hx.
  pose proof (xshaped_transform W HW E HE tid None (Some it) (XLst [] None c) i s perm raw n Hsh Hs Ho Hx) as H.
  unfold outcome in H. cbn [xproject xvalue gtree xelems List.map all_of fmap option_fmap option_map] in H. rewrite H. unfold print. rewrite decide_True; [done|]. cbn. lia.
Qed.

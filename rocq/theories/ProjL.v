(** Schemas without transforms project: lemmas. *)
From stdpp Require Import strings list gmap.
From Coq Require Import ZArith Ascii Lia.
From Verif Require Import GoStr GoStrL Val Conv Instr Heap Schema Build SpecPath PathL Den Param HeapL Refine Top
  SpecSchema BuildL SpecProj.

Lemma nested_paths m σ ρ τ : nested m σ ρ -> apply_mod m (path_of σ +:+ τ) = path_of ρ +:+ τ.
Proof.
  intros Hn. revert τ. induction Hn as [|m σ ρ k Hn IH|m σ ρ i Hn IH]; intros τ.
  - done.
  - rewrite !path_of_app, <- !app_assoc_s. apply IH.
  - unfold item_mod. rewrite apply_mod_snoc, path_of_star, path_of_ix, <- !app_assoc_s.
    rewrite IH. rewrite <- (sapp_nil_r (path_of σ)). rewrite IH, sapp_nil_r.
    rewrite (app_assoc_s (path_of ρ) "[*]" τ). rewrite replace1_prefix. by rewrite <- app_assoc_s.
Qed.
Lemma nested_path m σ ρ : nested m σ ρ -> apply_mod m (path_of σ) = path_of ρ.
Proof. intros Hn. rewrite <- (sapp_nil_r (path_of σ)), (nested_paths _ _ _ _ Hn). apply sapp_nil_r. Qed.

Lemma small_arr l : small (TArr l) <-> (Z.of_nat (length l) <= 2 ^ 63)%Z /\ Forall small l.
Proof.
  cbn [small]. apply and_iff_compat_l. induction l as [|t l IH]; [split; [constructor|done]|].
  rewrite Forall_cons. by rewrite IH.
Qed.
Lemma small_obj kvs : small (TObj kvs) <-> Forall (fun kv => small kv.2) kvs.
Proof.
  cbn [small]. induction kvs as [|[k t] l IH]; [split; [constructor|done]|].
  rewrite Forall_cons. by rewrite IH.
Qed.
Lemma tmap_elem kvs k t : tmap kvs !! k = Some t -> (k, t) ∈ kvs.
Proof. unfold tmap. apply elem_of_list_to_map_2. Qed.
Lemma small_member k t v : small t -> member k t = Some v -> small v.
Proof.
  destruct t; try done. rewrite small_obj. cbn. intros HF Hm%tmap_elem. rewrite Forall_forall in HF. by apply (HF (k, v)).
Qed.
Lemma small_item i t v : small t -> item i t = Some v -> small v.
Proof.
  destruct t as [|l|kvs| |]; try done; cbn [item].
  - rewrite small_arr. intros [_ HF] Hm. by eapply Forall_lookup_1.
  - rewrite small_obj. intros HF Hm%tmap_elem. rewrite Forall_forall in HF. by apply HF in Hm.
Qed.
Lemma select_name k t : ident k = true -> select tview k t = member k t.
Proof.
  intros Hk. unfold select, member. destruct t; try done. cbn [tview]. by rewrite ident_atoi.
Qed.
Lemma select_item i t : small t -> select tview (itoa (Z.of_nat i)) t = item i t.
Proof.
  intros Hs. unfold select, item. destruct t as [|l|kvs| |]; try done. cbn [tview].
  apply small_arr in Hs as [Hl _].
  destruct (int_range (Z.of_nat i)) eqn:E.
  - rewrite atoi_itoa by done. cbn. destruct (Z.leb_spec 0 (Z.of_nat i)); [|lia]. by rewrite Nat2Z.id.
  - destruct (l !! i) eqn:El; [|].
    + apply lookup_lt_Some in El. exfalso. unfold int_range, int_min, int_max in E. lia.
    + destruct (atoi _) as [z|] eqn:Ez; [|done]. cbn. destruct (Z.leb_spec 0 z); [|done].
      assert (Hz : z = Z.of_nat i \/ z <> Z.of_nat i) by lia. destruct Hz as [->|Hz]; [by rewrite Nat2Z.id|].
      exfalso. revert Ez E. unfold itoa. clear. intros Ez E.
      assert (Hz : Z.of_nat i = Z.of_N (Z.to_N (Z.of_nat i))) by lia.
      assert (Ea : atoi (ntoa (Z.to_N (Z.of_nat i))) = Some z) by (destruct (Z.of_nat i) eqn:Ei; [done|done|lia]).
      pose proof (ntoa_all (Z.to_N (Z.of_nat i))) as Hall. pose proof (ntoa_ne (Z.to_N (Z.of_nat i))) as Hne.
      pose proof (dec_value_ntoa (Z.to_N (Z.of_nat i))) as Hv.
      destruct (ntoa (Z.to_N (Z.of_nat i))) as [|a s] eqn:Es; [done|].
      cbn [str_all] in Hall. apply andb_true_iff in Hall as [Ha _]. rewrite atoi_nosign in Ea by done.
      unfold atoi_digits in Ea. rewrite Hv in Ea. rewrite <- Hz in Ea. cbn in Ea. rewrite E in Ea. done.
Qed.
Lemma select_locate ρ t : Forall concrete ρ -> small t -> select_path tview (seg_key <$> ρ) t = locate ρ t.
Proof.
  intros Hρ. revert t. induction Hρ as [|s ρ Hs Hρ IH]; intros t Ht; [done|].
  destruct s as [k| |i]; [|done|]; cbn [fmap list_fmap seg_key select_path locate].
  - rewrite select_name by done. destruct (member k t) eqn:E; [|done]. apply IH. by eapply small_member.
  - rewrite select_item by done. destruct (item i t) eqn:E; [|done]. apply IH. by eapply small_item.
Qed.
Lemma jget_locate W ρ t : Forall concrete ρ -> small t -> jget W tview (path_of ρ) t = GV <$> locate ρ t.
Proof. intros Hρ Ht. unfold jget. rewrite plain_path_of by done. by rewrite select_locate. Qed.
Lemma locate_app ρ1 ρ2 t : locate (ρ1 ++ ρ2) t = locate ρ1 t ≫= locate ρ2.
Proof.
  revert t. induction ρ1 as [|[k| |i] ρ1 IH]; intros t; cbn [locate app]; [done| |done|].
  - destruct (member k t); [apply IH|done].
  - destruct (item i t); [apply IH|done].
Qed.
Lemma locate_name ρ k t : locate (ρ ++ [Nm k]) t = locate ρ t ≫= member k.
Proof. rewrite locate_app. destruct (locate ρ t); [|done]. cbn. by destruct (member k t0). Qed.
Lemma locate_ix ρ i t : locate (ρ ++ [Ix i]) t = locate ρ t ≫= item i.
Proof. rewrite locate_app. destruct (locate ρ t); [|done]. cbn. by destruct (item i t0). Qed.

Lemma sch_ind' (P : sch -> Prop) : (forall jt d ts, P (Leaf jt d ts)) ->
  (forall cs, Forall (fun kc => P kc.2) cs -> P (Rec cs)) -> (forall c, P c -> P (Lst c)) -> forall s, P s.
Proof.
  intros HL HR HA. fix IH 1. intros [jt d ts|cs|c]; [apply HL| |apply HA, IH].
  apply HR. induction cs as [|[k c] cs IHc]; constructor; [apply IH|apply IHc].
Qed.

(** ** absolute paths are not touched *)
Lemma free_not_in c p s : free_of c s = true -> free_of c p = false -> str_in p s = false.
Proof.
  intros Hs Hp. destruct (str_in p s) eqn:E; [|done]. apply str_in_spec in E as (a & b & ->).
  rewrite !free_of_app, Hp in Hs. rewrite andb_false_l, andb_false_r in Hs. done.
Qed.
Lemma ident_free_star k : ident k = true -> free_of "*"%char k = true.
Proof.
  intros Hk. apply (str_all_free id_char); [done|]. destruct k as [|a k]; [done|]. cbn in Hk |- *.
  apply andb_true_iff in Hk as [H1 H2]. apply andb_true_iff. split; [|exact H2]. apply id_start_char. exact H1.
Qed.
Lemma concrete_free_star τ : Forall concrete τ -> free_of "*"%char (path_of τ) = true.
Proof.
  intros H. unfold path_of. rewrite free_of_app. change (free_of "*"%char "$") with true. rewrite andb_true_l.
  induction H as [|s τ Hs Hτ IH]; [done|]. destruct s as [k| |i]; [|by destruct Hs|]; cbn [segs].
  - rewrite !free_of_app, IH. rewrite (ident_free_star k Hs). done.
  - rewrite free_of_app, IH. change (index_str i) with (idx_str i). by rewrite idx_free.
Qed.
Lemma nested_abs m σ ρ τ : nested m σ ρ -> Forall concrete τ -> apply_mod m (path_of τ) = path_of τ.
Proof.
  intros Hn Hτ. induction Hn as [|m σ ρ k Hn IH|m σ ρ i Hn IH]; [done|done|].
  unfold item_mod. rewrite apply_mod_snoc, IH. apply replace1_absent.
  apply (free_not_in "*"%char); [by apply concrete_free_star|]. rewrite free_of_app. by rewrite andb_false_r.
Qed.

(** ** the reading of such a schema; only the JSON paths matter *)
Definition src_path (σp : list seg) (x : src) : string :=
  match x with Rel τ => path_of σp +:+ segs τ | Abs τ => path_of τ end.
Definition tsr (σp : list seg) (ts : option sec) (pt : option ptis) : Prop :=
  match ts, pt with
  | None, None => True
  | Some (me, delim, from), Some (me', delim', is) =>
    me' = me /\ delim' = delim /\ (me = MLast -> length from <= 1) /\
    Forall2 (fun xo i => i_jpath i = src_path σp xo.1 /\ i_ops i = xo.2 /\ src_ok xo.1) from is
  | _, _ => False
  end.
Inductive prel : list seg -> list seg -> sch -> pitr -> Prop :=
| prel_leaf σ σp jt d ts pt : tsr σp ts pt -> prel σ σp (Leaf jt d ts) (PScal (path_of σ) jt d pt)
| prel_rec σ σp cs cs' : prel_all σ cs cs' -> NoDup cs.*1 -> prel σ σp (Rec cs) (PObj (path_of σ) None None cs')
| prel_lst σ σp c c' : prel (σ ++ [Star]) (σ ++ [Star]) c c' -> prel σ σp (Lst c) (PArr (path_of σ) None None c')
with prel_all : list seg -> list (string * sch) -> list (string * pitr) -> Prop :=
| prel_nil σ : prel_all σ [] []
| prel_cons σ k c cs c' cs' : ident k = true -> prel (σ ++ [Nm k]) σ c c' -> prel_all σ cs cs' ->
    prel_all σ ((k, c) :: cs) ((k, c') :: cs').
Scheme prel_ind2 := Induction for prel Sort Prop with prel_all_ind2 := Induction for prel_all Sort Prop.
Combined Scheme prel_mutind from prel_ind2, prel_all_ind2.

Lemma tnil_gtree g : tnil (gtree g) = is_nil tview g.
Proof. destruct g as [t|s|l|l]; try done. destruct t; done. Qed.
Lemma all_of_ext {A B} (f g : A -> option B) l : (forall a, a ∈ l -> f a = g a) -> all_of (List.map f l) = all_of (List.map g l).
Proof. intros H. f_equal. apply map_ext_in. intros a Ha. apply H. by apply elem_of_list_In. Qed.

Section proj.
Context (W : oracles).
Lemma entry_instr i xo doc jt m σp ρp : nested m σp ρp -> Forall concrete ρp -> small doc ->
  i_jpath i = src_path σp xo.1 -> i_ops i = xo.2 -> src_ok xo.1 ->
  json_instr W tview i doc jt m = entry W doc jt (locate ρp doc) xo.
Proof.
  intros Hn Hρ Hdoc Hj Ho Hs. unfold json_instr, entry. rewrite Hj, Ho.
  assert (E : jget W tview (apply_mod m (src_path σp xo.1)) doc = GV <$> source doc (locate ρp doc) xo.1).
  { destruct xo as [[τ|τ] ops]; cbn [fst src_path source src_ok] in *.
    - rewrite (nested_paths _ _ _ _ Hn), <- path_of_app, jget_locate; [|apply Forall_app; by destruct Hs|done].
      by rewrite locate_app.
    - rewrite (nested_abs _ _ _ _ Hn), jget_locate; done. }
  rewrite E. destruct (source doc (locate ρp doc) xo.1) as [t|]; [|done]. cbn [fmap option_fmap option_map].
  destruct t as [[]| | | |]; done.
Qed.
Lemma run_first_first (step : instr -> res (gval tree)) (is : list instr) l :
  Forall2 (fun i r => step i = r) is l -> run_first tview step is = first_of l.
Proof. induction 1 as [|i r is l H HF IH]; [done|]. cbn. rewrite H. destruct r as [g| |]; cbn; try done. by rewrite IH. Qed.
Lemma run_concat_concat (step : instr -> res (gval tree)) delim acc (is : list instr) l :
  Forall2 (fun i r => step i = r) is l -> run_concat tview step delim acc is = concat_of delim acc l.
Proof.
  intros H. revert acc. induction H as [|i r is l H HF IH]; intros acc; [done|]. cbn. rewrite H.
  destruct r as [g| |]; cbn; try done. destruct (Conv.concat tview acc g delim); cbn; try done. 
Qed.
Lemma run_transformed pt ts doc jt m σp ρp : tsr σp ts pt -> nested m σp ρp -> Forall concrete ρp -> small doc ->
  run_ptis W FJson pt doc jt m =
  match transformed W doc jt (locate ρp doc) ts with Ok g => Some (gtree g) | _ => None end.
Proof.
  intros Ht Hn Hρ Hdoc. unfold run_ptis, transformed, tsr in *.
  destruct ts as [[[me delim] from]|], pt as [[[me' delim'] is]|]; try done.
  destruct Ht as (-> & -> & Hlast & HF).
  assert (HF2 : Forall2 (fun i r => json_instr W tview i doc jt m = r) is (entry W doc jt (locate ρp doc) <$> from)).
  { clear Hlast. induction HF as [|xo i from is (H1 & H2 & H3) HF IH]; cbn; [constructor|]. constructor; [|done].
    by eapply entry_instr. }
  unfold tis_run. cbn [ti_meth ti_delim fst instr_run]. destruct me; cbn.
  - by rewrite (run_first_first _ _ _ HF2).
  - assert (Er : rev is = is).
    { specialize (Hlast eq_refl). apply Forall2_length in HF. destruct is as [|i [|i' is]]; [done|done|]. cbn in HF. lia. }
    rewrite Er. by rewrite (run_first_first _ _ _ HF2).
  - by rewrite (run_concat_concat _ _ _ _ _ HF2).
Qed.

Lemma den_project : 
  (forall σ σp s p, prel σ σp s p -> forall ρ ρp m doc, nested m σ ρ -> nested m σp ρp -> Forall concrete ρ -> Forall concrete ρp ->
   small doc -> den W FJson p doc m = project W doc s (locate ρp doc) (locate ρ doc)) /\
  (forall σ cs cs', prel_all σ cs cs' -> forall ρ m doc, nested m σ ρ -> Forall concrete ρ -> small doc ->
   List.map (fun kd : string * (tree -> modifier -> option tree) => pair kd.1 <$> kd.2 doc m)
     (List.map (fun kc => match kc with (k, c) => (k, den W FJson c) end) cs') =
   List.map (fun kc => match kc with (k, c) => pair k <$> project W doc c (locate ρ doc) (locate ρ doc ≫= member k) end) cs).
Proof.
  apply prel_mutind.
  - intros σ σp jt d ts pt Ht ρ ρp m doc Hn Hnp Hρ Hρp Hdoc. cbn [den project]. unfold den_scal, resolve.
    rewrite (run_transformed pt ts doc jt m σp ρp) by done.
    destruct (transformed W doc jt (locate ρp doc) ts) as [g| |]; [|done|done].
    cbn. rewrite tnil_gtree. destruct (is_nil tview g); [|done]. cbn [negb].
    rewrite (nested_path _ _ _ Hn), jget_locate by done. by destruct (locate ρ doc).
  - intros σ σp cs cs' Hall IH Hnd ρ ρp m doc Hn Hnp Hρ Hρp Hdoc. cbn [den project]. unfold den_obj.
    by rewrite (IH ρ m doc).
  - intros σ σp c c' Hc IH ρ ρp m doc Hn Hnp Hρ Hρp Hdoc. cbn [den project].
    unfold den_arr, den_items. cbn zeta iota. rewrite (nested_path _ _ _ Hn), jget_locate by done.
    assert (E : forall its : list tree, arr_of <$> all_of (imap (fun i _ => den W FJson c' doc
         (path_replace (path_of ρ +:+ "[*]") (path_of ρ +:+ idx_str i) m)) its)
       = arr_of <$> all_of (imap (fun i _ => project W doc c (locate ρ doc ≫= item i) (locate ρ doc ≫= item i)) its)).
    { intros its. f_equal. f_equal. apply imap_ext. intros i t _.
      assert (Hn' : nested (path_replace (path_of ρ +:+ "[*]") (path_of ρ +:+ idx_str i) m) (σ ++ [Star]) (ρ ++ [Ix i])).
      { rewrite <- (nested_path _ _ _ Hn). by apply nested_item. }
      assert (Hρ' : Forall concrete (ρ ++ [Ix i])) by (apply Forall_app; split; [done|]; constructor; [exact I|constructor]).
      rewrite (IH (ρ ++ [Ix i]) (ρ ++ [Ix i])) by done. by rewrite locate_ix. }
    destruct (locate ρ doc) as [t|]; [|done]. cbn [fmap option_fmap option_map gtree elems].
    destruct t as [[]|l|kvs|n|l]; apply E.
  - done.
  - intros σ k c cs c' cs' Hk Hc IHc Hcs IHcs ρ m doc Hn Hρ Hdoc. cbn [List.map fst snd]. f_equal; [|by apply IHcs].
    assert (Hρ' : Forall concrete (ρ ++ [Nm k])) by (apply Forall_app; split; [done|]; constructor; [exact Hk|constructor]).
    rewrite (IHc (ρ ++ [Nm k]) ρ m doc); [by rewrite locate_name|by constructor|done|done|done|done].
Qed.
End proj.

(** ** from the raw schema *)
Lemma ident_plain k : ident k = true -> plain_name k.
Proof.
  intros Hk. split; [|split].
  - apply (free_not_in "."%char); [|done]. apply (str_all_free id_char); [done|].
    destruct k as [|a k]; [done|]. cbn in Hk |- *. apply andb_true_iff in Hk as [H1 H2]. apply andb_true_iff. split; [|exact H2].
    apply id_start_char. exact H1.
  - apply (free_not_in "["%char); [|done]. apply (str_all_free id_char); [done|].
    destruct k as [|a k]; [done|]. cbn in Hk |- *. apply andb_true_iff in Hk as [H1 H2]. apply andb_true_iff. split; [|exact H2].
    apply id_start_char. exact H1.
  - by intros ->.
Qed.
Lemma all_some_some {A} (l : list A) : all_some (Some <$> l) = Some l.
Proof. induction l as [|a l IH]; [done|]. cbn. by rewrite IH. Qed.
Lemma rebase_src σp x : src_ok x -> rebase1 (path_of σp) (src_str x) = src_path σp x.
Proof.
  destruct x as [τ|τ]; cbn [src_ok src_str src_path].
  - intros [Hne Hc]. destruct τ as [|[k| |i] τ]; [done| | |].
    + cbn [segs]. apply (rebase_dot σp (k +:+ segs τ)).
    + inversion Hc; done.
    + cbn [segs]. unfold index_str. rewrite <- !app_assoc_s.
      apply (rebase_bracket σp (itoa (Z.of_nat i) +:+ "]" +:+ segs τ)).
  - intros _. by apply rebase_other.
Qed.
Lemma section_sec W tid raw ts σp : sec_of W tid raw ts ->
  exists pt, section W tid raw (path_of σp) = Ok pt /\ tsr σp ts pt.
Proof.
  unfold sec_of, section. destruct ts as [[[me delim] from]|].
  - intros (t & is & -> & Hne & Hd & HF & Hl).
    exists (Some (me, delim, rebase (path_of σp) <$> is)). split.
    + assert (E : rbind (dec_tis W t) (fun d => match all_some d.2 with
         | Some is0 => Ok (Some (d.1.1, d.1.2, rebase (path_of σp) <$> is0)) | None => Panic end)
         = Ok (Some (me, delim, rebase (path_of σp) <$> is))).
      { rewrite Hd. cbn. by rewrite all_some_some. }
      destruct t as [[| | | | |str|]| | | |]; try exact E. by destruct str.
    + cbn. split; [done|]. split; [done|]. split; [done|]. clear Hd Hl.
      induction HF as [|i xo is from (H1 & H2 & H3) HF IH]; cbn; [constructor|]. constructor; [|done].
      rewrite rebase_unfold. cbn. rewrite H1. split; [by apply rebase_src|]. done.
  - intros ->. by exists None.
Qed.
Lemma section_bare W tid raw parent : jlookup "transform" raw ≫= jlookup tid = None -> section W tid raw parent = Ok None.
Proof. unfold section. by intros ->. Qed.

(** the location relative paths of an instance at [σ] start from, for the instances of kind scalar *)
Definition at_parent (σ σp : list seg) : Prop :=
  Forall seg_ok σ /\ ((exists k, plain_name k /\ σ = σp ++ [Nm k]) \/ (exists σ0, σ = σ0 ++ [Star] /\ σp = σ)).
Lemma parent_of σ σp : at_parent σ σp -> parent_path (path_of σ) KScalar = path_of σp.
Proof.
  intros [Hσ [(k & Hk & ->)|(σ0 & -> & ->)]].
  - apply parent_member; [by eapply seg_ok_l|done].
  - apply parent_scalar_item. by eapply seg_ok_l.
Qed.
Lemma shape_reads W tid :
  (forall raw s, shape W tid raw s -> forall σ σp, at_parent σ σp ->
   exists p, reads W tid σ raw p /\ prel σ σp s p) /\
  (forall ps cs, shape_all W tid ps cs -> forall σ, Forall seg_ok σ -> Forall (fun kp => ident kp.1 = true) ps ->
   exists cs', reads_all W tid σ ps cs' /\ prel_all σ cs cs').
Proof.
  apply shape_mutind.
  - intros raw jt nl jt' ts Hft Hna Hobj Hlt Hdk Hsec σ σp Hp.
    destruct (section_sec W tid raw ts σp Hsec) as (pt & Hpt & Htr).
    eexists. split; [eapply reads_leaf; try done; by rewrite (parent_of _ _ Hp)|]. by constructor.
  - intros raw nl ps cs Hft Hps Hne [Hd Hs] Hnd Hid Hall IH σ σp [Hσ _].
    destruct (IH σ Hσ Hid) as (cs' & H1 & H2). exists (PObj (path_of σ) None None cs'). split.
    + eapply reads_obj; try done.
      * by apply section_bare.
      * unfold dflt_of. by rewrite Hd.
      * unfold dflt_of. by rewrite Hd.
      * eapply Forall_impl; [exact Hid|]. intros kp. apply ident_plain.
    + constructor; [done|]. assert (E : cs.*1 = ps.*1); [|by rewrite E]. clear -Hall. induction Hall; cbn; [done|by f_equal].
  - intros raw nl i c Hft Hi [Hd Hs] Hc IH σ σp [Hσ _].
    destruct (IH (σ ++ [Star]) (σ ++ [Star])) as (c' & H1 & H2).
    { split; [apply Forall_app; split; [done|]; constructor; [exact I|constructor]|]. right. by eexists. }
    exists (PArr (path_of σ) None None c'). split; [|by constructor].
    eapply reads_arr; try done; [by apply section_bare|unfold dflt_of; by rewrite Hd|unfold dflt_of; by rewrite Hd].
  - intros σ _ _. exists []. split; constructor.
  - intros k p ps c cs Hp IHp Hps IHps σ Hσ Hid. inversion Hid as [|? ? Hk Hid']; subst. cbn in Hk.
    destruct (IHp (σ ++ [Nm k]) σ) as (p' & H1 & H2).
    { split; [apply Forall_app; split; [done|]; constructor; [by apply ident_plain|constructor]|]. left. exists k. split; [by apply ident_plain|done]. }
    destruct (IHps σ Hσ Hid') as (cs' & H3 & H4). exists ((k, p') :: cs'). split; by constructor.
Qed.
Lemma prel_pure :
  (forall σ σp s p, prel σ σp s p -> pure FJson p) /\
  (forall σ cs cs', prel_all σ cs cs' -> (fix all (cs : list (string * pitr)) : Prop :=
       match cs with [] => True | (_, c) :: cs' => pure FJson c /\ all cs' end) cs').
Proof.
  apply prel_mutind.
  - intros σ σp jt d ts pt Ht. cbn. destruct ts as [[[me delim] from]|], pt as [[[me' delim'] is]|]; try done.
    destruct Ht as (-> & -> & Hl & HF). cbn. destruct me; try done. rewrite <- (Forall2_length _ _ _ HF). by apply Hl.
  - intros σ σp cs cs' Hall IH Hnd. cbn. done.
  - intros σ σp c c' Hc IH. cbn. done.
  - done.
  - intros. done.
Qed.

(** ** well-formed paths *)
Lemma reads_path W tid σ raw p : reads W tid σ raw p -> p_path p = path_of σ.
Proof. by inversion 1. Qed.
Lemma reads_wf W tid :
  (forall σ raw p, reads W tid σ raw p -> wf_paths p) /\
  (forall σ ps cs, reads_all W tid σ ps cs -> Forall (fun kp => plain_name kp.1) ps -> NoDup ps.*1 -> forall q d ts, q = path_of σ -> wf_paths (PObj q d ts cs)).
Proof.
  apply reads_mutind.
  - intros; done.
  - intros σ raw nl ps d ts cs Hft Hps Hne Hsec Hd Hdk Hnd Hpl Hall IH. by apply IH.
  - intros σ raw nl i d ts c Hft Hi Hsec Hd Hdk Hc IH. cbn. split; [|done]. by rewrite (reads_path _ _ _ _ _ Hc), path_of_star.
  - intros σ _ _ q d ts ->. cbn. split; [constructor|done].
  - intros σ k p ps c cs Hp IHp Hps IHps Hpl Hnd q d ts ->. inversion Hpl as [|? ? Hk Hpl']; subst. cbn in Hk, Hnd. apply NoDup_cons in Hnd as [Hnk Hnd].
    destruct (IHps Hpl' Hnd (path_of σ) None None eq_refl) as [H1 H2]. cbn [wf_paths]. cbn in H1, H2.
    assert (E : cs.*1 = ps.*1). { clear -Hps. induction Hps; cbn; [done|by f_equal]. }
    split; [cbn; constructor; [by rewrite E|done]|]. split; [|done]. split; [exact Hk|]. split; [|done].
    by rewrite (reads_path _ _ _ _ _ Hp), path_of_name.
Qed.
Lemma reads_root_wf W tid props cs : reads_all W tid [] props cs -> Forall (fun kp => plain_name kp.1) props -> NoDup props.*1 ->
  wf_paths (PObj "$" None None cs).
Proof. intros H1 H2 H3. by eapply (proj2 (reads_wf W tid)). Qed.

(** ** documents that fit are projected *)
Lemma fits_unfold s t : fits s t <-> t = TS SNil \/
  match s with
  | Leaf jt _ _ => exists sc, t = TS sc /\ match sc with SBool _ => jt = "boolean" | SF _ => jt = "number" \/ jt = "integer" | SStr _ => jt = "string" | _ => False end
  | Rec cs => exists kvs, t = TObj kvs /\ Forall (fun kc => forall v, member kc.1 t = Some v -> fits kc.2 v) cs
  | Lst c => exists l, t = TArr l /\ Forall (fits c) l
  end.
Proof.
  destruct s as [jt d ts|cs|c]; cbn [fits]; apply or_iff_compat_l.
  - destruct t; try (split; [done|by intros (? & ? & ?)]). split; [intros H; by exists s|intros (sc & [= <-] & H); done].
  - destruct t as [| |kvs| |]; try (split; [done|by intros (? & ? & ?)]).
    assert (G : (fix all (cs : list (string * sch)) : Prop :=
       match cs with
       | [] => True
       | (k, c) :: cs' => match member k (TObj kvs) with Some v => fits c v | None => True end /\ all cs'
       end) cs <-> Forall (fun kc => forall v, member kc.1 (TObj kvs) = Some v -> fits kc.2 v) cs).
    { induction cs as [|[k c] cs IH]; [split; [constructor|done]|]. rewrite Forall_cons, <- IH. cbn [fst snd]. apply and_iff_compat_r.
      destruct (member k (TObj kvs)) as [v|]; split; intros H; try done; [by intros v' [= <-]|by apply H]. }
    split; [intros H; exists kvs; split; [done|by apply G]|intros (kvs' & [= <-] & H); by apply G].
  - destruct t as [|l| | |]; try (split; [done|by intros (? & ? & ?)]).
    assert (G : (fix all (l : list tree) : Prop := match l with [] => True | t :: l' => fits c t /\ all l' end) l <-> Forall (fits c) l).
    { induction l as [|t l IH]; [split; [constructor|done]|]. rewrite Forall_cons. by rewrite IH. }
    split; [intros H; exists l; split; [done|by apply G]|intros (kvs' & [= <-] & H); by apply G].
Qed.
Lemma untransformed_rec cs : untransformed (Rec cs) <-> Forall (fun kc => untransformed kc.2) cs.
Proof. cbn [untransformed]. induction cs as [|[k c] cs IH]; [split; [constructor|done]|]. rewrite Forall_cons. by rewrite IH. Qed.
Lemma all_of_some {A B} (g : A -> B) l : all_of (List.map (fun a => Some (g a)) l) = Some (List.map g l).
Proof. induction l as [|a l IH]; [done|]. cbn [List.map all_of]. by rewrite IH. Qed.
Lemma obj_of_nils (l : list string) : obj_of (List.map (fun k => (k, TS SNil)) l) = TS SNil.
Proof. unfold obj_of. assert (E : filter (fun kv : string * tree => tnil kv.2 = false) (List.map (fun k => (k, TS SNil)) l) = []); [|by rewrite E].
  induction l; [done|]. cbn [List.map]. rewrite filter_cons_False; done. Qed.
Section pick.
Context (W : oracles) (Hstack : 0 < o_stack W).
Lemma project_pick root s : untransformed s -> forall parent v, (forall t, v = Some t -> fits s t) ->
  project W root s parent v = Some (match v with Some t => pick s t | None => TS SNil end).
Proof.
  induction s as [jt d ts|cs IH|c IH] using sch_ind'; intros Hu parent v Hv.
  - destruct Hu as [-> ->]. cbn [project]. unfold resolve. cbn. destruct v as [t|]; [|done].
    specialize (Hv t eq_refl). apply fits_unfold in Hv as [->|(sc & -> & Hsc)].
    + unfold convert. destruct (o_stack W); [lia|]. done.
    + unfold convert. destruct (o_stack W); [lia|]. cbn. destruct sc as [|b|z|u|fl|str|ti]; try done; unfold convert_leaf.
      * subst jt. rewrite decide_True by done. done.
      * rewrite decide_False by (by destruct Hsc; subst). rewrite decide_True by (by destruct Hsc; subst; auto). done.
      * subst jt. rewrite !decide_False by (by intros []; done) || done. done.
  - apply untransformed_rec in Hu. cbn [project].
    assert (E : List.map (fun kc : string * sch => match kc with (k, c) => pair k <$> project W root c v (v ≫= member k) end) cs =
      List.map (fun kc : string * sch => Some (kc.1, match v ≫= member kc.1 with Some t => pick kc.2 t | None => TS SNil end)) cs).
    { apply map_ext_in. intros [k c] Hin. apply elem_of_list_In in Hin. cbn [fst snd]. rewrite Forall_forall in IH, Hu.
      specialize (IH (k, c) Hin (Hu (k, c) Hin)). cbn [snd] in IH. rewrite IH; [done|].
      intros t Ht. destruct v as [w|]; [|done]. specialize (Hv w eq_refl). apply fits_unfold in Hv as [->|(kvs & -> & HF)]; [done|].
      rewrite Forall_forall in HF. by apply (HF (k, c) Hin). }
    rewrite E, all_of_some. cbn [fmap option_fmap option_map]. f_equal. destruct v as [w|].
    + cbn [pick]. f_equal. apply map_ext. intros [k c]. done.
    + etrans; [|apply (obj_of_nils (List.map fst cs))]. rewrite map_map. done.
  - cbn [untransformed] in Hu. cbn [project]. destruct v as [w|]; [|done].
    specialize (Hv w eq_refl). apply fits_unfold in Hv as [->|(l & -> & HF)]; [done|]. cbn [elems pick].
    assert (E : imap (fun i (_ : tree) => project W root c (Some (TArr l) ≫= item i) (Some (TArr l) ≫= item i)) l =
       List.map (fun t => Some (pick c t)) l).
    { apply list_eq. intros i. rewrite list_lookup_imap. change (List.map ?g l) with (g <$> l). rewrite list_lookup_fmap.
      destruct (l !! i) as [t|] eqn:El; [|done]. cbn [fmap option_fmap option_map].
      change (Some (TArr l) ≫= item i) with (l !! i). rewrite El. f_equal. rewrite IH; [done|done|].
      intros t' [= <-]. by eapply Forall_lookup_1. }
    rewrite E, all_of_some. done.
Qed.
End pick.

(** the picked part prints *)
Lemma depth_arr l n : depth (TArr l) <= S n <-> Forall (fun t => depth t <= n) l.
Proof. cbn [depth]. rewrite <- Nat.succ_le_mono, foldr_max_le. by rewrite Forall_fmap. Qed.
Lemma depth_obj l n : depth (TObj l) <= S n <-> Forall (fun kv => depth kv.2 <= n) l.
Proof.
  cbn [depth]. rewrite <- Nat.succ_le_mono, foldr_max_le. change (List.map ?g l) with (g <$> l). rewrite Forall_fmap.
  apply Forall_iff. by intros [k t].
Qed.
Lemma Forall_keep {A} (P Q : A -> Prop) `{forall x, Decision (Q x)} l : Forall P l -> Forall P (filter Q l).
Proof. rewrite !Forall_forall. intros HP x Hx. apply elem_of_list_filter in Hx as [_ Hx]. by apply HP. Qed.
Lemma obj_of_depth l n : Forall (fun kv => tnil kv.2 = false -> depth kv.2 <= n) l -> depth (obj_of l) <= S n.
Proof.
  intros H. unfold obj_of. assert (HF : Forall (fun kv => depth kv.2 <= n) (filter (fun kv : string * tree => tnil kv.2 = false) l)).
  { apply Forall_forall. intros kv Hin. apply elem_of_list_filter in Hin as [H1 H2]. rewrite Forall_forall in H. by apply H. }
  destruct (filter _ l); [cbn; lia|]. by apply depth_obj.
Qed.
Lemma arr_of_depth l n : Forall (fun t => depth t <= n) l -> depth (arr_of l) <= S n.
Proof.
  intros H. unfold arr_of. assert (HF : Forall (fun t => depth t <= n) (filter (fun t : tree => tnil t = false) l)) by (by apply Forall_keep).
  destruct (filter _ l); [cbn; lia|]. by apply depth_arr.
Qed.
Lemma tree_ok_obj l : tree_ok (TObj l) = true <-> Forall (fun kv => tree_ok kv.2 = true) l.
Proof. cbn [tree_ok]. rewrite forallb_forall. rewrite Forall_forall. setoid_rewrite elem_of_list_In. split; intros H [k t] Hin; [apply (H (k, t) Hin)|by apply (H (k, t))]. Qed.
Lemma tree_ok_arr l : tree_ok (TArr l) = true <-> Forall (fun t => tree_ok t = true) l.
Proof. cbn [tree_ok]. rewrite forallb_forall. rewrite Forall_forall. by setoid_rewrite elem_of_list_In. Qed.
Lemma obj_of_ok l : Forall (fun kv => tree_ok kv.2 = true) l -> tree_ok (obj_of l) = true.
Proof.
  intros H. unfold obj_of. assert (HF : Forall (fun kv => tree_ok kv.2 = true) (filter (fun kv : string * tree => tnil kv.2 = false) l)) by (by apply Forall_keep).
  destruct (filter _ l); [done|]. by apply tree_ok_obj.
Qed.
Lemma arr_of_ok l : Forall (fun t => tree_ok t = true) l -> tree_ok (arr_of l) = true.
Proof.
  intros H. unfold arr_of. assert (HF : Forall (fun t => tree_ok t = true) (filter (fun t : tree => tnil t = false) l)) by (by apply Forall_keep).
  destruct (filter _ l); [done|]. by apply tree_ok_arr.
Qed.
Lemma member_in k t v : member k t = Some v -> exists kvs, t = TObj kvs /\ (k, v) ∈ kvs.
Proof. destruct t; try done. intros H%tmap_elem. eauto. Qed.
Lemma pick_depth s t : depth (pick s t) <= depth t.
Proof.
  revert t. induction s as [jt d ts|cs IH|c IH] using sch_ind'; intros t; [done| |].
  - cbn [pick]. destruct (depth t) as [|n] eqn:Ed; [pose proof (depth_pos t); lia|]. apply obj_of_depth.
    apply Forall_forall. intros [k v] Hin. apply elem_of_list_In, in_map_iff in Hin as ([k' c] & Hkv & Hin). injection Hkv as <- <-. cbn [snd].
    destruct (member k' t) as [w|] eqn:Em; [|done]. intros _.
    apply elem_of_list_In in Hin. rewrite Forall_forall in IH. specialize (IH (k', c) Hin w). cbn in IH.
    apply member_in in Em as (kvs & -> & Hkv). apply BuildL.member_depth in Hkv. lia.
  - cbn [pick]. destruct t as [|l| | |]; try apply depth_pos. destruct (depth (TArr l)) as [|n] eqn:Ed; [done|]. apply arr_of_depth.
    assert (HF : depth (TArr l) <= S n) by lia. apply depth_arr in HF. rewrite Forall_fmap. eapply Forall_impl; [exact HF|].
    intros t Ht. change (depth (pick c t) <= n). specialize (IH t). cbv beta in Ht. lia.
Qed.
Lemma pick_ok s t : tree_ok t = true -> tree_ok (pick s t) = true.
Proof.
  revert t. induction s as [jt d ts|cs IH|c IH] using sch_ind'; intros t Ht; [done| |].
  - cbn [pick]. apply obj_of_ok.
    apply Forall_forall. intros [k v] Hin. apply elem_of_list_In, in_map_iff in Hin as ([k' c] & Hkv & Hin). injection Hkv as <- <-. cbn [snd].
    destruct (member k' t) as [w|] eqn:Em; [|done].
    apply elem_of_list_In in Hin. rewrite Forall_forall in IH. apply (IH (k', c) Hin w).
    apply member_in in Em as (kvs & -> & Hkv). apply tree_ok_obj in Ht. rewrite Forall_forall in Ht. by apply (Ht (k', w)).
  - cbn [pick]. destruct t as [|l| | |]; try done. apply arr_of_ok. apply tree_ok_arr in Ht. rewrite Forall_fmap.
    eapply Forall_impl; [exact Ht|]. intros t Hx. by apply IH.
Qed.

(** Lemmas about single instances of a transformer. *)
From stdpp Require Import strings list gmap.
From Coq Require Import ZArith Lia.
From Verif Require Import GoStr GoStrL Val Conv ConvL Instr Heap Schema Build Api SpecPath PathL Den Param HeapL Refine Top
  SpecSchema BuildL SpecProj ProjL SpecRun RunL SpecTrans.

(** ** nodes and instances *)
Fixpoint passoc (k : string) (cs : list (string * pitr)) : option pitr :=
  match cs with [] => None | (n, c) :: cs' => if decide (n = k) then Some c else passoc k cs' end.
Fixpoint p_at (p : pitr) (τ : list seg) : option pitr :=
  match τ with
  | [] => Some p
  | Nm k :: τ' => match p with PObj _ _ _ cs => c ← passoc k cs; p_at c τ' | _ => None end
  | Star :: τ' => match p with PArr _ _ _ c => p_at c τ' | _ => None end
  | Ix _ :: _ => None
  end.
Lemma reads_all_in W tid σ ps cs k p : reads_all W tid σ ps cs -> NoDup ps.*1 -> (k, p) ∈ ps ->
  exists c, passoc k cs = Some c /\ reads W tid (σ ++ [Nm k]) p c.
Proof.
  induction 1 as [|σ k' p' ps c cs Hp Hps IH]; intros Hnd Hin; [by apply elem_of_nil in Hin|].
  cbn in Hnd. apply NoDup_cons in Hnd as [Hk Hnd]. cbn [passoc].
  apply elem_of_cons in Hin as [[= -> ->]|Hin]; [rewrite decide_True by done; eauto|].
  rewrite decide_False; [by apply IH|]. intros ->. apply Hk. by apply (elem_of_list_fmap_1 fst) in Hin.
Qed.
Lemma reads_all_assoc W tid σ ps cs k c : reads_all W tid σ ps cs -> passoc k cs = Some c ->
  exists p, (k, p) ∈ ps /\ reads W tid (σ ++ [Nm k]) p c.
Proof.
  induction 1 as [|σ k' p' ps c' cs Hp Hps IH]; cbn [passoc]; [done|]. case_decide as E.
  - intros [= ->]. subst. exists p'. split; [left|done].
  - intros H. destruct (IH H) as (p & Hin & Hr). exists p. split; [by right|done].
Qed.
Lemma reads_at W tid τ r raw : inst raw τ r -> forall σ p, reads W tid σ raw p ->
  exists p', p_at p τ = Some p' /\ reads W tid (σ ++ τ) r p'.
Proof.
  induction 1 as [raw|raw nl ps k p' τ r Hft Hps Hin Hi IH|raw nl i τ r Hft Hit Hi IH]; intros σ p Hp.
  - exists p. split; [done|]. by rewrite app_nil_r.
  - inversion Hp as [? ? jt2 nl2 ? ? Hft2 ? Hobj2|? ? nl2 ps2 d2 ? cs2 Hft2 Hps2 Hne2 Hsec2 Hd2 ? Hnd2 ? Hall2|? ? nl2 i2 d2 ? ? Hft2]; subst;
      rewrite Hft in Hft2; try done.
    + injection Hft2 as <- <-. rewrite Hobj2 in Hps by done. injection Hps as <-. by apply elem_of_nil in Hin.
    + rewrite Hps in Hps2. injection Hps2 as <-. destruct (reads_all_in _ _ _ _ _ _ _ Hall2 Hnd2 Hin) as (c & Hc & Hr).
      destruct (IH _ _ Hr) as (p2 & G1 & G2). exists p2. cbn [p_at]. rewrite Hc. split; [done|].
      by rewrite <- app_assoc in G2.
  - inversion Hp as [? ? jt2 nl2 ? ? Hft2 ? Hobj2|? ? nl2 ps2 d2 ? cs2 Hft2 Hps2 Hne2 Hsec2 Hd2 ? ? ? Hall2|? ? nl2 i2 d2 ? ? Hft2 Hi2 ? ? ? Hr]; subst;
      rewrite Hft in Hft2; try done.
    + injection Hft2 as <- <-. done.
    + rewrite Hit in Hi2. injection Hi2 as <-. destruct (IH _ _ Hr) as (p2 & G1 & G2). exists p2. split; [done|].
      by rewrite <- app_assoc in G2.
Qed.
Lemma reads_at_inv W tid τ : forall σ raw p p', reads W tid σ raw p -> p_at p τ = Some p' ->
  exists r, inst raw τ r /\ reads W tid (σ ++ τ) r p'.
Proof.
  induction τ as [|s τ IH]; intros σ raw p p' Hr Hp.
  - injection Hp as <-. exists raw. split; [constructor|by rewrite app_nil_r].
  - destruct s as [k| |i]; [| |done].
    + inversion Hr; subst; try done. cbn [p_at] in Hp. destruct (passoc k cs) as [c|] eqn:Ec; [|done].
      destruct (reads_all_assoc _ _ _ _ _ _ _ H7 Ec) as (p0 & Hin & Hr0).
      destruct (IH _ _ _ _ Hr0 Hp) as (r & H10 & H11). exists r. split; [by eapply inst_prop|]. by rewrite <- app_assoc in H11.
    + inversion Hr; subst; try done. cbn [p_at] in Hp.
      match goal with H : reads _ _ (_ ++ [Star]) _ _ |- _ => destruct (IH _ _ _ _ H Hp) as (r & H10 & H11) end.
      exists r. split; [by eapply inst_item|]. by rewrite <- app_assoc in H11.
Qed.
Lemma irel_children h fr : forall cs cs',
  (fix all (cs : list (string * pitr)) (cs' : list (string * itr)) {struct cs} : Prop :=
       match cs, cs' with
       | [], [] => True
       | (k, c) :: cs, (k', c') :: cs' => (k' = k /\ irel h fr c' c) /\ all cs cs'
       | _, _ => False
       end) cs cs' -> forall k, option_Forall2 (irel h fr) (get_child k cs') (passoc k cs).
Proof.
  induction cs as [|[k c] cs IH]; intros [|[k' c'] cs'] H k0; try done; [constructor|].
  destruct H as [[-> Hc] H]. cbn [get_child passoc]. case_decide; [by constructor|]. by apply IH.
Qed.
Lemma node_at_rel h fr τ : forall i p, irel h fr i p -> option_Forall2 (irel h fr) (node_at i τ) (p_at p τ).
Proof.
  induction τ as [|s τ IH]; intros i p Hi; [by constructor|]. destruct s as [k| |j]; cbn [node_at p_at]; [| |constructor].
  - destruct p, i; cbn [irel] in Hi; try done; try constructor.
    destruct Hi as (_ & _ & _ & Hall). apply irel_children with (k := k) in Hall. destruct Hall; [|constructor]. by apply IH.
  - destruct p, i as [| |? ? ? [c'|]]; cbn [irel] in Hi; try done; try constructor.
    destruct Hi as (_ & _ & _ & Hc). by apply IH.
Qed.
Lemma schema_at W tid props items p σ r : schema_reads W tid props items p -> well_named props items ->
  sinst (default [] props) items σ r -> exists p', p_at p σ = Some p' /\ reads W tid σ r p'.
Proof.
  intros Hr [Hw _] Hs. unfold schema_reads in Hr. destruct props as [ps|], items as [i|]; try done.
  - destruct Hr as (cs & -> & Hall). inversion Hs as [k q τ r' Hin Hi|]; [subst|done].
    destruct (Hw ps eq_refl) as [Hnd _]. destruct (reads_all_in _ _ _ _ _ _ _ Hall Hnd Hin) as (c & Hc & Hr).
    destruct (reads_at _ _ _ _ _ Hi _ _ Hr) as (p' & H1 & H2). exists p'. cbn [p_at]. rewrite Hc. split; [done|]. done.
  - destruct Hr as (c & -> & Hr). inversion Hs as [k q τ r' Hin Hi|i' τ r' Hii Hi]; subst; [by apply elem_of_nil in Hin|].
    injection Hii as <-. destruct (reads_at _ _ _ _ _ Hi _ _ Hr) as (p' & H1 & H2). exists p'. by split.
Qed.
Lemma schema_at_inv W tid props items p σ p' : schema_reads W tid props items p -> p_at p σ = Some p' -> σ <> [] ->
  exists r, sinst (default [] props) items σ r /\ reads W tid σ r p'.
Proof.
  intros Hr Hp Hne. destruct σ as [|s σ]; [done|]. unfold schema_reads in Hr. destruct props as [ps|], items as [i|]; try done.
  - destruct Hr as (cs & -> & Hall). destruct s as [k| |j]; try done. cbn [p_at] in Hp.
    destruct (passoc k cs) as [c|] eqn:Ec; [|done]. destruct (reads_all_assoc _ _ _ _ _ _ _ Hall Ec) as (p0 & Hin & Hr0).
    destruct (reads_at_inv _ _ _ _ _ _ _ Hr0 Hp) as (r & H1 & H2). exists r. split; [by eapply sinst_prop|done].
  - destruct Hr as (c & -> & Hr). destruct s as [k| |j]; try done. cbn [p_at] in Hp.
    destruct (reads_at_inv _ _ _ _ _ _ _ Hr Hp) as (r & H1 & H2). exists r. split; [by eapply sinst_item|done].
Qed.

Lemma inst_fun raw τ r : inst raw τ r -> (forall τ' r', inst raw τ' r' -> well_named1 r') -> forall r', inst raw τ r' -> r' = r.
Proof.
  induction 1 as [raw|raw nl ps k p τ r Hft Hps Hin Hi IH|raw nl i τ r Hft Hit Hi IH]; intros Hw r' Hr'.
  - by inversion Hr'.
  - inversion Hr' as [|? nl2 ps2 k2 p2 τ2 ? Hft2 Hps2 Hin2 Hi2|]; subst. rewrite Hps in Hps2. injection Hps2 as <-.
    destruct (Hw [] raw ltac:(constructor)) as [Hn _]. destruct (Hn _ _ Hft Hps) as [Hnd _].
    assert (p2 = p) as ->.
    { apply (elem_of_list_to_map_1 (M := gmap string)) in Hin; [|done]. apply (elem_of_list_to_map_1 (M := gmap string)) in Hin2; [|done].
      rewrite Hin in Hin2. by injection Hin2. }
    apply IH; [|done]. intros τ' r2 H2. eapply Hw. by eapply inst_prop.
  - inversion Hr' as [| |? nl2 i2 τ2 ? Hft2 Hit2 Hi2]; subst. rewrite Hit in Hit2. injection Hit2 as <-.
    apply IH; [|done]. intros τ' r2 H2. eapply Hw. by eapply inst_item.
Qed.
Lemma sinst_fun props items σ r r' : well_named props items -> sinst (default [] props) items σ r ->
  sinst (default [] props) items σ r' -> r' = r.
Proof.
  intros [Hw1 Hw2] H H'. inversion H as [k p τ ? Hin Hi|i τ ? Hii Hi]; subst; inversion H' as [k' p' τ' ? Hin' Hi'|i' τ' ? Hii' Hi']; subst.
  - destruct props as [ps|]; [|by apply elem_of_nil in Hin]. destruct (Hw1 ps eq_refl) as [Hnd _]. cbn in Hin, Hin'.
    assert (p' = p) as ->.
    { apply (elem_of_list_to_map_1 (M := gmap string)) in Hin; [|done]. apply (elem_of_list_to_map_1 (M := gmap string)) in Hin'; [|done].
      rewrite Hin in Hin'. by injection Hin'. }
    eapply inst_fun; [exact Hi| |done]. intros τ' r2 H2. eapply Hw2. by eapply sinst_prop.
  - injection Hii' as <-. eapply inst_fun; [exact Hi| |done]. intros τ' r2 H2. eapply Hw2. by eapply sinst_item.
Qed.
Lemma inst_seg_ok raw τ r : inst raw τ r -> (forall τ' r', inst raw τ' r' -> well_named1 r') -> Forall seg_ok τ.
Proof.
  induction 1 as [raw|raw nl ps k p τ r Hft Hps Hin Hi IH|raw nl i τ r Hft Hit Hi IH]; intros Hw; constructor.
  - destruct (Hw [] raw ltac:(constructor)) as [Hn _]. destruct (Hn _ _ Hft Hps) as [_ Hpl]. rewrite Forall_forall in Hpl. by apply (Hpl (k, p)).
  - apply IH. intros τ' r2 H2. eapply Hw. by eapply inst_prop.
  - done.
  - apply IH. intros τ' r2 H2. eapply Hw. by eapply inst_item.
Qed.
Lemma sinst_seg_ok props items σ r : well_named props items -> sinst (default [] props) items σ r -> Forall seg_ok σ.
Proof.
  intros [Hw1 Hw2] H. inversion H as [k p τ ? Hin Hi|i τ ? Hii Hi]; subst; constructor.
  - destruct props as [ps|]; [|by apply elem_of_nil in Hin]. destruct (Hw1 ps eq_refl) as [_ Hpl]. rewrite Forall_forall in Hpl. by apply (Hpl (k, p)).
  - eapply inst_seg_ok; [exact Hi|]. intros τ' r2 H2. eapply Hw2. by eapply sinst_prop.
  - done.
  - eapply inst_seg_ok; [exact Hi|]. intros τ' r2 H2. eapply Hw2. by eapply sinst_item.
Qed.

Definition p_kind (p : pitr) : ikind := match p with PScal _ _ _ _ => KScalar | PObj _ _ _ _ => KObject | PArr _ _ _ _ => KArray end.
Definition p_ts (p : pitr) : option ptis := match p with PScal _ _ _ ts => ts | PObj _ _ ts _ => ts | PArr _ _ ts _ => ts end.
Lemma irel_kind h fr i p : irel h fr i p -> node_kind i = p_kind p /\ tsrel fr (node_ts i) (p_ts p).
Proof.
  destruct p, i as [| |? ? ? [c'|]]; cbn [irel]; try done.
  - by intros (_ & _ & _ & ?).
  - by intros (_ & ? & _).
  - by intros (_ & ? & _).
Qed.
Lemma reads_kind W tid σ r p k : reads W tid σ r p -> kind_of r k <-> k = p_kind p.
Proof.
  intros H. split.
  - intros Hk. inversion H as [? ? jt2 nl2 ? ? Hft2 ? Hobj2|? ? nl2 ps2 d2 ? cs2 Hft2 Hps2 Hne2|? ? nl2 i2 d2 ? ? Hft2 Hi2]; subst;
      inversion Hk as [? Hf|? ? Hf Hp Hn|? Hf Hp|? ? Hf]; subst; cbn; try done;
      pose proof (eq_trans (eq_sym Hf) Hft2) as Heq; simplify_eq; try done; try (rewrite Hobj2 in Hp by done); try congruence.
  - intros ->. inversion H as [? ? jt2 nl2 ? ? Hft2 ? Hobj2|? ? nl2 ps2 d2 ? cs2 Hft2 Hps2 Hne2|? ? nl2 i2 d2 ? ? Hft2 Hi2]; subst; cbn.
    + destruct (decide (jt2 = "object")) as [->|Hne]; [by eapply kind_empty; [|apply Hobj2]|by eapply kind_scalar].
    + by eapply kind_object.
    + by eapply kind_array.
Qed.
Lemma reads_section W tid σ r p : reads W tid σ r p -> section W tid r (parent_path (path_of σ) (p_kind p)) = Ok (p_ts p).
Proof. by inversion 1. Qed.
Lemma all_some_fmap {A} (l : list A) : all_some (Some <$> l) = Some l.
Proof. induction l as [|a l IH]; [done|]. change (all_some (Some <$> a :: l)) with (cons a <$> all_some (Some <$> l)). by rewrite IH. Qed.
Lemma section_of W tid r parent me delim is : transform_section W tid r me delim is ->
  section W tid r parent = Ok (Some (me, delim, rebase parent <$> is)).
Proof.
  intros (t & Ht & Hne & Hd). unfold section. rewrite Ht.
  assert (E : rbind (dec_tis W t) (fun d => match all_some d.2 with
       | Some is0 => Ok (Some (d.1.1, d.1.2, rebase parent <$> is0)) | None => Panic end) = Ok (Some (me, delim, rebase parent <$> is))).
  { rewrite Hd. cbn [rbind snd fst]. by rewrite all_some_fmap. }
  destruct t as [[| | | | |str|]| | | |]; try exact E. destruct str; [done|exact E].
Qed.
Lemma section_inv W tid r parent me delim is' : section W tid r parent = Ok (Some (me, delim, is')) ->
  exists is, transform_section W tid r me delim is /\ is' = rebase parent <$> is.
Proof.
  unfold section. destruct (jlookup "transform" r ≫= jlookup tid) as [t|] eqn:Et; [|done]. intros H.
  assert (Ht : t <> TS (SStr "")) by (by intros ->).
  assert (G : rbind (dec_tis W t) (fun d => match all_some d.2 with
       | Some is0 => Ok (Some (d.1.1, d.1.2, rebase parent <$> is0)) | None => Panic end) = Ok (Some (me, delim, is'))).
  { destruct t as [[| | | | |str|]| | | |]; try exact H. destruct str; [done|exact H]. }
  destruct (dec_tis W t) as [[[me2 delim2] from]| |] eqn:Ed; cbn in G; try done.
  destruct (all_some from) as [is|] eqn:Ea; [|done]. injection G as -> -> <-. exists is. split; [|done].
  exists t. split; [done|]. split; [done|]. rewrite Ed. do 2 f_equal.
  clear -Ea. revert is Ea. induction from as [|[a|] from IH]; intros is Ea; cbn in Ea; [by injection Ea as <-| |done].
  destruct (all_some from); [|done]. injection Ea as <-. cbn. f_equal. by apply IH.
Qed.
Lemma anchor_parent k σ a : Forall seg_ok σ -> anchor k σ a -> parent_path (path_of σ) k = path_of a.
Proof.
  intros Hok H. inversion H as [? ? n|?|? ? n j Hk]; subst.
  - apply Forall_app in Hok as [H1 H2]. inversion H2; subst. by apply parent_member.
  - apply Forall_app in Hok as [H1 H2]. by apply parent_scalar_item.
  - apply Forall_app in Hok as [H1 H2]. inversion H2; subst. by apply parent_nested_item.
Qed.
Lemma has_prefix_inv p s : has_prefix p s = true -> exists r, s = p +:+ r.
Proof.
  revert s. induction p as [|a p IH]; intros s H; [by exists s|]. destruct s as [|b s]; [done|].
  cbn in H. case_decide as E; [subst|done].
  destruct (IH s H) as [r ->]. by exists r.
Qed.
Lemma rebase1_anchored σ p : anchored (path_of σ) p (rebase1 (path_of σ) p).
Proof.
  destruct (has_prefix "@." p) eqn:E1.
  - apply has_prefix_inv in E1 as [r ->]. left. exists r. split; [done|apply rebase_dot].
  - destruct (has_prefix "@[" p) eqn:E2.
    + apply has_prefix_inv in E2 as [r ->]. right. left. exists r. split; [done|apply rebase_bracket].
    + right. right. split; [|split]; [| |by apply rebase_other].
      * intros r ->. by rewrite has_prefix_app in E1.
      * intros r ->. by rewrite has_prefix_app in E2.
Qed.
Lemma rebase_anchored σ is : Forall2 (anchored_entry (path_of σ)) is (rebase (path_of σ) <$> is).
Proof.
  induction is as [|i is IH]; [constructor|]. constructor; [|done].
  rewrite rebase_unfold. split; [apply rebase1_anchored|]. split; [apply rebase1_anchored|done].
Qed.

Section built.
Context (W : oracles) (tid : string) (props : option (list (string * tree))) (items : option tree).
Context (Hw : well_named props items) (s : st) (i : itr).
Context (Hn : new_transformer W tid props items st0 = (s, Ok i)).

Lemma built_nodes :
  (forall σ r, sinst (default [] props) items σ r ->
     exists n, node_at i σ = Some n /\ it_path n = path_of σ /\ (forall k, kind_of r k <-> k = node_kind n)) /\
  (forall σ n, node_at i σ = Some n -> σ <> [] -> exists r, sinst (default [] props) items σ r).
Proof.
  destruct (new_reads W tid props items s i Hw Hn) as (p & Hr & _ & Hi). split.
  - intros σ r Hs. destruct (schema_at _ _ _ _ _ _ _ Hr Hw Hs) as (p' & Hp & Hr').
    pose proof (node_at_rel _ _ σ i p Hi) as Hrel. rewrite Hp in Hrel. inversion Hrel as [n ? Hn' E1 E2|]; subst.
    exists n. split; [done|]. split; [by rewrite (irel_path _ _ _ _ Hn'), (reads_path _ _ _ _ _ Hr')|].
    intros k. rewrite (proj1 (irel_kind _ _ _ _ Hn')). by eapply reads_kind.
  - intros σ n Hs Hne. pose proof (node_at_rel _ _ σ i p Hi) as Hrel. rewrite Hs in Hrel. inversion Hrel as [? p' Hn' E1 E2|]; subst.
    destruct (schema_at_inv _ _ _ _ _ _ _ Hr (eq_sym E2) Hne) as (r & H1 & _). by exists r.
Qed.
Lemma built_section σ r k a me delim is : sinst (default [] props) items σ r -> kind_of r k -> anchor k σ a ->
  transform_section W tid r me delim is ->
  exists n t is', node_at i σ = Some n /\ node_ts n = Some t /\ ti_meth t = me /\ ti_delim t = delim /\
    froms s !! ti_id t = Some is' /\ Forall2 (anchored_entry (path_of a)) is is'.
Proof.
  intros Hs Hk Ha Hsec. destruct (new_reads W tid props items s i Hw Hn) as (p & Hr & _ & Hi).
  destruct (schema_at _ _ _ _ _ _ _ Hr Hw Hs) as (p' & Hp & Hr').
  pose proof (node_at_rel _ _ σ i p Hi) as Hrel. rewrite Hp in Hrel. inversion Hrel as [n ? Hn' E1 E2|]; subst.
  apply (reads_kind _ _ _ _ _ _ Hr') in Hk as ->. pose proof (reads_section _ _ _ _ _ Hr') as Hs'.
  rewrite (anchor_parent _ _ _ (sinst_seg_ok _ _ _ _ Hw Hs) Ha) in Hs'. rewrite (section_of _ _ _ _ _ _ _ Hsec) in Hs'.
  injection Hs' as Hs'. destruct (irel_kind _ _ _ _ Hn') as [_ Hts]. rewrite <- Hs' in Hts.
  destruct (node_ts n) as [t|] eqn:Et; [|done]. destruct Hts as (H1 & H2 & H3).
  exists n, t, (rebase (path_of a) <$> is). split_and!; try done. apply rebase_anchored.
Qed.
End built.

(** ** crashes *)
Lemma member_depth_view g l x : gview tview g = WArr l -> x ∈ l -> S (depth (gtree x)) <= depth (gtree g).
Proof.
  assert (Hmax : forall (ds : list nat) d, d ∈ ds -> d <= foldr Nat.max 0 ds).
  { intros ds d. induction 1 as [|? ? ? ? IH]; cbn; lia. }
  destruct g as [t|sc|gl|ns]; cbn.
  - destruct t as [?|ts|?|?|?]; cbn; try done. intros [= <-] Hin. apply elem_of_list_fmap in Hin as (t & -> & Hin). cbn.
    apply le_n_S, Hmax. by apply elem_of_list_fmap_1.
  - done.
  - intros [= <-] Hin. apply le_n_S, Hmax. apply elem_of_list_fmap. exists (gtree x). split; [done|]. by apply elem_of_list_fmap_1.
  - done.
Qed.
Lemma convert_depth W jt g n : depth (gtree g) <= n -> convert_go W tview n jt g <> None.
Proof.
  revert g. induction n as [|n IH]; intros g Hd; [pose proof (depth_pos (gtree g)); lia|]. cbn [convert_go].
  destruct (is_nil tview g); [done|]. destruct (gview tview g) as [|l| | |] eqn:Ev; try done.
  destruct l as [|x l]; [done|]. destruct (_ || _); [|done].
  pose proof (member_depth_view _ _ x Ev ltac:(left)) as H1.
  destruct (gview tview x) as [|l2| | |] eqn:Ev2; try done. destruct l2 as [|y l2]; [done|].
  pose proof (member_depth_view _ _ y Ev2 ltac:(left)) as H2. apply IH. lia.
Qed.
Lemma ops_calm W ops g : (forall args, OpMax args ∉ ops) -> ops_run W tview ops g <> Panic.
Proof.
  revert g. induction ops as [|o ops IH]; intros g Hno; [done|]. cbn [ops_run].
  destruct (op_run W tview o g) as [v| |] eqn:Eo; cbn; [|done|].
  - apply IH. intros args Hin. apply (Hno args). by right.
  - apply op_run_panic in Eo as (args & -> & _). exfalso. apply (Hno args). left.
Qed.
Lemma json_instr_calm W ins doc ft m : roomy W doc -> (forall args, OpMax args ∉ i_ops ins) ->
  json_instr W tview ins doc ft m <> Panic.
Proof.
  intros Hr Hno. unfold json_instr. destruct (jget W tview _ doc) as [g|] eqn:Eg; [|done].
  destruct (is_nil tview g); [done|]. pose proof (convert_depth W ft g _ (Hr _ _ Eg)) as Hc.
  unfold convert. destruct (convert_go W tview (o_stack W) ft g) as [[v e]|]; [|done].
  destruct (is_nil tview _); [done|]. by apply ops_calm.
Qed.
Lemma run_first_calm {V} (view : V -> vw V) step from : Forall (fun i => step i <> Panic) from -> run_first view step from <> Panic.
Proof.
  induction 1 as [|i from Hi HF IH]; cbn; [done|]. destruct (step i); cbn; try done. by destruct (is_nil _ _).
Qed.
Lemma run_concat_calm {V} (view : V -> vw V) step d acc from : Forall (fun i => step i <> Panic) from -> run_concat view step d acc from <> Panic.
Proof.
  intros HF. revert acc. induction HF as [|i from Hi HF IH]; intros acc; cbn; [done|]. destruct (step i) as [v| |]; cbn; try done.
  destruct (concat view acc v d) as [r| |] eqn:Ec; cbn; [apply IH|done|].
  exfalso. unfold concat in Ec. repeat case_match; done.
Qed.
Lemma tis_calm W doc t from ft m : roomy W doc -> Forall (fun i => forall args, OpMax args ∉ i_ops i) from ->
  (tis_run W tview FJson t from doc ft m).1 <> Panic.
Proof.
  intros Hr Hno.
  assert (HF : forall from', from' ⊆ from -> Forall (fun i => instr_run W tview FJson i doc ft m <> Panic) from').
  { intros from' Hsub. apply Forall_forall. intros i Hi. apply json_instr_calm; [done|]. rewrite Forall_forall in Hno. apply Hno. by apply Hsub. }
  unfold tis_run. cbn [fst]. destruct (ti_meth t).
  - by apply run_first_calm, HF.
  - apply run_first_calm, HF. intros x. rewrite !elem_of_list_In. by rewrite <- in_rev.
  - by apply run_concat_calm, HF.
Qed.
Lemma section_calm W tid doc raw parent ft ts : roomy W doc ->
  (forall me delim is, transform_section W tid raw me delim is -> Forall (fun i => forall args, OpMax args ∉ i_ops i) is) ->
  section W tid raw parent = Ok ts -> calm_ts W FJson (fun t _ => doc = t) ft ts.
Proof.
  intros Hr Hno Hs. destruct ts as [[[me delim] from]|]; [|done].
  apply section_inv in Hs as (is & Hsec & ->). intros it m <-. apply tis_calm; [done|].
  apply Forall_fmap. eapply Forall_impl; [by eapply Hno|]. intros i Hi args. cbn. apply Hi.
Qed.
Lemma scal_calm W doc q jt : roomy W doc -> FJson = FJson -> forall it m g, doc = it -> jget W tview (apply_mod m q) it = Some g ->
  convert W tview jt g <> None.
Proof. intros Hr _ it m g <- Hg. apply convert_depth. by eapply Hr. Qed.
Definition no_max1 (W : oracles) (tid : string) (r : tree) : Prop :=
  forall me delim is, transform_section W tid r me delim is -> Forall (fun i => forall args, OpMax args ∉ i_ops i) is.
Lemma reads_calm W tid doc : roomy W doc ->
  (forall σ raw p, reads W tid σ raw p -> (forall τ r, inst raw τ r -> no_max1 W tid r) -> calm W FJson (fun t _ => doc = t) p) /\
  (forall σ ps cs, reads_all W tid σ ps cs -> (forall k p τ r, (k, p) ∈ ps -> inst p τ r -> no_max1 W tid r) ->
     (fix all (cs : list (string * pitr)) : Prop :=
       match cs with [] => True | (_, c) :: cs => calm W FJson (fun t _ => doc = t) c /\ all cs end) cs).
Proof.
  intros Hroom. apply reads_mutind.
  - intros σ raw jt nl jt' ts Hft Hna Hobj Hlt Hsec Hdk Hno. cbn [calm]. split; [|by apply scal_calm].
    eapply section_calm; [done| |exact Hsec]. apply (Hno []). constructor.
  - intros σ raw nl ps d ts cs Hft Hps Hne Hsec Hd Hdk Hnd Hpl Hall IH Hno. cbn [calm]. split.
    + eapply section_calm; [done| |exact Hsec]. apply (Hno []). constructor.
    + apply IH. intros k p τ r Hin Hi. apply (Hno (Nm k :: τ)). by eapply inst_prop.
  - intros σ raw nl i d ts c Hft Hi Hsec Hd Hdk Hc IH Hno. cbn [calm]. split.
    + eapply section_calm; [done| |exact Hsec]. apply (Hno []). constructor.
    + apply IH. intros τ r Hr. apply (Hno (Star :: τ)). by eapply inst_item.
  - done.
  - intros σ k p ps c cs Hp IHp Hps IHps Hno. split.
    + apply IHp. intros τ r Hr. eapply Hno; [left|done].
    + apply IHps. intros k' p' τ r Hin Hr. eapply Hno; [by right|done].
Qed.
Lemma schema_calm W tid props items p doc : roomy W doc -> no_max W tid props items ->
  schema_reads W tid props items p -> calm W FJson (fun t _ => doc = t) p.
Proof.
  intros Hroom Hno. unfold schema_reads. destruct props as [ps|], items as [i|]; try done.
  - intros (cs & -> & Hr). cbn [calm]. split; [done|]. eapply (proj2 (reads_calm W tid doc Hroom)); [done|].
    intros k p σ' r Hin Hi me delim is. eapply Hno. by eapply sinst_prop.
  - intros (c & -> & Hr). cbn [calm]. split; [done|].
    eapply (proj1 (reads_calm W tid doc Hroom)); [done|]. intros σ' r Hi me delim is. eapply Hno. by eapply sinst_item.
Qed.
Lemma check_calm E d : check E d <> Panic.
Proof. unfold check, validate. by destruct (e_valid E d) as [[[] []]|]. Qed.
Lemma serve_calm W (HW : jpath_parametric W) E (HE : unmarshals E) tid props items i s perm c :
  well_named props items -> tame W tid FJson props items -> no_max W tid props items ->
  state W E FJson tid props items i s -> orders perm ->
  (forall doc, e_json E (raw_of c) = Some doc -> roomy W doc) ->
  (serve W E perm FJson i c s).2 <> Panic.
Proof.
  intros Hw Ht Hno Hs Ho Hroom. destruct (state_reads W HW E HE _ _ _ _ _ _ Hw Ht Hs) as (p & Hr & Hst & Hi).
  assert (H : (transform_no_validation W E perm FJson i (raw_of c) s).2 <> Panic).
  { cbn [transform_no_validation]. unfold Api.base_json. destruct (e_json E (raw_of c)) as [doc|] eqn:Ed; [|done].
    apply (json_transform_calm W HW perm Ho i p doc s); try done.
    - by eapply schema_wf. - by eapply schema_pure. - eapply schema_calm; eauto. - by eapply HE. }
  destruct c as [raw|raw]; cbn [serve raw_of] in *; [|done]. rewrite transform_eq. cbv zeta. cbn [snd].
  destruct (_.2) as [d| |]; cbn; try done. apply check_calm.
Qed.
Lemma depth_sub k t t' : select tview k t = Some t' -> depth t' <= depth t.
Proof.
  assert (Hmax : forall (ds : list nat) d, d ∈ ds -> d <= foldr Nat.max 0 ds).
  { intros ds d. induction 1 as [|? ? ? ? IH]; cbn; lia. }
  unfold select. destruct t as [?|l|kvs|?|?]; cbn [tview]; try done.
  - destruct (atoi k); cbn; [|done]. case_match; [|done]. intros Hl%elem_of_list_lookup_2.
    enough (depth t' <= foldr Nat.max 0 (depth <$> l)) by lia. apply Hmax. by apply elem_of_list_fmap_1.
  - intros Ht. apply elem_of_list_to_map_2 in Ht. cbn [depth].
    enough (depth t' <= foldr Nat.max 0 (List.map (fun kv : string * tree => match kv with (_, t') => depth t' end) kvs)) by lia.
    apply Hmax. apply elem_of_list_In, in_map_iff. exists (k, t'). split; [done|]. by apply elem_of_list_In.
Qed.
Lemma roomy_shallow W doc : depth doc <= o_stack W ->
  (forall path g, o_jpath W tree tview path doc = Some g -> depth (gtree g) <= o_stack W) -> roomy W doc.
Proof.
  intros Hd Hj path g. unfold jget. destruct (plain_path path) as [ks|]; [|apply Hj].
  destruct (select_path tview ks doc) as [t|] eqn:E; [|done]. intros [= <-]. cbn. transitivity (depth doc); [|done]. clear Hd Hj.
  revert doc E. induction ks as [|k ks IH]; intros doc E; cbn in E; [by injection E as ->|].
  destruct (select tview k doc) as [t'|] eqn:Es; [|done]. cbn in E. apply depth_sub in Es. apply IH in E. lia.
Qed.

(** Lemmas about whole transformers. *)
From stdpp Require Import strings list gmap.
From Coq Require Import ZArith Lia.
From Verif Require Import GoStr GoStrL Val Conv Instr Heap Schema Build Api SpecPath PathL Den Param HeapL Refine Top
  SpecSchema BuildL SpecProj ProjL SpecRun.

Lemma sinst_prop_r props items k p σ r : (k, p) ∈ props -> inst p σ r -> sinst props items (Nm k :: σ) r.
Proof. intros; by econstructor. Qed.

Lemma well_named_good ps items : well_named (Some ps) items -> good_props ps.
Proof.
  intros [H1 H2]. destruct (H1 ps eq_refl) as [Hnd Hpl]. split; [done|]. apply Forall_forall. intros [k p] Hin. cbn. split.
  - rewrite Forall_forall in Hpl. by apply (Hpl (k, p)).
  - intros σ r Hr. apply (H2 (Nm k :: σ)). by eapply sinst_prop.
Qed.
Lemma well_named_item i : well_named None (Some i) -> good i.
Proof. intros [_ H2] σ r Hr. apply (H2 (Star :: σ)). by eapply sinst_item. Qed.

(** ** tame schemas read as pure transformers *)
Definition pure_all (f : fmt) := fix all (cs : list (string * pitr)) : Prop :=
  match cs with [] => True | (_, c) :: cs' => pure f c /\ all cs' end.
Lemma all_some_length {A} (l : list (option A)) r : all_some l = Some r -> length r = length l.
Proof.
  revert r. induction l as [|[a|] l IH]; intros r; cbn; [by intros [= <-]| |done].
  destruct (all_some l) eqn:E; [|done]. intros [= <-]. cbn. f_equal. by apply IH.
Qed.
Lemma section_pure W tid f raw parent ts : tame1 W tid f raw -> section W tid raw parent = Ok ts -> pure_ts ts.
Proof.
  intros (H1 & _ & _). unfold section. destruct (jlookup "transform" raw ≫= jlookup tid) as [t|] eqn:Et; [|by intros [= <-]].
  assert (G : rbind (dec_tis W t) (fun d => match all_some d.2 with
         | Some is0 => Ok (Some (d.1.1, d.1.2, rebase parent <$> is0)) | None => Panic end) = Ok ts -> pure_ts ts).
  { destruct (dec_tis W t) as [[[me delim] from]| |] eqn:Ed; cbn; try done. destruct (all_some from) as [is|] eqn:Ea; [|done].
    intros [= <-]. cbn. destruct me; try done. rewrite fmap_length, (all_some_length _ _ Ea). by eapply H1. }
  destruct t as [[| | | | |str|]| | | |]; try exact G. destruct str; [by intros [= <-]|exact G].
Qed.
Lemma section_none W tid raw parent ts : jlookup "transform" raw ≫= jlookup tid = None -> section W tid raw parent = Ok ts -> ts = None.
Proof. intros H. rewrite section_bare by done. by intros [= <-]. Qed.
Lemma reads_pure W tid f :
  (forall σ raw p, reads W tid σ raw p -> (forall σ' r, inst raw σ' r -> tame1 W tid f r) -> pure f p) /\
  (forall σ ps cs, reads_all W tid σ ps cs -> (forall k p σ' r, (k, p) ∈ ps -> inst p σ' r -> tame1 W tid f r) -> pure_all f cs).
Proof.
  apply reads_mutind.
  - intros σ raw jt nl jt' ts Hft Hna Hobj Hlt Hsec Hdk Ht. cbn. eapply section_pure; [|done]. apply (Ht []). constructor.
  - intros σ raw nl ps d ts cs Hft Hps Hne Hsec Hd Hdk Hnd Hpl Hall IH Ht. pose proof (Ht [] raw (inst_here raw)) as Htr.
    destruct Htr as (H1 & H2 & H3). destruct (H2 nl ps Hft Hps Hne) as [Hd0 Hf].
    split; [eapply section_pure; [|done]; by apply (Ht []); constructor|]. split; [destruct d; [congruence|done]|].
    split; [intros HJ; by eapply section_none; [apply Hf|]|]. apply IH. intros k p σ' r Hin Hr. apply (Ht (Nm k :: σ')).
    by eapply inst_prop.
  - intros σ raw nl i d ts c Hft Hi Hsec Hd Hdk Hc IH Ht. pose proof (Ht [] raw (inst_here raw)) as Htr.
    destruct Htr as (H1 & H2 & H3).
    split; [eapply section_pure; [|done]; by apply (Ht []); constructor|].
    split; [intros HJ; destruct (H3 nl Hft HJ) as [Hd0 Hs0]; split; [by eapply section_none|destruct d; [congruence|done]]|].
    apply IH. intros σ' r Hr. apply (Ht (Star :: σ')). by eapply inst_item.
  - done.
  - intros σ k p ps c cs Hp IHp Hps IHps Ht. split.
    + apply IHp. intros σ' r Hr. eapply Ht; [|done]. left.
    + apply IHps. intros k' p' σ' r Hin Hr. eapply Ht; [|done]. by right.
Qed.

(** ** the reading of a whole schema *)
Definition schema_reads (W : oracles) (tid : string) (props : option (list (string * tree))) (items : option tree) (p : pitr) : Prop :=
  match props, items with
  | Some ps, None => exists cs, p = PObj "$" None None cs /\ reads_all W tid [] ps cs
  | None, Some i => exists c, p = PArr "$" None None c /\ reads W tid [Star] i c
  | _, _ => False
  end.
Lemma schema_pure W tid f props items p : tame W tid f props items -> schema_reads W tid props items p -> pure f p.
Proof.
  intros Ht. unfold schema_reads. destruct props as [ps|], items as [i|]; try done.
  - intros (cs & -> & Hr). cbn. split; [done|]. split; [done|]. split; [done|].
    eapply (proj2 (reads_pure W tid f)); [done|]. intros k p σ' r Hin Hi. eapply Ht. by eapply sinst_prop.
  - intros (c & -> & Hr). cbn. split; [done|]. split; [done|].
    eapply (proj1 (reads_pure W tid f)); [done|]. intros σ' r Hi. eapply Ht. by eapply sinst_item.
Qed.
Lemma schema_wf W tid props items p : well_named props items -> schema_reads W tid props items p -> wf_paths p.
Proof.
  intros Hw. unfold schema_reads. destruct props as [ps|], items as [i|]; try done.
  - intros (cs & -> & Hr). destruct (proj1 Hw ps eq_refl). by eapply reads_root_wf.
  - intros (c & -> & Hr). cbn. split; [by rewrite (reads_path _ _ _ _ _ Hr)|]. by eapply (proj1 (reads_wf W tid)).
Qed.
Lemma stok0 : stok st0. Proof. intros l [x Hx]. cbn in Hx. by rewrite lookup_empty in Hx. Qed.
Lemma fok0 : fok st0. Proof. intros l [x Hx]. cbn in Hx. by rewrite lookup_empty in Hx. Qed.

(** ** schemas with both properties and items are rejected *)
Lemma walk_inv {S} (fn : string -> tree -> S -> S * res unit) (P : S -> Prop) :
  (forall path v s, P s -> P (fn path v s).1) ->
  forall n raw path s, depth raw <= n -> P s -> P (walk_raw fn raw path s).1.
Proof.
  intros Hfn. induction n as [|n IH]; intros raw path s Hn Hs.
  { pose proof (depth_pos raw). lia. }
  rewrite walk_raw_eq. unfold Schema.seq at 1. pose proof (Hfn path raw s Hs) as H1.
  destruct (fn path raw s) as [s1 [[]| |]]; cbn [fst] in *; try done.
  destruct (field_type raw) as [[ty nl]| |]; try done.
  case_decide.
  { destruct (jlookup "properties" raw) as [[| |ps| |]|] eqn:Ep; try done.
    apply jlookup_depth in Ep.
    assert (Hps : forall k p, (k, p) ∈ ps -> depth p <= n).
    { intros k p Hin. apply member_depth in Hin. lia. }
    clear Ep. revert s1 H1. induction ps as [|[k p] ps IHp]; intros s1 H1; [done|]. cbn [walk_each].
    unfold Schema.seq. pose proof (IH p (prepend_path path k) s1 (Hps k p ltac:(left)) H1) as H2.
    destruct (walk_raw fn p _ s1) as [s2 [[]| |]]; cbn [fst] in *; try done. apply IHp; [|done].
    intros k' p' Hin. eapply Hps. by right. }
  case_decide; [|done].
  destruct (jlookup "items" raw) as [v|] eqn:Ei; [|done]. apply jlookup_depth in Ei. apply IH; [lia|done].
Qed.
Lemma walk_each_inv {S} (fn : string -> tree -> S -> S * res unit) (P : S -> Prop) :
  (forall path v s, P s -> P (fn path v s).1) -> forall path ps s, P s -> P (walk_each fn path ps s).1.
Proof.
  intros Hfn path ps. induction ps as [|[k p] ps IH]; intros s Hs; [done|]. cbn [walk_each]. unfold Schema.seq.
  pose proof (walk_inv fn P Hfn (depth p) p (prepend_path path k) s ltac:(done) Hs) as H2.
  destruct (walk_raw fn p _ s) as [s2 [[]| |]]; cbn [fst] in *; try done. by apply IH.
Qed.
Definition is_obj_at (q : string) (i : itr) : Prop := exists d ts cs, i = IObj q d ts cs.
Lemma insert_obj steps n c n' q : is_obj_at q n -> insert_at steps n c = Ok n' -> is_obj_at q n'.
Proof.
  intros (d & ts & cs & ->). destruct steps as [|x steps]; cbn [insert_at].
  - cbn. case_decide; [|done]. intros [= <-]. by eexists _, _, _.
  - case_decide; [done|]. destruct (get_child x cs); [|done]. unfold rbind. destruct (insert_at steps i c); intros [= <-].
    by eexists _, _, _.
Qed.
Lemma attach_obj n c n' q : is_obj_at q n -> attach n c = Ok n' -> is_obj_at q n'.
Proof.
  intros Hn. unfold attach. destruct (split _ _) as [|s0 rest]; [done|]. case_decide; [done|].
  destruct rest; [done|]. by apply insert_obj.
Qed.
Lemma walker_obj W tid q path v (s : st * itr) : is_obj_at q s.2 -> is_obj_at q (walker W tid path v s).1.2.
Proof.
  intros Hs. unfold walker. destruct (new_node W tid path v s.1) as [s' [c| |]]; cbn; try done.
  destruct (attach s.2 c) as [r'| |] eqn:Ea; cbn; try done. by eapply attach_obj.
Qed.
Lemma mbind_inv {A B} (c : M A) (k : A -> M B) s s' b : Heap.mbind c k s = (s', Ok b) ->
  exists s1 a, c s = (s1, Ok a) /\ k a s1 = (s', Ok b).
Proof. unfold Heap.mbind. destruct (c s) as [s1 [a| |]]; try done. eauto. Qed.
Lemma new_node_path W tid path v s s' c : new_node W tid path v s = (s', Ok c) -> it_path c = path.
Proof.
  unfold new_node. intros H. apply mbind_inv in H as (s1 & [ty nl] & _ & H). cbn [fst] in H.
  assert (Hsc : forall jt s, new_scalar_tr W path tid v jt s = (s', Ok c) -> it_path c = path).
  { clear. intros jt s H. unfold new_scalar_tr in H. apply mbind_inv in H as (s2 & jt' & _ & H). apply mbind_inv in H as (s3 & ts & _ & H).
    apply mbind_inv in H as (s4 & d & _ & H). by injection H as _ <-. }
  case_decide.
  { destruct (jlookup "properties" v) as [[| |[|]| |]|]; try done; try (by eapply Hsc).
    all: unfold new_object_tr in H; apply mbind_inv in H as (s2 & ts & _ & H); apply mbind_inv in H as (s3 & d & _ & H);
      destruct d as [[]| | | |]; try done; by injection H as _ <-. }
  case_decide; [|by eapply Hsc].
  unfold new_array_tr in H; apply mbind_inv in H as (s2 & ts & _ & H); apply mbind_inv in H as (s3 & d & _ & H);
      destruct d as [[]| | | |]; try done; by injection H as _ <-.
Qed.
Lemma both_rejected W tid ps i s : bad (new_transformer W tid (Some ps) (Some i) s).2.
Proof.
  unfold new_transformer, walk_raw_schema. change (default [] (Some ps)) with ps. unfold Schema.seq at 1.
  pose proof (walk_each_inv (walker W tid) (fun x => is_obj_at "$" x.2) (walker_obj W tid "$") "$" ps (s, IObj "$" None None [])
    ltac:(by eexists _, _, _)) as H1.
  destruct (walk_each _ _ _ _) as [[s1 r1] [[]| |]]; [|by left|by right]. cbn [fst snd] in H1.
  rewrite walk_raw_eq. unfold Schema.seq, walker. cbn [fst snd].
  destruct (new_node W tid ("$" +:+ "[*]") i s1) as [s2 [c| |]] eqn:En; [|by left|by right].
  apply new_node_path in En. destruct H1 as (d & ts & cs & ->).
  unfold attach. rewrite En. cbn [insert_at]. change (split (replace_all ("$" +:+ "[*]") "[" ".[") ".") with ["$"; "[*]"].
  cbn iota beta. rewrite decide_False by (by intros X; apply X). cbn [removelast insert_at add_child]. rewrite En.
  change (split ("$" +:+ "[*]") ".") with ["$[*]"]. cbn [removelast]. rewrite decide_False by done. by left.
Qed.
Lemma neither_rejected W tid s : (new_transformer W tid None None s).2 = Err.
Proof. done. Qed.

(** ** one call *)
Definition input_of (E : env) (f : fmt) (raw : string) : option tree :=
  match f with FJson => e_json E raw | FXml => TNode <$> e_xml E raw end.
Definition raw_of (c : call) : string := match c with Validated r => r | Unvalidated r => r end.
Definition check (E : env) (doc : tree) : res tree :=
  rbind (validate E doc) (fun v => if v : bool then Ok doc else Err).
Definition answer (W : oracles) (E : env) (c : call) (t : tree) : res tree :=
  match c with Validated _ => rbind (print W t) (check E) | Unvalidated _ => print W t end.
Definition reading (W : oracles) (E : env) (f : fmt) (p : pitr) (c : call) : option tree :=
  t ← input_of E f (raw_of c); den W f p t [].

Section calls.
Context (W : oracles) (HW : jpath_parametric W) (E : env) (HE : unmarshals E).
Lemma tnv_spec perm f i p raw s : orders perm -> wf_paths p -> pure f p -> stok s -> irel (hp s) (froms s) i p ->
  let r := transform_no_validation W E perm f i raw s in
  step s r.1 /\ outcome W (t ← input_of E f raw; den W f p t []) r.2.
Proof.
  intros Ho Hwf Hp Hs Hi. cbv zeta. destruct f; cbn [transform_no_validation input_of].
  - unfold Api.base_json. destruct (e_json E raw) as [doc|] eqn:Ed.
    + change (Some doc ≫= fun t => den W FJson p t []) with (den W FJson p doc []).
      apply json_transform_den; try done. by eapply HE.
    + split; [|by left]. by split_and!.
  - unfold Api.base_xml. destruct (e_xml E raw) as [n|] eqn:Ed.
    + change ((TNode <$> Some n) ≫= fun t => den W FXml p t []) with (den W FXml p (TNode n) []).
      by apply xml_transform_den.
    + split; [|by left]. by split_and!.
Qed.
Lemma transform_eq perm f i raw s : transform W E perm f i raw s =
  let r := transform_no_validation W E perm f i raw s in (r.1, rbind r.2 (check E)).
Proof.
  cbv zeta. destruct f; cbn [transform transform_no_validation]; unfold json_transform, xml_transform, Heap.mbind, mlift, check.
  - destruct (Api.base_json W E perm i raw s) as [s1 [d| |]]; cbn; try done. by destruct (validate E d) as [[]| |].
  - destruct (Api.base_xml W E perm i raw s) as [s1 [d| |]]; cbn; try done. by destruct (validate E d) as [[]| |].
Qed.
Lemma transform_validated perm f i raw s doc :
  (transform W E perm f i raw s).2 = Ok doc <->
  (transform_no_validation W E perm f i raw s).2 = Ok doc /\ e_valid E doc = Some ([], true).
Proof.
  rewrite transform_eq. cbn zeta. cbn [snd]. destruct (transform_no_validation W E perm f i raw s).2 as [d| |]; cbn [rbind].
  - unfold check, validate. destruct (e_valid E d) as [[[|e es] [|]]|] eqn:Hv; cbn; split; intros H; try done;
      try (destruct H as [[= ->] H]; congruence). injection H as ->. done.
  - split; [done|]. by intros [? _].
  - split; [done|]. by intros [? _].
Qed.
Lemma serve_spec perm f i p c s : orders perm -> wf_paths p -> pure f p -> stok s -> irel (hp s) (froms s) i p ->
  let r := serve W E perm f i c s in
  step s r.1 /\ match reading W E f p c with Some t => r.2 = answer W E c t | None => r.2 = Err \/ r.2 = Panic end.
Proof.
  intros Ho Hwf Hp Hs Hi. cbv zeta. pose proof (tnv_spec perm f i p (raw_of c) s Ho Hwf Hp Hs Hi) as [H1 H2].
  destruct c as [raw|raw]; cbn [serve raw_of] in *; [|done]. rewrite transform_eq. cbv zeta. cbn [fst snd]. split; [done|].
  unfold reading. cbn [raw_of]. destruct (input_of E f raw ≫= _) as [t|]; cbn in H2 |- *; [by rewrite H2|].
  destruct H2 as [-> | ->]; auto.
Qed.
Lemma new_reads tid props items s i : well_named props items -> new_transformer W tid props items st0 = (s, Ok i) ->
  exists p, schema_reads W tid props items p /\ stok s /\ irel (hp s) (froms s) i p.
Proof.
  intros Hw Hn. destruct props as [ps|], items as [it|].
  - pose proof (both_rejected W tid ps it st0) as Hb. rewrite Hn in Hb. by destruct Hb.
  - pose proof (well_named_good _ _ Hw) as Hg.
    destruct (build_total W tid ps st0 Hg stok0 fok0) as [[cs Hcs]|Hb]; [|rewrite Hn in Hb; by destruct Hb].
    destruct (build_ok W tid ps cs st0 Hg Hcs stok0 fok0) as (s' & i' & Hn' & Hst & Hi). rewrite Hn in Hn'. simplify_eq.
    exists (PObj "$" None None cs). split; [by exists cs|]. split; [apply Hst|done].
  - pose proof (well_named_item _ Hw) as Hg.
    destruct (build_items_total W tid it st0 Hg stok0 fok0) as [[cs Hcs]|Hb]; [|rewrite Hn in Hb; by destruct Hb].
    destruct (build_items_ok W tid it cs st0 Hcs stok0 fok0) as (s' & i' & Hn' & Hst & Hi). rewrite Hn in Hn'. simplify_eq.
    exists (PArr "$" None None cs). split; [by exists cs|]. split; [apply Hst|done].
  - pose proof (neither_rejected W tid st0) as Hb. rewrite Hn in Hb. done.
Qed.
Lemma state_reads f tid props items i s : well_named props items -> tame W tid f props items ->
  state W E f tid props items i s ->
  exists p, schema_reads W tid props items p /\ stok s /\ irel (hp s) (froms s) i p.
Proof.
  intros Hw Ht. induction 1 as [s Hn|s perm c Hst IH Ho].
  - by eapply new_reads.
  - destruct IH as (p & Hr & Hs & Hi). exists p. split; [done|].
    destruct (serve_spec perm f i p c s Ho) as [(H1 & H2 & H3 & H4) _]; try done.
    { by eapply schema_wf. } { by eapply schema_pure. }
    split; [done|]. rewrite H4. by eapply irel_mono.
Qed.
End calls.

(** ** a schema has one reading, up to the order of the root's members *)
Lemma reads_fun W tid :
  (forall σ raw p, reads W tid σ raw p -> forall p', reads W tid σ raw p' -> p' = p) /\
  (forall σ ps cs, reads_all W tid σ ps cs -> forall cs', reads_all W tid σ ps cs' -> cs' = cs).
Proof.
  apply reads_mutind.
  - intros σ raw jt nl jt' ts Hft Hna Hobj Hlt Hsec Hdk p' Hp'.
    inversion Hp' as [? ? jt2 nl2 ? ? Hft2 ? Hobj2 Hlt2 Hsec2|? ? nl2 ps2 d2 ? ? Hft2 Hps2 Hne2 Hsec2 Hd2|? ? nl2 i2 d2 ? ? Hft2 Hi2 Hsec2 Hd2]; subst;
      rewrite Hft in Hft2; injection Hft2 as -> ->; [congruence| |done].
    rewrite Hobj in Hps2 by done. congruence.
  - intros σ raw nl ps d ts cs Hft Hps Hne Hsec Hd Hdk Hnd Hpl Hall IH p' Hp'.
    inversion Hp' as [? ? jt2 nl2 ? ? Hft2 ? Hobj2 Hlt2 Hsec2|? ? nl2 ps2 d2 ? cs2 Hft2 Hps2 Hne2 Hsec2 Hd2 ? ? ? Hall2|? ? nl2 i2 d2 ? ? Hft2 Hi2 Hsec2 Hd2]; subst;
      rewrite Hft in Hft2; try done.
    + injection Hft2 as <- <-. rewrite Hobj2 in Hps by done. congruence.
    + rewrite Hps in Hps2. injection Hps2 as <-. rewrite Hsec in Hsec2. injection Hsec2 as <-.
      f_equal; [|by apply IH]. destruct d, d2; congruence.
  - intros σ raw nl i d ts c Hft Hi Hsec Hd Hdk Hc IH p' Hp'.
    inversion Hp' as [? ? jt2 nl2 ? ? Hft2 ? Hobj2 Hlt2 Hsec2|? ? nl2 ps2 d2 ? cs2 Hft2 Hps2 Hne2 Hsec2 Hd2 ? ? ? Hall2|? ? nl2 i2 d2 ? ? Hft2 Hi2 Hsec2 Hd2]; subst;
      rewrite Hft in Hft2; try done.
    + injection Hft2 as <- <-. done.
    + rewrite Hi in Hi2. injection Hi2 as <-. rewrite Hsec in Hsec2. injection Hsec2 as <-.
      f_equal; [|by apply IH]. destruct d, d2; congruence.
  - intros σ cs' H. by inversion H.
  - intros σ k p ps c cs Hp IHp Hps IHps cs' H. inversion H; subst. f_equal; [f_equal; by apply IHp|by apply IHps].
Qed.
Lemma reads_all_Forall2 W tid σ ps cs :
  reads_all W tid σ ps cs <-> Forall2 (fun kp kc => kc.1 = kp.1 /\ reads W tid (σ ++ [Nm kp.1]) kp.2 kc.2) ps cs.
Proof.
  split.
  - induction 1; constructor; done.
  - induction 1 as [|[k p] [k' c] ps cs [H1 H2] HF IH]; cbn in *; subst; by constructor.
Qed.
Lemma reads_all_perm W tid σ ps ps' cs cs' : ps ≡ₚ ps' -> reads_all W tid σ ps cs -> reads_all W tid σ ps' cs' -> cs ≡ₚ cs'.
Proof.
  intros Hp H H'. pose proof H as HF. apply reads_all_Forall2 in HF.
  destruct (Permutation_Forall2 Hp HF) as (cs'' & Hc & HF').
  apply reads_all_Forall2 in HF'. by rewrite (proj2 (reads_fun W tid) _ _ _ H' _ HF') in Hc.
Qed.
Definition order_eq (p p' : pitr) : Prop :=
  p' = p \/ exists q cs cs', p = PObj q None None cs /\ p' = PObj q None None cs' /\ cs ≡ₚ cs'.
Lemma schema_reads_perm W tid props props' items p p' :
  option_Forall2 (≡ₚ) props props' -> schema_reads W tid props items p -> schema_reads W tid props' items p' -> order_eq p p'.
Proof.
  intros Hp. unfold schema_reads. destruct Hp as [ps ps' Hp|]; destruct items as [i|]; try done.
  - intros (cs & -> & H1) (cs' & -> & H2). right. eexists _, _, _. split; [done|]. split; [done|]. by eapply reads_all_perm.
  - intros (c & -> & H1) (c' & -> & H2). left. f_equal. by eapply (proj1 (reads_fun W tid)).
Qed.

Lemma all_of_cons {A} (o : option A) l : all_of (o :: l) =
  match o, all_of l with Some a, Some r => Some (a :: r) | _, _ => None end.
Proof. cbn [all_of]. destruct o; [|done]. by destruct (all_of l). Qed.
Lemma all_of_perm {A} (l l' : list (option A)) : l ≡ₚ l' ->
  match all_of l, all_of l' with Some a, Some b => a ≡ₚ b | None, None => True | _, _ => False end.
Proof.
  induction 1 as [|o l l' H IH|o o' l|l l' l'' H IH H' IH'].
  - constructor.
  - rewrite !all_of_cons. destruct o; [|done]. destruct (all_of l), (all_of l'); try done. by constructor.
  - rewrite !all_of_cons. destruct o, o'; try done; destruct (all_of l); try done. by constructor.
  - destruct (all_of l), (all_of l'), (all_of l''); try done. by etrans.
Qed.
Lemma all_of_keys {B} (g : B -> option tree) (l : list (string * B)) r :
  all_of (List.map (fun kb => pair kb.1 <$> g kb.2) l) = Some r -> r.*1 = l.*1.
Proof.
  revert r. induction l as [|[k b] l IH]; intros r; cbn [List.map]; [by intros [= <-]|].
  rewrite all_of_cons. cbn [fst snd]. destruct (g b) as [t|]; [|done]. cbn [fmap option_fmap option_map].
  destruct (all_of _) as [r'|]; [|done]. intros [= <-]. cbn. f_equal. by apply IH.
Qed.
Lemma max_perm (l l' : list nat) : l ≡ₚ l' -> foldr Nat.max 0 l = foldr Nat.max 0 l'.
Proof. induction 1; cbn; lia. Qed.
Lemma forallb_perm {A} (p : A -> bool) l l' : l ≡ₚ l' -> forallb p l = forallb p l'.
Proof. induction 1 as [|x l l' H IH|x y l|? ? ? ? IH ? IH']; cbn; [done|by rewrite IH|by destruct (p x), (p y)|by rewrite IH]. Qed.
Lemma print_obj_perm W l l' : NoDup l.*1 -> l ≡ₚ l' -> print W (TObj l) = print W (TObj l').
Proof.
  intros Hnd Hp. unfold print. cbn [depth].
  rewrite (max_perm _ _ (Permutation_map (fun kv : string * tree => match kv with (_, t') => depth t' end) Hp)).
  destruct (decide _); [|done]. cbn [tree_ok]. rewrite (forallb_perm _ _ _ Hp). destruct (forallb _ l'); [|done]. f_equal.
  cbn [canon].
  assert (Em : (list_to_map (List.map (fun kv : string * tree => match kv with (k, t') => (k, canon t') end) l) : gmap string tree)
     = list_to_map (List.map (fun kv => match kv with (k, t') => (k, canon t') end) l')); [|by rewrite Em].
  apply list_to_map_proper; [|by apply Permutation_map].
  assert (Ek : (List.map (fun kv : string * tree => match kv with (k, t') => (k, canon t') end) l).*1 = l.*1); [|by rewrite Ek].
  clear. induction l as [|[k t] l IH]; cbn; [done|by f_equal].
Qed.
Lemma print_obj_of_perm W l l' : NoDup l.*1 -> l ≡ₚ l' -> print W (obj_of l) = print W (obj_of l').
Proof.
  intros Hnd Hp. unfold obj_of. set (P := fun kv : string * tree => tnil kv.2 = false).
  assert (Hf : filter P l ≡ₚ filter P l') by (by apply filter_Permutation).
  assert (Hn : NoDup (filter P l).*1).
  { clear -Hnd. induction l as [|[k t] l IH]; [done|]. cbn in Hnd. apply NoDup_cons in Hnd as [H1 H2]. rewrite filter_cons.
    case_decide; [|by apply IH]. cbn. apply NoDup_cons. split; [|by apply IH]. intros Hin. apply H1.
    apply elem_of_list_fmap in Hin as (y & -> & Hy). apply elem_of_list_filter in Hy as [_ Hy]. by apply elem_of_list_fmap_1. }
  destruct (filter P l) as [|x r].
  - apply Permutation_nil_l in Hf. by rewrite <- Hf.
  - destruct (filter P l') as [|x' r']; [by apply Permutation_nil_r in Hf|]. by apply print_obj_perm.
Qed.

Lemma den_order W f p p' t m : wf_paths p -> pure f p -> order_eq p p' ->
  match den W f p t m, den W f p' t m with
  | Some a, Some b => print W a = print W b
  | None, None => True
  | _, _ => False
  end.
Proof.
  intros Hwf Hp [->|(q & cs & cs' & -> & -> & Hc)]; [by destruct (den W f p t m)|].
  cbn [den]. 
  assert (E : forall cs, den_obj W f None (List.map (fun kc => match kc with (k, c) => (k, den W f c) end) cs) t m =
     obj_of <$> all_of (List.map (fun kc : string * pitr => pair kc.1 <$> den W f kc.2 t m) cs)).
  { clear. intros cs. unfold den_obj.
    assert (E2 : List.map (fun kd : string * (tree -> modifier -> option tree) => pair kd.1 <$> kd.2 t m)
       (List.map (fun kc => match kc with (k, c) => (k, den W f c) end) cs) =
       List.map (fun kc : string * pitr => pair kc.1 <$> den W f kc.2 t m) cs).
    { rewrite map_map. apply map_ext. by intros [k c]. }
    destruct f; cbv zeta; by rewrite E2. }
  rewrite !E. pose proof (all_of_perm _ _ (Permutation_map (fun kc : string * pitr => pair kc.1 <$> den W f kc.2 t m) Hc)) as Hall.
  destruct (all_of (List.map _ cs)) as [r|] eqn:Er; destruct (all_of (List.map _ cs')) as [r'|] eqn:Er'; try done.
  cbn. apply print_obj_of_perm; [|done].
  rewrite (all_of_keys (fun c => den W f c t m) cs r Er). apply Hwf.
Qed.

Section det.
Context (W : oracles) (HW : jpath_parametric W) (E : env) (HE : unmarshals E).
Lemma same_results f tid props props' items i i' s s' perm perm' c : 
  well_named props items -> tame W tid f props items -> option_Forall2 (≡ₚ) props props' ->
  well_named props' items -> tame W tid f props' items ->
  state W E f tid props items i s -> state W E f tid props' items i' s' -> orders perm -> orders perm' ->
  same (serve W E perm f i c s).2 (serve W E perm' f i' c s').2.
Proof.
  intros Hw Ht Hp Hw' Ht' Hs Hs' Ho Ho'.
  destruct (state_reads W HW E HE _ _ _ _ _ _ Hw Ht Hs) as (p & Hr & Hst & Hi).
  destruct (state_reads W HW E HE _ _ _ _ _ _ Hw' Ht' Hs') as (p' & Hr' & Hst' & Hi').
  pose proof (schema_wf _ _ _ _ _ Hw Hr) as Hwf. pose proof (schema_pure _ _ _ _ _ _ Ht Hr) as Hpu.
  pose proof (schema_wf _ _ _ _ _ Hw' Hr') as Hwf'. pose proof (schema_pure _ _ _ _ _ _ Ht' Hr') as Hpu'.
  destruct (serve_spec W HW E HE perm f i p c s Ho Hwf Hpu Hst Hi) as [_ H1].
  destruct (serve_spec W HW E HE perm' f i' p' c s' Ho' Hwf' Hpu' Hst' Hi') as [_ H2].
  pose proof (schema_reads_perm _ _ _ _ _ _ _ Hp Hr Hr') as Hoe. unfold reading in *.
  destruct (input_of E f (raw_of c)) as [t|].
  - change (Some t ≫= ?g) with (g t) in *. cbv beta in *. pose proof (den_order W f p p' t [] Hwf Hpu Hoe) as Hd.
    destruct (den W f p t []) as [a|], (den W f p' t []) as [b|]; try done.
    + rewrite H1, H2. assert (Ea : answer W E c a = answer W E c b) by (destruct c; cbn; by rewrite Hd).
      rewrite Ea. by destruct (answer W E c b).
    + destruct H1 as [-> | ->], H2 as [-> | ->]; done.
  - cbn in *. destruct H1 as [-> | ->], H2 as [-> | ->]; done.
Qed.
Lemma well_named_perm ps ps' items : ps ≡ₚ ps' -> well_named (Some ps) items -> well_named (Some ps') items.
Proof.
  intros Hp [H1 H2]. destruct (H1 ps eq_refl) as [Hn Hf]. split.
  - intros ps0 [= <-]. by rewrite <- Hp.
  - intros σ r Hr. apply (H2 σ). inversion Hr; subst.
    + eapply sinst_prop; [|done]. cbn. by rewrite Hp.
    + by eapply sinst_item.
Qed.
Lemma tame_perm f tid ps ps' items : ps ≡ₚ ps' -> tame W tid f (Some ps) items -> tame W tid f (Some ps') items.
Proof.
  intros Hp H2 σ r Hr. apply (H2 σ). inversion Hr; subst.
  - eapply sinst_prop; [|done]. cbn. by rewrite Hp.
  - by eapply sinst_item.
Qed.
End det.

(** ** schemas with plain scalar transforms *)
Lemma shape_inst W tid :
  (forall raw s, shape W tid raw s -> forall σ r, inst raw σ r -> well_named1 r /\ tame1 W tid FJson r) /\
  (forall ps cs, shape_all W tid ps cs -> forall k p σ r, (k, p) ∈ ps -> inst p σ r -> well_named1 r /\ tame1 W tid FJson r).
Proof.
  apply shape_mutind.
  - intros raw jt nl jt' ts Hft Hna Hobj Hlt Hdk Hsec σ r Hr.
    assert (r = raw) as ->.
    { inversion Hr as [|? nl2 ps k p σ' ? Hft2 Hps Hin|? nl2 i σ' ? Hft2]; subst; [done| |]; rewrite Hft in Hft2; injection Hft2 as -> ->; [|done].
      rewrite Hobj in Hps by done. injection Hps as <-. by apply elem_of_nil in Hin. }
    split; [split; [|done]|split; [|split]].
    + intros nl2 ps Hft2 Hps. rewrite Hft in Hft2. injection Hft2 as -> ->. rewrite Hobj in Hps by done. injection Hps as <-. split; constructor.
    + intros t delim from Ht Hd. unfold sec_of in Hsec. destruct ts as [[[me delim2] from2]|]; [|congruence].
      destruct Hsec as (t2 & is & Ht2 & _ & Hd2 & HF & Hl). rewrite Ht in Ht2. injection Ht2 as <-. rewrite Hd in Hd2. injection Hd2 as <- <- ->.
      rewrite fmap_length, (Forall2_length _ _ _ HF). by apply Hl.
    + intros nl2 ps Hft2 Hps Hne. rewrite Hft in Hft2. injection Hft2 as -> ->. rewrite Hobj in Hps by done. congruence.
    + intros nl2 Hft2. rewrite Hft in Hft2. congruence.
  - intros raw nl ps cs Hft Hps Hne [Hd Hs] Hnd Hid Hall IH σ r Hr.
    inversion Hr as [|? nl2 ps2 k p σ' ? Hft2 Hps2 Hin Hr'|? nl2 i σ' ? Hft2]; subst; [| |congruence].
    + assert (Hdn : dflt_of r = TS SNil) by (unfold dflt_of; by rewrite Hd).
      split; [split|split; [|split]].
      * intros nl2 ps2 _ Hps2. rewrite Hps in Hps2. injection Hps2 as <-. split; [done|]. eapply Forall_impl; [exact Hid|]. intros kp. apply ident_plain.
      * by rewrite Hdn.
      * intros t delim from Ht. congruence.
      * by intros.
      * by intros.
    + rewrite Hps in Hps2. injection Hps2 as <-. by eapply IH.
  - intros raw nl i c Hft Hi [Hd Hs] Hc IH σ r Hr.
    inversion Hr as [|? nl2 ps2 k p σ' ? Hft2 Hps2 Hin Hr'|? nl2 i2 σ' ? Hft2 Hi2 Hr']; subst; [|congruence|].
    + assert (Hdn : dflt_of r = TS SNil) by (unfold dflt_of; by rewrite Hd).
      split; [split|split; [|split]].
      * intros nl2 ps2 Hft2. congruence.
      * by rewrite Hdn.
      * intros t delim from Ht. congruence.
      * by intros.
      * by intros.
    + rewrite Hi in Hi2. injection Hi2 as <-. by eapply IH.
  - intros k p σ r Hin. by apply elem_of_nil in Hin.
  - intros k p ps c cs Hp IHp Hps IHps k' p' σ r Hin Hr. apply elem_of_cons in Hin as [[= -> ->]|Hin]; [by eapply IHp|by eapply IHps].
Qed.
(** a whole schema: properties, or items *)
Lemma shaped_ok W tid props items s : shaped W tid props items s -> well_named props items /\ tame W tid FJson props items.
Proof.
  intros Hs. destruct s as [jt d ts|cs|c]; [done| |]; destruct props as [ps|], items as [i|]; try done; cbn in Hs.
  - destruct Hs as (Hnd & Hid & Hall). split; [split|].
    + intros ps' [= <-]. split; [done|]. eapply Forall_impl; [exact Hid|]. intros kp. apply ident_plain.
    + intros σ r Hr. inversion Hr; subst; [|done]. by eapply (proj2 (shape_inst W tid)).
    + intros σ r Hr. inversion Hr; subst; [|done]. by eapply (proj2 (shape_inst W tid)).
  - split; [split|].
    + done.
    + intros σ r Hr. inversion Hr as [? ? ? ? Hin|? ? ? Hi]; subst; [by apply elem_of_nil in Hin|]. injection Hi as <-. by eapply (proj1 (shape_inst W tid)).
    + intros σ r Hr. inversion Hr as [? ? ? ? Hin|? ? ? Hi]; subst; [by apply elem_of_nil in Hin|]. injection Hi as <-. by eapply (proj1 (shape_inst W tid)).
Qed.
Lemma shaped_prel W tid props items s : shaped W tid props items s ->
  exists p, schema_reads W tid props items p /\ prel [] [] s p.
Proof.
  intros Hs. destruct s as [jt d ts|cs|c]; [done| |]; destruct props as [ps|], items as [i|]; try done; cbn in Hs.
  - destruct Hs as (Hnd & Hid & Hall). destruct (proj2 (shape_reads W tid) ps cs Hall [] ltac:(constructor) Hid) as (cs' & H1 & H2).
    exists (PObj (path_of []) None None cs'). split; [by exists cs'|]. constructor; [done|].
    assert (E : cs.*1 = ps.*1); [|by rewrite E]. clear -Hall. induction Hall; cbn; [done|by f_equal].
  - destruct (proj1 (shape_reads W tid) i c Hs [Star] [Star]) as (c' & H1 & H2).
    { split; [constructor; [exact I|constructor]|]. right. by exists []. }
    exists (PArr (path_of []) None None c'). split; [by exists c'|]. by constructor.
Qed.
Lemma shaped_reads W tid props items s p : shaped W tid props items s -> schema_reads W tid props items p ->
  exists p', prel [] [] s p' /\ p' = p.
Proof.
  intros Hs Hr. destruct (shaped_prel _ _ _ _ _ Hs) as (p' & Hr' & Hp). exists p'. split; [done|].
  unfold schema_reads in *. destruct props as [ps|], items as [i|]; try done.
  - destruct Hr as (cs & -> & Hr), Hr' as (cs' & -> & Hr'). f_equal. by eapply (proj2 (reads_fun W tid)).
  - destruct Hr as (cs & -> & Hr), Hr' as (cs' & -> & Hr'). f_equal. by eapply (proj1 (reads_fun W tid)).
Qed.
Section shaped.
Context (W : oracles) (HW : jpath_parametric W) (E : env) (HE : unmarshals E).
Lemma shaped_transform tid props items sc i s perm raw doc :
  shaped W tid props items sc -> state W E FJson tid props items i s -> orders perm ->
  e_json E raw = Some doc -> small doc ->
  outcome W (project W doc sc (Some doc) (Some doc)) (transform_no_validation W E perm FJson i raw s).2.
Proof.
  intros Hsh Hs Ho Hj Hsm. destruct (shaped_ok _ _ _ _ _ Hsh) as [Hw Ht].
  destruct (state_reads W HW E HE _ _ _ _ _ _ Hw Ht Hs) as (p & Hr & Hst & Hi).
  destruct (tnv_spec W HW E HE perm FJson i p raw s Ho) as [_ H]; try done.
  { by eapply schema_wf. } { by eapply schema_pure. }
  cbn [input_of] in H. rewrite Hj in H. change (Some doc ≫= ?g) with (g doc) in H. cbv beta in H.
  destruct (shaped_reads _ _ _ _ _ _ Hsh Hr) as (p' & Hp & ->).
  rewrite (proj1 (den_project W) [] [] sc p Hp [] [] [] doc) in H; try done; constructor.
Qed.
Lemma shaped_pick tid props items sc i s perm raw doc : (depth doc <= o_stack W)%nat ->
  shaped W tid props items sc -> untransformed sc -> state W E FJson tid props items i s -> orders perm ->
  e_json E raw = Some doc -> small doc -> tree_ok doc = true -> fits sc doc ->
  (transform_no_validation W E perm FJson i raw s).2 = Ok (canon (pick sc doc)).
Proof.
  intros Hd Hsh Hu Hs Ho Hj Hsm Hok Hf. pose proof (shaped_transform _ _ _ _ _ _ _ _ _ Hsh Hs Ho Hj Hsm) as H.
  rewrite (project_pick W) in H; [|pose proof (depth_pos doc); lia|done|by intros t [= <-]].
  unfold outcome in H. rewrite H. unfold print. pose proof (pick_depth sc doc). rewrite decide_True by lia. by rewrite pick_ok.
Qed.
End shaped.

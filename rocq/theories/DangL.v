(** A reference to nothing is never passed over. *)
From stdpp Require Import strings list gmap.
From Coq Require Import Ascii ZArith.
From Verif Require Import GoStr GoStrL Val Schema Inst Load SpecLoad SpecRef SpecDang FlatL RefL DerefL TermL.
From Verif Require Den HeapL.

Lemma located_pget t τ v : pget τ t = Some v <-> located t τ v.
Proof.
  split.
  - revert t. induction τ as [|k τ IH]; intros t H; [cbn in H; injection H as ->; constructor|]. cbn in H. destruct t as [s|l|kvs|n|l]; try done.
    + destruct (item_at k 0 l) as [[i x]|] eqn:E; [|done]. cbn in H. apply item_at_inv in E as (n & -> & Hn & ->). cbn. eapply located_item; [done|]. by apply IH.
    + destruct (assoc k kvs) as [x|] eqn:E; [|done]. cbn in H. eapply located_member; [done|]. by apply IH.
  - induction 1 as [v|kvs k x τ v Hk H IH|l i x τ v Hi H IH]; [done| |]; cbn.
    + by rewrite Hk.
    + pose proof (item_at_key i 0 _ l Hi) as E. cbn in E. by rewrite E.
Qed.
Lemma no_object_pget t τ : no_object t τ <-> forall o, pget τ t <> Some (TObj o).
Proof. unfold no_object. split; intros H o Ho; apply (H o); by apply located_pget. Qed.

(** what happens to a document during a pass *)
Definition good (d : tree) : Prop := exists o, d = TObj o /\ NoDup o.*1.
Lemma good_pset dest v d d' o : good d -> dest <> [] -> pget dest d = Some (TObj o) -> pset dest v d = Some d' -> good d'.
Proof.
  intros (o0 & -> & Hnd) Hne Hg Hs. destruct dest as [|k dest]; [done|]. cbn in *. destruct (assoc k o0) as [w|] eqn:E; [|done]. cbn in *.
  destruct (pset dest v w) as [w'|]; [|done]. cbn in Hs. injection Hs as <-. eexists. split; [done|]. by apply set_assoc_nodup.
Qed.
Lemma step_cases F lf path dest d d' : good d -> expand_ref F lf path (dest ++ ["$ref"]) d = Some (Ok d') ->
  exists r o x, pget dest d = Some (TObj o) /\ assoc "$ref" o = Some (TS (SStr r)) /\ resolve F lf r d path = Some (Ok x) /\ good d' /\
    (dest = [] /\ d = TObj o /\ d' = TObj (del_assoc "$ref" o) \/ dest <> [] /\ exists T, pset dest (TObj (overlay (del_assoc "$ref" o) T)) d = Some d').
Proof.
  intros Hgd H. assert (Hp : exists r, pget (dest ++ ["$ref"]) d = Some (TS (SStr r))).
  { unfold expand_ref in H. destruct (pget (dest ++ ["$ref"]) d) as [[[]|l|o|n|l]|]; try done. by eexists. }
  destruct Hp as [r Hp]. destruct (pget_ref _ _ _ Hp) as (o & Hg & Ho). rewrite (expand_ref_eq F lf path dest d r o Hg Ho) in H.
  destruct (resolve F lf r d path) as [[x| |]|] eqn:E; try done. exists r, o, x. split; [done|]. split; [done|]. split; [done|].
  case_decide as Hd.
  - subst dest. injection H as <-. destruct Hgd as (o1 & -> & Hnd). cbn in Hg. injection Hg as ->. split; [|by left].
    eexists. split; [done|]. by apply del_assoc_nodup.
  - apply resolve_obj in E as (src & T & _ & _ & ->). destruct (pset dest _ d) as [d2|] eqn:E2; [|done]. injection H as <-.
    split; [by eapply good_pset|]. right. split; [done|]. by eexists.
Qed.
(** the other references stay *)
Definition intact (d : tree) (p : list string) (r : string) : Prop :=
  exists o, pget p d = Some (TObj o) /\ NoDup o.*1 /\ assoc "$ref" o = Some (TS (SStr r)).
Lemma intact_set p q v d d' o r : pget p d = Some (TObj o) -> pset p (TObj v) d = Some d' -> ~ (exists σ, q = p ++ σ) -> intact d q r -> intact d' q r.
Proof.
  intros Hg Hs Hn (o2 & Ho2 & Hnd & Hr). destruct (apart_or p q) as [Hx|[(σ & -> & Hσ)|Hx]]; [done| |].
  - destruct σ as [|k σ]; [done|]. rewrite pget_app, Ho2 in Hg. cbn in Hg. destruct (assoc k o2) as [w|] eqn:Ek; [|done]. cbn in Hg.
    rewrite (pset_app q (k :: σ)) in Hs by eauto. rewrite Ho2 in Hs. cbn [pset] in Hs. rewrite Ek in Hs.
    destruct (pset σ (TObj v) w) as [w'|] eqn:Ew; [|done]. cbn in Hs. pose proof (pset_get q _ d d' [] ltac:(by eauto) Hs) as Hy. rewrite app_nil_r in Hy. cbn in Hy.
    eexists. split; [exact Hy|]. split; [by apply set_assoc_nodup|]. rewrite set_assoc_other; [done|]. intros <-. rewrite Hr in Ek. injection Ek as <-. by destruct σ.
  - exists o2. split; [|done]. rewrite <- Ho2. eapply pset_apart; by eauto.
Qed.
Lemma intact_step F lf path p q d d' r : good d -> expand_ref F lf path (p ++ ["$ref"]) d = Some (Ok d') -> p <> q ->
  (exists r', intact d p r') -> intact d q r -> intact d' q r.
Proof.
  intros Hg E N (r' & o' & Ho' & Hnd' & _) Hq. pose proof (step_cases _ _ _ _ _ _ Hg E) as (r2 & o & x & Hgo & Ho & Hx & Hg1 & Hc).
  rewrite Ho' in Hgo. injection Hgo as ->. destruct Hq as (o2 & Ho2 & Hnd & Hr).
  destruct Hc as [(-> & -> & ->)|(Hne & T & Hv)].
  - exists o2. split; [|done]. destruct q as [|k q]; [done|]. cbn in *. destruct (decide (k = "$ref")) as [->|Nk].
    + rewrite Ho in Ho2. by destruct q.
    + by rewrite del_assoc_other.
  - destruct (apart_or p q) as [(σ & ->)|[(σ & -> & Hσ)|Hx2]].
    + destruct σ as [|k σ]; [by rewrite app_nil_r in N|]. exists o2. split; [|done]. rewrite (pset_get p _ d d' (k :: σ) ltac:(by eauto) Hv).
      rewrite pget_app, Ho' in Ho2. cbn in Ho2 |- *. rewrite overlay_assoc by (by apply del_assoc_nodup).
      destruct (decide (k = "$ref")) as [->|Nk]; [rewrite Ho in Ho2; by destruct σ|]. rewrite del_assoc_other by done.
      destruct (assoc k o) as [w|]; [|done]. cbn in Ho2 |- *. destruct w as [[]|l|kvs|n|l]; try done. by destruct σ.
    + eapply intact_set; [exact Ho'|exact Hv| |by exists o2]. intros [σ2 E2]. rewrite <- app_assoc in E2. rewrite <- (app_nil_r q) in E2 at 1.
      apply app_inv_head in E2. symmetry in E2. by apply app_eq_nil in E2 as [-> _].
    + eapply intact_set; [exact Ho'|exact Hv| |by exists o2]. intros [σ2 E2]. by eapply apart_not_prefix.
Qed.
(** and no object appears there *)
Lemma pset_nothing dest v d d' o p : pget dest d = Some (TObj o) -> pset dest (TObj v) d = Some d' -> ~ (exists ρ, p = dest ++ ρ) ->
  no_object d p -> no_object d' p.
Proof.
  intros Hg Hs Hn Hp. destruct (apart_or dest p) as [Hx|[(ρ & E & Hρ)|Hx]]; [done| |].
  - subst dest. apply no_object_pget. intros o' Ho'. pose proof (proj1 (no_object_pget _ _) Hp) as Hp'. rewrite pget_app in Hg.
    destruct (pget p d) as [x|] eqn:Ex; [|done]. cbn in Hg. rewrite (pset_app p ρ) in Hs by eauto. rewrite Ex in Hs.
    destruct (pset ρ (TObj v) x) as [y|] eqn:Ey; [|done]. pose proof (pset_get p y d d' [] ltac:(by eauto) Hs) as Hy. rewrite app_nil_r in Hy. cbn in Hy.
    rewrite Hy in Ho'. injection Ho' as ->. destruct ρ as [|k ρ]; [done|]. cbn in Hg, Ey. destruct x as [s|l|kvs|n|l]; try done.
    + destruct (item_at k 0 l) as [[i z]|]; [|done]. cbn in Ey. by destruct (pset ρ (TObj v) z).
    + by apply (Hp' kvs).
  - apply no_object_pget. intros o' Ho'. apply (proj1 (no_object_pget _ _) Hp o'). rewrite <- Ho'. symmetry. eapply pset_apart; by eauto.
Qed.
Lemma del_nothing o p : NoDup o.*1 -> p <> [] -> no_object (TObj o) p -> no_object (TObj (del_assoc "$ref" o)) p.
Proof.
  intros Hnd Hne H. apply no_object_pget. intros o' Ho'. apply (proj1 (no_object_pget _ _) H o'). destruct p as [|k p]; [done|]. cbn in *.
  destruct (decide (k = "$ref")) as [->|N]; [by rewrite del_assoc_same in Ho'|]. by rewrite del_assoc_other in Ho'.
Qed.

(** A pass does not succeed if one of its references stays unresolvable while the others are replaced *)
Lemma pass_fails F lf path π r (Q : list string -> Prop) (I : tree -> Prop) :
  (forall d d' ρ, I d -> good d -> Q ρ -> expand_ref F lf path (ρ ++ ["$ref"]) d = Some (Ok d') -> I d') ->
  (forall d x, I d -> resolve F lf r d path <> Some (Ok x)) ->
  forall rs d d', NoDup rs -> Forall (fun p => exists ρ, p = ρ ++ ["$ref"] /\ Q ρ /\ exists r', intact d ρ r') rs -> π ++ ["$ref"] ∈ rs -> good d -> I d ->
    intact d π r -> expand_all F lf path rs d <> Some (Ok d').
Proof.
  intros HI Hr rs. induction rs as [|p rs IH]; intros d d' Hnd HF Hin Hg Hd Hs; [by apply elem_of_nil in Hin|].
  apply Forall_cons in HF as [(ρ & -> & HQ & Hρ) HF]. cbn [expand_all]. destruct (expand_ref F lf path (ρ ++ ["$ref"]) d) as [[d1| |]|] eqn:E; try done.
  apply NoDup_cons in Hnd as [Hnin Hnd].
  pose proof (step_cases _ _ _ _ _ _ Hg E) as (r' & o & x & Hgo & Ho & Hx & Hg1 & _).
  destruct (decide (ρ = π)) as [->|N].
  { exfalso. destruct Hs as (o2 & Ho2 & _ & Ha). rewrite Hgo in Ho2. injection Ho2 as <-. rewrite Ho in Ha. injection Ha as ->. by eapply Hr. }
  apply elem_of_cons in Hin as [Hin|Hin]; [exfalso; by apply app_inj_tail in Hin as [-> _]|].
  apply IH; [done| |done|done|by eapply HI|].
  - apply Forall_forall. intros p Hp. rewrite Forall_forall in HF. destruct (HF p Hp) as (ρ2 & -> & HQ2 & r2 & Hρ2). exists ρ2. split; [done|]. split; [done|].
    exists r2. eapply intact_step; [exact Hg|exact E| |exact Hρ|exact Hρ2]. intros ->. done.
  - eapply intact_step; [exact Hg|exact E|done|exact Hρ|exact Hs].
Qed.
Lemma ref_intact data ρ r : distinct data -> ref_at data ρ r -> intact data ρ r.
Proof.
  intros Hd (o & Ho & Ha). exists o. split; [by apply reach_pget|]. split; [|done]. pose proof (reach_distinct _ _ _ Hd Ho) as H. by apply distinct_obj in H as [H _].
Qed.
Lemma deref_fails F lf path data π r (I : tree -> Prop) n d' : distinct data -> ref_at data π r ->
  I data ->
  (forall d d' ρ, I d -> good d -> (exists r', ref_at data ρ r') -> expand_ref F lf path (ρ ++ ["$ref"]) d = Some (Ok d') -> I d') ->
  (forall d x, I d -> resolve F lf r d path <> Some (Ok x)) ->
  dereference F lf path n data <> Some (Ok d').
Proof.
  intros Hd Hr HI Hstep Hres. destruct n as [|n]; [done|]. cbn [dereference]. destruct data as [s|l|kvs|m|l]; try done.
  destruct (expand_all F lf path (find_refs (TObj kvs)) (TObj kvs)) as [[d1| |]|] eqn:E; try done. exfalso. revert E.
  apply (pass_fails F lf path π r (fun ρ => exists r', ref_at (TObj kvs) ρ r') I Hstep Hres).
  - by apply find_refs_nodup.
  - apply Forall_forall. intros p Hp. apply find_refs_sound in Hp as (ρ & r' & -> & Hρ); [|done]. exists ρ. split; [done|]. split; [by exists r'|].
    exists r'. by apply ref_intact.
  - by eapply find_refs_complete.
  - exists kvs. split; [done|]. by apply distinct_obj in Hd as [Hd _].
  - done.
  - by apply ref_intact.
Qed.

(** how references to files and URLs are read *)
Lemma names_parts r u τ : names r u τ -> (cut_hash r).1 = u /\ frag_path r = τ.
Proof.
  intros (Hne & Hf & [->|Hτ] & ->).
  - cbn [file_ref]. unfold frag_path. by rewrite cut_hash_none.
  - assert (E : file_ref u τ = u +:+ local_ref τ) by (destruct Hτ as [Hne' _]; by destruct τ). rewrite E. destruct (frag_local u τ Hf Hτ) as [H1 H2]. by rewrite H1.
Qed.
Lemma resolve_nothing F lf r d path src : source_of F lf r d path = Some (Ok src) -> no_object src (frag_path r) -> forall x, resolve F lf r d path <> Some (Ok x).
Proof.
  intros Hs Hn x Hx. apply resolve_obj in Hx as (src' & T & Hs' & HT & _). rewrite Hs in Hs'. injection Hs' as <-. by apply (proj1 (no_object_pget _ _) Hn T).
Qed.

Scheme broken_mind := Minimality for broken Sort Prop
with dangling_mind := Minimality for dangling Sort Prop.
Lemma broken_fails F ty fl path : broken F ty fl path -> forall n i, load_schema F ty fl n path <> Some (Ok i).
Proof.
  apply (broken_mind F ty fl (fun path => forall n i, load_schema F ty fl n path <> Some (Ok i))
    (fun path doc r => forall n, exists I : tree -> Prop, I doc /\
       (forall d d' ρ, I d -> good d -> (exists r', ref_at doc ρ r') -> expand_ref F (load_schema F ty fl n) path (ρ ++ ["$ref"]) d = Some (Ok d') -> I d') /\
       (forall d x, I d -> resolve F (load_schema F ty fl n) r d path <> Some (Ok x)))).
  - intros p H n i. destruct n as [|n]; [done|]. cbn [load_schema]. by rewrite H.
  - intros p H n i. destruct n as [|n]; [done|]. cbn [load_schema]. destruct (f_file F p); [|done]. by rewrite H.
  - intros p doc π r Hf Hd Hr _ IH n i. destruct n as [|n]; [done|]. cbn [load_schema]. rewrite Hf. destruct (negb _); [done|].
    destruct (IH n) as (I & HI & Hs & Hx).
    destruct (dereference F (load_schema F ty fl n) p (S n) doc) as [[d| |]|] eqn:E; try done. exfalso. revert E. by eapply deref_fails.
  - intros p doc r τ Hown Hno Hnb n. exists (fun d => no_object d τ). split; [done|]. split.
    + intros d d' ρ Hd Hg [r' Hρ] E. pose proof (step_cases _ _ _ _ _ _ Hg E) as (r2 & o & x & Hgo & Ho & Hx & Hg1 & Hc).
      destruct Hc as [(-> & -> & ->)|(Hne & T & Hv)].
      * apply del_nothing; [|by eapply own_path_ne|done]. destruct Hg as (o1 & [= ->] & Hnd). done.
      * eapply pset_nothing; [exact Hgo|exact Hv| |done]. intros [σ Eσ]. destruct (decide (σ = [])) as [->|Nσ].
        -- rewrite app_nil_r in Eσ. subst τ. by apply (proj1 (no_object_pget _ _) Hd o).
        -- by eapply (Hnb ρ σ r').
    + intros d x Hd. destruct (own_resolves F (load_schema F ty fl n) p r τ d Hown) as [H1 H2]. eapply resolve_nothing; [exact H1|]. by rewrite H2.
  - intros p doc r u τ Hn Hh Hno n. exists (fun _ => True). split; [done|]. split; [done|]. intros d x _. destruct (names_parts _ _ _ Hn) as [H1 H2].
    intros (src & T & Hs & HT & _)%resolve_obj. unfold source_of in Hs. rewrite H1 in Hs. rewrite decide_False, Hh in Hs by apply Hn.
    destruct (f_http F u) as [doc'|] eqn:E; [|done]. injection Hs as <-. rewrite H2 in HT. by apply (proj1 (no_object_pget _ _) (Hno _ eq_refl) T).
  - intros p doc r f τ Hn Hh Hrel _ IH n. exists (fun _ => True). split; [done|]. split; [done|]. intros d x _. destruct (names_parts _ _ _ Hn) as [H1 H2].
    intros (src & T & Hs & HT & _)%resolve_obj. unfold source_of in Hs. rewrite H1 in Hs. rewrite decide_False, Hh in Hs by apply Hn.
    rewrite decide_False in Hs by congruence. destruct (load_schema F ty fl n (f_rel F p f)) as [[i| |]|] eqn:E; try done. by apply IH in E.
  - intros p doc r f τ Hn Hh Hrel Hno n. exists (fun _ => True). split; [done|]. split; [done|]. intros d x _. destruct (names_parts _ _ _ Hn) as [H1 H2].
    intros (src & T & Hs & HT & _)%resolve_obj. unfold source_of in Hs. rewrite H1 in Hs. rewrite decide_False, Hh in Hs by apply Hn.
    rewrite decide_False in Hs by congruence. destruct (load_schema F ty fl n (f_rel F p f)) as [[i| |]|] eqn:E; try done. injection Hs as <-.
    rewrite H2 in HT. by apply (proj1 (no_object_pget _ _) (Hno _ _ E) T).
Qed.

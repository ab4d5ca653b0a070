From stdpp Require Import strings list gmap.
From Coq Require Import Ascii ZArith.
From Verif Require Import GoStr GoStrL Val Schema Inst Load SpecLoad SpecRef SpecExp FlatL RefL DerefL TermL SpecSelf.
From Verif Require Den.

Lemma reach_dest dest v data data' old : reach data dest old -> pset dest (TObj v) data = Some data' -> reach data' dest v.
Proof.
  intros Hr. revert data'. induction Hr as [o0|kvs k o0 dest old Hk H IH|kvs k l i o0 dest old Hk Hi H IH]; intros data' Hs.
  - cbn in Hs. injection Hs as <-. constructor.
  - cbn in Hs. rewrite Hk in Hs. destruct (pset dest _ (TObj o0)) as [t1|] eqn:E1; [|done]. cbn in Hs. injection Hs as <-.
    destruct (pset_obj _ _ _ _ E1) as [o1 ->]. eapply reach_member; [apply set_assoc_same|]. by apply IH.
  - cbn in Hs. rewrite Hk in Hs. cbn in Hs. pose proof (item_at_key i 0 _ l Hi) as Ei. cbn in Ei. rewrite Ei in Hs. cbn in Hs.
    destruct (pset dest _ (TObj o0)) as [t1|] eqn:E1; [|done]. cbn in Hs. injection Hs as <-.
    destruct (pset_obj _ _ _ _ E1) as [o1 ->]. eapply reach_item; [apply set_assoc_same| |by apply IH]. apply list_lookup_insert. by eapply lookup_lt_Some.
Qed.
Lemma pget_snoc p k t o : pget p t = Some (TObj o) -> pget (p ++ [k]) t = assoc k o.
Proof. intros H. rewrite pget_app, H. cbn. by destruct (assoc k o). Qed.

Section step.
Context (data data' : tree) (dest : list string) (o T : list (string * tree)) (r0 : string).
Context (Hd : distinct data) (Hr : reach data dest o) (Ho : assoc "$ref" o = Some (TS (SStr r0))) (He : expanded dest o T data data').
Lemma step_object π x r : reach data π x -> assoc "$ref" x = Some (TS (SStr r)) -> π <> dest ->
  exists x', reach data' π x' /\ assoc "$ref" x' = Some (TS (SStr r)) /\ forall k, assoc k x = None -> assoc k x' = None.
Proof.
  intros Hx Hxr Hne. destruct (step_keep data data' dest o T r0 Hd Hr Ho He π r) as (x' & Hx' & Hxr'); [by exists x|done|].
  exists x'. split; [done|]. split; [done|]. intros k Hk. pose proof (reach_pget _ _ _ Hx) as Hg. pose proof (reach_pget _ _ _ Hx') as Hg'.
  pose proof (reach_nodup _ _ _ Hd Hr) as onodup.
  destruct He as [[-> ->]|[Hne' Hs]].
  - destruct π as [|c π]; [done|]. apply reach_nil in Hr as ->. cbn in Hg, Hg'.
    assert (c <> "$ref") as Hc by (intros ->; rewrite Ho in Hg; cbn in Hg; by destruct π).
    rewrite del_assoc_other in Hg' by done. rewrite Hg in Hg'. by injection Hg' as <-.
  - destruct (extends_dec π dest) as [[ρ ->]|Hext].
    + destruct ρ as [|c ρ]; [by rewrite app_nil_r in Hne|].
      rewrite (pset_get dest _ data data' (c :: ρ)) in Hg' by eauto using reach_pget. cbn in Hg'.
      rewrite pget_app, (reach_pget _ _ _ Hr) in Hg. cbn in Hg.
      rewrite overlay_assoc in Hg' by (by apply del_assoc_nodup).
      assert (c <> "$ref") as Hc by (intros ->; rewrite Ho in Hg; cbn in Hg; by destruct ρ).
      rewrite del_assoc_other in Hg' by done. destruct (assoc c o) as [v|]; [|done]. cbn in Hg, Hg'.
      assert (remarshal v = v) as Hrm.
      { destruct v as [s|l|kvs|n|l]; [by destruct ρ|..]; try (by apply remarshal_arr); try (by apply remarshal_obj); by destruct ρ. }
      rewrite Hrm, Hg in Hg'. by injection Hg' as <-.
    + rewrite <- (pget_snoc π k data' x' Hg'). pose proof (pget_snoc π k data x Hg) as Hn. rewrite Hk in Hn.
      rewrite (pset_apart dest _ data data' (π ++ [k]) Hs); [done|by eauto using reach_pget|].
      destruct (apart_or dest (π ++ [k])) as [[y Ey]|[(y & Ey & _)|H]]; [| |done]; exfalso.
      * destruct y as [|z y _] using rev_ind.
        -- rewrite app_nil_r in Ey. rewrite Ey in Hn. by rewrite (reach_pget _ _ _ Hr) in Hn.
        -- rewrite app_assoc in Ey. apply app_inj_tail in Ey as [-> _]. apply Hext. by exists y.
      * pose proof (reach_pget _ _ _ Hr) as Hq. rewrite Ey, pget_app, Hn in Hq. done.
Qed.
End step.

Section self.
Context (F : files) (lf : string -> option (res instance)) (path : string) (Hsrc : sound_sources F lf).
Lemma resolve_distinct r data T : distinct data -> resolve F lf r data path = Some (Ok T) -> exists kvs, T = TObj kvs /\ distinct (TObj kvs).
Proof.
  intros Hd H. rewrite resolve_eq in H. destruct (source_of F lf r data path) as [[src| |]|] eqn:Hs; try done.
  assert (distinct src) as Hds.
  { unfold source_of in Hs. destruct Hsrc as [H1 H2]. repeat case_decide; simplify_eq; try done.
    - destruct (has_prefix "http" _); [destruct (f_http F _) as [t|] eqn:E; [|done]; simplify_eq; by eapply H2|by simplify_eq].
    - destruct (has_prefix "http" _); [destruct (f_http F _) as [t|] eqn:E; [|done]; simplify_eq; by eapply H2|].
      destruct (lf _) as [[i| |]|] eqn:E; try done. simplify_eq. by eapply H1. }
  destruct (pget (frag_path r) src) as [[s|l|kvs|n|l]|] eqn:E; try done. injection H as <-. eexists. split; [done|].
  apply set_assoc_distinct; [done|]. by eapply pget_distinct.
Qed.
Lemma expand_expanded dest r0 data data' : distinct data -> ref_at data dest r0 -> expand_ref F lf path (dest ++ ["$ref"]) data = Some (Ok data') ->
  exists o T, reach data dest o /\ assoc "$ref" o = Some (TS (SStr r0)) /\ resolve F lf r0 data path = Some (Ok (TObj T)) /\ distinct (TObj T) /\ expanded dest o T data data'.
Proof.
  intros Hd (o & Hr & Ho) He. rewrite (expand_ref_eq F lf path dest data r0 o (reach_pget _ _ _ Hr) Ho) in He.
  destruct (resolve F lf r0 data path) as [[x| |]|] eqn:E; try done. destruct (resolve_distinct _ _ _ Hd E) as (T & -> & HT).
  exists o, T. split; [done|]. split; [done|]. split; [done|]. split; [done|]. destruct (decide (dest = [])) as [->|N].
  - injection He as <-. by left.
  - destruct (pset dest _ data) as [d|] eqn:Hs; [|done]. injection He as <-. by right.
Qed.

Context (S : string -> list string -> Prop) (N : string -> Prop) (HN : ~ N "fromRef") (HS : forall r τ, S r τ -> own_ref F path r τ).
Definition leads (data : tree) (τ : list string) : Prop := exists ρ r' τ' o, S r' τ' /\ reach data (τ ++ ρ) o /\ assoc "$ref" o = Some (TS (SStr r')) /\
  match ρ with [] => True | k :: _ => N k end /\ (forall k, N k -> assoc k o = None).
Definition lead (data : tree) : Prop := forall r τ, S r τ -> leads data τ.
Lemma own_nonempty r τ : S r τ -> τ <> [].
Proof. intros H. by apply (own_path_ne F path r τ), HS. Qed.
Lemma lead_step data data' dest o T r0 : distinct data -> reach data dest o -> assoc "$ref" o = Some (TS (SStr r0)) ->
  resolve F lf r0 data path = Some (Ok (TObj T)) -> expanded dest o T data data' -> lead data -> lead data'.
Proof.
  intros Hd Hr Ho HT He HL r τ Hτ. destruct (HL _ _ Hτ) as (ρ & r' & τ' & x & HS' & Hx & Hxr & Hρ & Hxk).
  destruct (decide (dest = τ ++ ρ)) as [->|Hne].
  2: { destruct (step_object data data' dest o T r0 Hd Hr Ho He _ _ _ Hx Hxr ltac:(congruence)) as (x' & H1 & H2 & H3).
       exists ρ, r', τ', x'. split_and!; auto. }
  pose proof (reach_pget _ _ _ Hr) as G1. rewrite (reach_pget _ _ _ Hx) in G1. injection G1 as ->. assert (r0 = r') as -> by congruence.
  destruct He as [[E _]|[_ Hs]]; [apply app_eq_nil in E as [E _]; by destruct (own_nonempty _ _ Hτ)|].
  rewrite resolve_eq in HT. destruct (own_resolves F lf path r' τ' data (HS _ _ HS')) as [Hso Hfp]. rewrite Hso, Hfp in HT. clear Hso Hfp.
  destruct (pget τ' data) as [[s|l|oτ|n|l]|] eqn:Hg; try done. injection HT as <-.
  assert (NoDup (del_assoc "$ref" o).*1) as Hnd by (eapply del_assoc_nodup, reach_nodup; done).
  destruct (HL _ _ HS') as (ρ' & r2 & τ2 & y & HS2 & Hy & Hyr & Hρ' & Hyk). pose proof (reach_below _ _ _ _ _ Hy Hg) as Hb.
  pose proof (reach_dest _ _ _ _ _ Hr Hs) as Hnew.
  assert (forall k, N k -> assoc k (overlay (del_assoc "$ref" o) (set_assoc "fromRef" (TS (SStr r')) oτ)) = assoc k oτ) as Ek.
  { intros k Hk. rewrite overlay_assoc by done. pose proof (Hxk k Hk) as Hko. assert (k <> "$ref") as Nr by (intros ->; congruence).
    rewrite del_assoc_other by done. rewrite Hko. apply set_assoc_other. intros ->. by apply HN. }
  destruct ρ' as [|k' μ'].
  - apply reach_nil in Hb. injection Hb as ->. eexists ρ, r2, τ2, _. split; [done|]. split; [exact Hnew|]. split; [|split; [done|]].
    + rewrite overlay_assoc by done. rewrite del_assoc_same by (by eapply reach_nodup). by rewrite set_assoc_other.
    + intros k Hk. rewrite Ek by done. by apply Hyk.
  - exists (ρ ++ k' :: μ'), r2, τ2, y. split; [done|]. split; [|split; [done|split; [|done]]].
    + rewrite (app_assoc τ ρ). eapply reach_app; [exact Hnew|].
      inversion Hb as [|? ? o1 ? ? Hka|? ? l i o1 ? ? Hka Hi]; subst; [eapply reach_member|eapply reach_item]; try done; by rewrite Ek.
    + by destruct ρ.
Qed.
Lemma lead_pass refs : forall data d, distinct data -> NoDup refs -> (forall p, p ∈ refs -> exists π r', p = π ++ ["$ref"] /\ ref_at data π r') ->
  expand_all F lf path refs data = Some (Ok d) -> lead data -> distinct d /\ lead d.
Proof.
  induction refs as [|p refs IH]; intros data d Hd Hnd Hin He HL; [cbn in He; injection He as <-; eauto|].
  apply NoDup_cons in Hnd as [Hp Hnd]. cbn [expand_all] in He. destruct (expand_ref F lf path p data) as [[d1| |]|] eqn:E; try done.
  destruct (Hin p ltac:(by left)) as (dest & r0 & -> & Href). destruct (expand_expanded _ _ _ _ Hd Href E) as (o & T & Hr & Ho & HT & HdT & Hex).
  apply (IH d1); [by eapply (step_distinct data d1 dest o T)|done| |done|].
  - intros p' Hp'. destruct (Hin p' ltac:(by right)) as (π & r' & -> & H). exists π, r'. split; [done|].
    apply (step_keep data d1 dest o T r0 Hd Hr Ho Hex); [done|]. intros ->. done.
  - eapply lead_step; [exact Hd|exact Hr|exact Ho|exact HT|exact Hex|exact HL].
Qed.
Lemma lead_deref n : forall o0 d, (exists r τ, S r τ) -> distinct (TObj o0) -> lead (TObj o0) -> dereference F lf path n (TObj o0) <> Some (Ok d).
Proof.
  induction n as [|n IH]; intros o0 d Hex Hd HL He; [done|]. cbn [dereference] in He.
  destruct (expand_all F lf path (find_refs (TObj o0)) (TObj o0)) as [[d1| |]|] eqn:E; try done.
  destruct (lead_pass (find_refs (TObj o0)) (TObj o0) d1) as [Hd1 Hh1]; [done|by apply find_refs_nodup|intros p Hp; by apply find_refs_sound|done|done|].
  destruct d1 as [s|l|o1|m|l]; try done. case_decide as Hf; [|by eapply IH].
  destruct Hex as (r & τ & Hτ). destruct (Hh1 _ _ Hτ) as (ρ & r' & τ' & x & _ & Hx & Hxr & _).
  assert (ref_at (TObj o1) (τ ++ ρ) r') as H by (by exists x). apply find_refs_complete in H. rewrite Hf in H. by apply elem_of_nil in H.
Qed.
End self.
Lemma endless_never F lf path o0 : Den.distinct_keys (TObj o0) -> sound_sources F lf -> endless_references F path (TObj o0) ->
  forall n d, dereference F lf path n (TObj o0) <> Some (Ok d).
Proof.
  intros Hd Hs (S & N & HN & Hex & HS) n d. eapply (lead_deref F lf path Hs S N HN); [|done|done|].
  - intros r τ H. by apply HS.
  - intros r τ H. by apply HS in H as [_ H].
Qed.
Lemma endless_load F ty fl path o0 : f_file F path = Some (TObj o0) -> Den.distinct_keys (TObj o0) -> (forall n, sound_sources F (load_schema F ty fl n)) ->
  endless_references F path (TObj o0) -> forall n j, load_schema F ty fl n path <> Some (Ok j).
Proof.
  intros Hf Hd Hs Hc [|n] j Hl; [done|]. cbn [load_schema] in Hl. rewrite Hf in Hl. destruct (f_valid F path); [|done]. cbn [negb] in Hl.
  destruct (dereference F (load_schema F ty fl n) path (Datatypes.S n) (TObj o0)) as [[d| |]|] eqn:E; try done.
  by eapply (endless_never F _ path o0 Hd (Hs n) Hc (Datatypes.S n)).
Qed.

(** Calls of a transformer whose objects have defaults. *)
From stdpp Require Import strings list gmap.
From Coq Require Import Ascii ZArith Lia.
From Verif Require Import GoStr GoStrL Val Conv Instr Heap Schema Build Api SpecPath PathL Den Param HeapL Refine Top
  SpecSchema BuildL SpecProj ProjL SpecXml XmlL SpecRun RunL SpecDef DefD DefE DefB DefS DefP.

Local Instance some_wild : wild := True.
Definition dinv (f : fmt) (i : itr) (p : pitr) (s : st) : Prop :=
  stok s /\ wf_paths p /\ dpure f p /\ NoDup (defs i) /\ exists h, h ⊆ hp s /\ drel (hp s) h (froms s) i p.
(** a state as good as another *)
Lemma dinv_next f i p' s s' h hA hB : dstep (defs i) s s' -> dvis (defs i) s s' h hA hB ->
  wf_paths p' -> dpure f p' -> NoDup (defs i) -> drel (hp s') hA (froms s) i p' -> dinv f i p' s'.
Proof.
  intros (H1 & _ & H3 & _) (A1 & A2 & A3 & _) Hwf Hp Hnd Hd. split_and!; try done. exists hA. split; [by etrans|]. by rewrite H3.
Qed.
Section calls.
Context (W : oracles) (HW : jpath_parametric W) (E : env) (HE : unmarshals E).
Lemma tnv_dspec perm f i p raw s t : orders perm -> dinv f i p s -> input_of E f raw = Some t ->
  let r := transform_no_validation W E perm f i raw s in
  outcome W (fst <$> dden W f p t []) r.2 /\ forall o p', dden W f p t [] = Some (o, p') -> dinv f i p' r.1.
Proof.
  intros Ho (Hs & Hwf & Hp & Hnd & h & Hh & Hd) Ht. cbv zeta. destruct f; cbn [transform_no_validation input_of] in *.
  - unfold Api.base_json. rewrite Ht. unfold base_json_transform.
    pose proof (load_spec t s h (HE _ _ Ht) Hs Hh) as [Hst1 (v & h1 & Hr1 & Hv1 & Hv)].
    unfold Heap.mbind. destruct (load t s) as [s1 r1]. cbn [fst snd] in *. subst r1.
    assert (HI : FJson = FXml -> forall n, t = TNode n) by done.
    assert (Hd1 : drel (hp s1) h1 (froms s1) i p).
    { rewrite (proj2 (proj2 (proj2 Hst1))). eapply drel_mono; [apply Hv1| |exact Hd]. intros a Ha.
      destruct (drel_defs _ _ _ _ _ _ Hd Ha) as [[mm Hm] Hn]. split.
      - rewrite Hm. eapply lookup_weaken; [exact Hm|apply Hst1].
      - destruct (h1 !! a) as [c|] eqn:Ec; [|done]. destruct Hv1 as (_ & _ & Hv1). destruct (Hv1 a) as [[c' Hc']|Hc']; [by eexists|congruence|].
        pose proof (Hs a (ex_intro _ _ Hm)). lia. }
    pose proof (exec_dden W HW FJson (eq t) HI perm Ho p Hwf Hp i s1 h1 v t [] (proj1 Hst1) (proj1 (proj2 Hv1)) Hd1 Hnd Hv eq_refl) as [Hst2 Hr2].
    destruct (exec W perm FJson i v [] s1) as [s2 r2]. cbn [fst snd] in *.
    destruct (dden W FJson p t []) as [[o p']|] eqn:Ed; cbn.
    + destruct Hr2 as (v2 & hA & hB & -> & Hv2 & Hvt & Hd2). rewrite (marshal_spec W s2 v2 o); cbn.
      * split; [done|]. intros o' q [= <- <-]. destruct (dden_form _ _ _ _ _ _ _ Ed Hwf Hp) as (F1 & F2 & _).
        by eapply (dinv_next FJson i p' s1).
      * eapply repr_mono; [|exact Hvt]. apply Hv2.
    + split; [|done]. destruct Hr2 as [-> | ->]; cbn; auto.
  - unfold Api.base_xml. destruct (e_xml E raw) as [n|]; [|done]. injection Ht as <-. unfold base_xml_transform.
    assert (HI : FXml = FXml -> forall n, exists n', TNode n = TNode n') by eauto.
    pose proof (exec_dden W HW FXml (fun t => exists n, t = TNode n) HI perm Ho p Hwf Hp i s h (VNode n) (TNode n) [] Hs Hh Hd Hnd ltac:(done) (ex_intro _ n eq_refl)) as [Hst2 Hr2].
    unfold Heap.mbind. destruct (exec W perm FXml i (VNode n) [] s) as [s2 r2]. cbn [fst snd] in *.
    destruct (dden W FXml p (TNode n) []) as [[o p']|] eqn:Ed; cbn.
    + destruct Hr2 as (v2 & hA & hB & -> & Hv2 & Hvt & Hd2). rewrite (marshal_spec W s2 v2 o); cbn.
      * split; [done|]. intros o' q [= <- <-]. destruct (dden_form _ _ _ _ _ _ _ Ed Hwf Hp) as (F1 & F2 & _).
        by eapply (dinv_next FXml i p' s).
      * eapply repr_mono; [|exact Hvt]. apply Hv2.
    + split; [|done]. destruct Hr2 as [-> | ->]; cbn; auto.
Qed.
Lemma tnv_bad perm f i raw s : input_of E f raw = None -> transform_no_validation W E perm f i raw s = (s, Err).
Proof.
  destruct f; cbn [transform_no_validation input_of]; intros Hn.
  - unfold Api.base_json. by rewrite Hn.
  - unfold Api.base_xml. by destruct (e_xml E raw).
Qed.
Lemma serve_state perm f i c s : (serve W E perm f i c s).1 = (transform_no_validation W E perm f i (raw_of c) s).1.
Proof. destruct c; cbn [serve raw_of]; [|done]. by rewrite transform_eq. Qed.
Lemma serve_result perm f i c s t : outcome W (Some t) (transform_no_validation W E perm f i (raw_of c) s).2 ->
  (serve W E perm f i c s).2 = answer W E c t.
Proof. destruct c; cbn [serve raw_of answer]; [|done]. rewrite transform_eq. cbn. by intros ->. Qed.
End calls.

(** ** new transformers *)
Lemma build_plain W tid props cs : NoDup props.*1 -> Forall (fun kp => plain_name kp.1) props -> reads_all W tid [] props cs ->
  exists s' i, new_transformer W tid (Some props) None st0 = (s', Ok i) /\ stok s' /\
    irel (hp s') (froms s') i (PObj "$" None None cs).
Proof.
  intros Hnd Hpl Hall. unfold new_transformer, walk_raw_schema. change (default [] (Some props)) with props.
  destruct (proj2 (walk_ok W tid) [] props cs Hall) with (q := "$") (d := @None nat) (ts := @None tis) (old := @nil (string * itr))
    (K := @Ok itr) (r := IObj "$" None None []) (st := st0) as (s' & r' & cs' & Hw & Hb & Hk & HK); try done.
  - apply focus_root.
  - intros k _. apply not_elem_of_nil.
  - apply stok0.
  - apply fok0.
  - cbn in HK. simplify_eq. unfold Schema.seq. change (path_of []) with "$" in Hw. rewrite Hw. cbn [fst snd stop].
    eexists _, _. split; [done|]. split; [apply Hb|]. apply irel_obj. done.
Qed.
Lemma new_dinv W tid f props cs s i : NoDup props.*1 -> Forall (fun kp => ident kp.1 = true) props -> reads_all W tid [] props cs ->
  dpure f (PObj "$" None None cs) -> new_transformer W tid (Some props) None st0 = (s, Ok i) -> dinv f i (PObj "$" None None cs) s.
Proof.
  intros Hnd Hid Hall Hp Hn.
  assert (Hpl : Forall (fun kp => plain_name kp.1) props) by (eapply Forall_impl; [exact Hid|]; intros kp; apply ident_plain).
  destruct (build_plain W tid props cs Hnd Hpl Hall) as (s' & i' & Hn' & Hs & Hi). rewrite Hn in Hn'. simplify_eq.
  destruct (new_drel _ _ _ (new_apart _ _ _ _ _ Hn) Hi) as (H1 & H2 & H3). split_and!; try done.
  - by eapply reads_root_wf.
  - eauto.
Qed.

Section top.
Context (W : oracles) (HW : jpath_parametric W) (E : env) (HE : unmarshals E).
(** ** JSON *)
Lemma dstate_inv tid props i sc s : dstate W E tid props i sc s -> exists p, dprel [] [] sc p /\ dinv FJson i p s.
Proof.
  intros Hs. induction Hs as [sc s Hsh Hn|sc s perm c doc t sc' Hs IH Ho Hj Hsm Hd|sc s perm c Hs IH Ho Hj].
  - destruct sc as [|cs|]; [done| |done]. destruct Hsh as (Hnd & Hid & Hall).
    destruct (proj2 (dshape_reads W tid) props cs Hall [] ltac:(constructor) Hid) as (cs' & H1 & H2).
    exists (PObj "$" None None cs'). split; [by apply (dprel_rec [])|]. eapply new_dinv; try done.
    eapply (proj1 (dprel_pure)). by apply (dprel_rec [] []).
  - destruct IH as (p & Hp & Hi). change (match c with Validated raw | Unvalidated raw => raw end) with (raw_of c) in Hj.
    destruct (tnv_dspec W HW E HE perm FJson i p (raw_of c) s doc Ho Hi Hj) as [_ Hnext].
    assert (Hx := proj1 (dden_dproject W) [] [] sc p Hp [] [] [] doc ltac:(constructor) ltac:(constructor) ltac:(constructor) ltac:(constructor) Hsm).
    cbn [locate] in Hx. rewrite Hd in Hx. inversion Hx as [[o p'] ? [H1 H2] E1 E2|]; subst. cbn in H1, H2.
    exists p'. split; [done|]. rewrite serve_state. eapply Hnext. by rewrite <- E1.
  - destruct IH as (p & Hp & Hi). exists p. split; [done|]. rewrite serve_state.
    change (match c with Validated raw | Unvalidated raw => raw end) with (raw_of c) in Hj. by rewrite tnv_bad.
Qed.
Lemma ddocument tid props i sc s perm raw doc : dstate W E tid props i sc s -> orders perm -> e_json E raw = Some doc -> small doc ->
  outcome W (fst <$> dproject W doc sc (Some doc) (Some doc)) (transform_no_validation W E perm FJson i raw s).2.
Proof.
  intros Hs Ho Hj Hsm. destruct (dstate_inv _ _ _ _ _ Hs) as (p & Hp & Hi).
  destruct (tnv_dspec W HW E HE perm FJson i p raw s doc Ho Hi Hj) as [H _].
  assert (Hx := proj1 (dden_dproject W) [] [] sc p Hp [] [] [] doc ltac:(constructor) ltac:(constructor) ltac:(constructor) ltac:(constructor) Hsm).
  cbn [locate] in Hx. inversion Hx as [[o p'] [o2 s2] [H1 H2] E1 E2|E1 E2].
  - rewrite <- E1 in H. cbn in H1. subst. done.
  - by rewrite <- E1 in H.
Qed.
Lemma dcreated tid props sc : dshaped W tid props sc -> exists s i, new_transformer W tid (Some props) None st0 = (s, Ok i).
Proof.
  intros Hsh. destruct sc as [|cs|]; [done| |done]. destruct Hsh as (Hnd & Hid & Hall).
  destruct (proj2 (dshape_reads W tid) props cs Hall [] ltac:(constructor) Hid) as (cs' & H1 & H2).
  assert (Hpl : Forall (fun kp => plain_name kp.1) props) by (eapply Forall_impl; [exact Hid|]; intros kp; apply ident_plain).
  destruct (build_plain W tid props cs' Hnd Hpl H1) as (s & i & H & _). eauto.
Qed.
(** ** XML *)
Lemma xdstate_inv tid props i sc s : xdstate W E tid props i sc s -> exists p, xdrel [] sc p /\ dinv FXml i p s.
Proof.
  intros Hs. induction Hs as [sc s Hsh Hn|sc s perm c n t sc' Hs IH Ho Hj Hd|sc s perm c Hs IH Ho Hj].
  - destruct sc as [|[|] cs|]; [done|done| |done]. destruct Hsh as (Hnd & Hid & Hall).
    destruct (proj2 (xdshape_reads W tid) props cs Hall []) as (cs' & H1 & H2).
    exists (PObj "$" None None cs'). split; [by apply (xdrel_rec [])|]. eapply new_dinv; try done.
    eapply (proj1 (xdrel_pure)). by apply (xdrel_rec [] None).
  - destruct IH as (p & Hp & Hi). change (match c with Validated raw | Unvalidated raw => raw end) with (raw_of c) in Hj.
    assert (Hj' : input_of E FXml (raw_of c) = Some (TNode n)) by (cbn; by rewrite Hj).
    destruct (tnv_dspec W HW E HE perm FXml i p (raw_of c) s (TNode n) Ho Hi Hj') as [_ Hnext].
    assert (Hx := proj1 (dden_xdproject W) [] sc p Hp [] [] n ltac:(constructor)).
    rewrite Hd in Hx. inversion Hx as [[o p'] ? [H1 H2] E1 E2|]; subst. cbn in H1, H2.
    exists p'. split; [done|]. rewrite serve_state. eapply Hnext. by rewrite <- E1.
  - destruct IH as (p & Hp & Hi). exists p. split; [done|]. rewrite serve_state.
    change (match c with Validated raw | Unvalidated raw => raw end) with (raw_of c) in Hj. rewrite tnv_bad; [done|]. cbn. by rewrite Hj.
Qed.
Lemma xddocument tid props i sc s perm raw n : xdstate W E tid props i sc s -> orders perm -> e_xml E raw = Some n ->
  outcome W (fst <$> xdproject W sc n) (transform_no_validation W E perm FXml i raw s).2.
Proof.
  intros Hs Ho Hj. destruct (xdstate_inv _ _ _ _ _ Hs) as (p & Hp & Hi).
  assert (Hj' : input_of E FXml raw = Some (TNode n)) by (cbn; by rewrite Hj).
  destruct (tnv_dspec W HW E HE perm FXml i p raw s (TNode n) Ho Hi Hj') as [H _].
  assert (Hx := proj1 (dden_xdproject W) [] sc p Hp [] [] n ltac:(constructor)).
  inversion Hx as [[o p'] [o2 s2] [H1 H2] E1 E2|E1 E2].
  - rewrite <- E1 in H. cbn in H1. subst. done.
  - by rewrite <- E1 in H.
Qed.
End top.

(** Calls on transformers with transforms of objects, at any time and together with any others. *)
From stdpp Require Import strings list gmap.
From Coq Require Import ZArith Lia.
From Verif Require Import GoStr GoStrL Val Conv Instr Heap Schema Build Api SpecPath PathL Den SpecSchema Param HeapL Refine Top BuildL
  SpecProj ProjL SpecRun RunL SelD SpecSel SelP SelQ Conc SpecConc ConcP.

Section calls.
Context (W : oracles) (HW : jpath_parametric W) (E : env) (HE : unmarshals E).
Lemma oshaped_during tid ps sc i s0 cs s qs j p r raw doc : 0 < o_stack W ->
  apart W tid FJson (Some ps) None -> oshaped W tid ps sc -> separated sc ->
  new_transformer W tid (Some ps) None st0 = (s0, Ok i) ->
  during W E FJson i s0 cs s qs -> qs !! j = Some p -> returned p r -> cs !! j = Some (Unvalidated raw) ->
  e_json E raw = Some doc -> small doc -> no_array sc doc ->
  outcome W (oproject W doc sc (Some doc) (Some doc)) r.
Proof.
  intros Hst Ha Hsh Hsep Hn Hd Hj Hr Hc Hdoc Hsm Hna.
  destruct (during_answer W HW E FJson tid (Some ps) None i s0 Ha Hn cs s qs j p r Hd Hj Hr) as (c & perm & Hc' & Ho & <-).
  rewrite Hc in Hc'. injection Hc' as <-. cbn [serve]. by eapply oshaped_new.
Qed.
Lemma oshaped_same tid ps sc i s0 perm perm' c : oshaped W tid ps sc -> separated sc ->
  new_transformer W tid (Some ps) None st0 = (s0, Ok i) -> orders perm -> orders perm' ->
  (forall doc, e_json E (raw_of c) = Some doc -> no_array sc doc) ->
  SpecRun.same (serve W E perm FJson i c s0).2 (serve W E perm' FJson i c s0).2.
Proof.
  intros Hsh Hsep Hn Ho Ho' Hna. pose proof (oshaped_ok _ _ _ _ Hsh) as Hw.
  destruct (new_reads W tid (Some ps) None s0 i Hw Hn) as (p & Hr & Hst & Hi).
  pose proof (oshaped_reads _ _ _ _ _ Hsh Hr) as Hrel.
  assert (Hwf : wf_paths p) by (eapply schema_wf; [exact Hw|done]).
  assert (H : SpecRun.same (transform_no_validation W E perm FJson i (raw_of c) s0).2 (transform_no_validation W E perm' FJson i (raw_of c) s0).2).
  { destruct (e_json E (raw_of c)) as [doc|] eqn:Ed.
    - destruct (tnv_ospec W HW E HE perm i p sc (raw_of c) doc s0 Ho Hwf Hrel Hsep Hst Hi Ed (Hna doc eq_refl)) as [_ H1].
      destruct (tnv_ospec W HW E HE perm' i p sc (raw_of c) doc s0 Ho' Hwf Hrel Hsep Hst Hi Ed (Hna doc eq_refl)) as [_ H2].
      unfold outcome in H1, H2. destruct (oden W doc p []) as [t|].
      + rewrite H1, H2. by destruct (print W t).
      + by destruct H1 as [-> | ->], H2 as [-> | ->].
    - cbn [transform_no_validation]. unfold Api.base_json. by rewrite Ed. }
  destruct c as [raw|raw]; cbn [serve raw_of] in *; [|done]. rewrite !transform_eq. cbv zeta. cbn [snd].
  destruct (transform_no_validation W E perm FJson i raw s0).2, (transform_no_validation W E perm' FJson i raw s0).2; try done.
  cbn in H. subst. cbn [rbind]. by destruct (check E _).
Qed.
Lemma oshaped_steady tid ps sc i s0 cs s qs j j' p p' r r' c :
  apart W tid FJson (Some ps) None -> oshaped W tid ps sc -> separated sc ->
  new_transformer W tid (Some ps) None st0 = (s0, Ok i) ->
  during W E FJson i s0 cs s qs -> cs !! j = Some c -> cs !! j' = Some c ->
  qs !! j = Some p -> returned p r -> qs !! j' = Some p' -> returned p' r' ->
  (forall doc, e_json E (raw_of c) = Some doc -> no_array sc doc) ->
  SpecRun.same r r'.
Proof.
  intros Ha Hsh Hsep Hn Hd Hc Hc' Hj Hr Hj' Hr' Hna.
  destruct (during_answer W HW E FJson tid (Some ps) None i s0 Ha Hn cs s qs j p r Hd Hj Hr) as (c1 & perm & Hc1 & Ho & <-).
  destruct (during_answer W HW E FJson tid (Some ps) None i s0 Ha Hn cs s qs j' p' r' Hd Hj' Hr') as (c2 & perm' & Hc2 & Ho' & <-).
  assert (c1 = c) as -> by congruence. assert (c2 = c) as -> by congruence. by eapply oshaped_same.
Qed.
End calls.

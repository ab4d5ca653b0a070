(** The same call of an XML transformer at different times. *)
From stdpp Require Import strings list gmap.
From Coq Require Import ZArith.
From Verif Require Import GoStr Val Conv Instr Heap Schema Build Api SpecPath Den Param Top SpecSchema SpecProj SpecRun SpecXml ProjL RunL XmlL.
Set Default Proof Using "Type".

Lemma xshaped_steady W (HW : jpath_parametric W) E (HE : unmarshals E) tid props items sc i s perm perm' c s' :
  xshaped W tid props items sc -> state W E FXml tid props items i s -> state W E FXml tid props items i s' -> orders perm -> orders perm' ->
  SpecRun.same (serve W E perm FXml i c s).2 (serve W E perm' FXml i c s').2.
Proof.
  intros Hsh Hs Hs' Ho Ho'.
  assert (H : SpecRun.same (transform_no_validation W E perm FXml i (raw_of c) s).2 (transform_no_validation W E perm' FXml i (raw_of c) s').2).
  { destruct (e_xml E (raw_of c)) as [n|] eqn:En.
    - pose proof (xshaped_transform W HW E HE _ _ _ _ _ _ _ _ _ Hsh Hs Ho En) as H1.
      pose proof (xshaped_transform W HW E HE _ _ _ _ _ _ _ _ _ Hsh Hs' Ho' En) as H2.
      unfold outcome in H1, H2. destruct (xproject W sc n) as [t|].
      + rewrite H1, H2. by destruct (print W t).
      + by destruct H1 as [-> | ->], H2 as [-> | ->].
    - unfold transform_no_validation, Api.base_xml. by rewrite En. }
  destruct c as [raw|raw]; cbn [serve raw_of] in *; [|done]. rewrite !transform_eq. cbv zeta. cbn [snd].
  destruct (transform_no_validation W E perm FXml i raw s).2, (transform_no_validation W E perm' FXml i raw s').2; try done.
  cbn in H. subst. cbn [rbind]. by destruct (check E _).
Qed.

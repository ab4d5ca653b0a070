(** Concurrent calls of transformers whose answers do not depend on their past. *)
From stdpp Require Import strings list gmap.
From Coq Require Import ZArith.
From Verif Require Import GoStr Val Conv Instr Heap Schema Build Api SpecPath Den Param Top SpecSchema SpecProj SpecRun SpecArr ProjL RunL ArrQ.
From Verif Require Import Conc SpecConc ConcP.

Lemma tame_alone W (HW : jpath_parametric W) E (HE : unmarshals E) f tid props items i s0 cs s ps j p r c i' s' perm :
  apart W tid f props items -> well_named props items -> tame W tid f props items ->
  new_transformer W tid props items st0 = (s0, Ok i) ->
  during W E f i s0 cs s ps -> ps !! j = Some p -> returned p r -> cs !! j = Some c ->
  state W E f tid props items i' s' -> orders perm ->
  same r (serve W E perm f i' c s').2.
Proof.
  intros Ha Hw Ht Hn Hd Hj Hr Hc Hs Ho. destruct (during_answer W HW E f tid props items i s0 Ha Hn cs s ps j p r Hd Hj Hr) as (c' & perm' & Hc' & Ho' & <-).
  rewrite Hc in Hc'. injection Hc' as <-.
  eapply (same_results W HW E HE f tid props props items i i' s0 s' perm' perm c); try done. by constructor.
Qed.
Lemma shaped_alone W (HW : jpath_parametric W) E (HE : unmarshals E) tid qs sc i s0 cs s ps j p r c s' perm :
  apart W tid FJson (Some qs) None -> jshaped W tid qs sc -> separate (stores sc []) sc [] [] ->
  new_transformer W tid (Some qs) None st0 = (s0, Ok i) ->
  during W E FJson i s0 cs s ps -> ps !! j = Some p -> returned p r -> cs !! j = Some c ->
  state W E FJson tid (Some qs) None i s' -> orders perm ->
  same r (serve W E perm FJson i c s').2.
Proof.
  intros Ha Hw Ht Hn Hd Hj Hr Hc Hs Ho. destruct (during_answer W HW E FJson tid (Some qs) None i s0 Ha Hn cs s ps j p r Hd Hj Hr) as (c' & perm' & Hc' & Ho' & <-).
  rewrite Hc in Hc'. injection Hc' as <-.
  exact (jshaped_steady W HW E HE tid qs sc i s0 perm' perm c s' Hw Ht (state_new _ _ _ _ _ _ _ s0 Hn) Hs Ho' Ho).
Qed.

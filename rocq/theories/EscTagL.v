(** Descriptions with escapes in tags. *)
From stdpp Require Import strings list gmap.
From Coq Require Import Ascii ZArith Lia.
From Verif Require Import GoStr GoStrL Val Conv Schema Inst SpecGen SpecNamed Gen Avro GoSrc SpecAvro AvroL AvroMapL SpecGo GoSrcL GoSrcP GoSrcQ GoSrcA GoSrcC CutTagL ExactTagL SpecEsc.

Lemma esc_cons c s : escaped (String c s) = if decide (c = dquote \/ c = backslash) then String backslash (String c (escaped s)) else String c (escaped s).
Proof. reflexivity. Qed.
Lemma esc_value s acc rest : tag_value (escaped s +:+ String dquote rest) acc = Some (acc +:+ escaped s, rest).
Proof.
  revert acc. induction s as [|c s IH]; intros acc; [cbn; by rewrite sapp_nil_r|]. rewrite esc_cons. case_decide as Hc.
  - change (String backslash (String c (escaped s)) +:+ String dquote rest) with (String backslash (String c (escaped s +:+ String dquote rest))).
    cbn [tag_value]. rewrite (decide_False (P := backslash = dquote)) by done. rewrite (decide_True (P := backslash = backslash)) by done.
    rewrite IH. by rewrite <- app_assoc_s.
  - change (String c (escaped s) +:+ String dquote rest) with (String c (escaped s +:+ String dquote rest)).
    cbn [tag_value]. rewrite !decide_False by tauto. rewrite IH. by rewrite <- app_assoc_s.
Qed.
Lemma esc_numeric s : numeric_escape (escaped s) = false.
Proof.
  induction s as [|c s IH]; [done|]. rewrite esc_cons. case_decide as Hc.
  - cbn [numeric_escape]. rewrite (decide_True (P := backslash = backslash)) by done. rewrite IH. destruct Hc as [->| ->]; reflexivity.
  - cbn [numeric_escape]. rewrite decide_False by tauto. exact IH.
Qed.
Lemma esc_unquote s : free_of newline_char s = true -> unquote_go (escaped s) = Some s.
Proof.
  induction s as [|c s IH]; [done|]. cbn [free_of]. intros [Hn%negb_true_iff%bool_decide_eq_false H]%andb_true_iff. rewrite esc_cons. case_decide as Hc.
  - cbn [unquote_go]. rewrite (decide_False (P := backslash = newline_char \/ backslash = dquote)) by (intros [?|?]; done).
    rewrite (decide_True (P := backslash = backslash)) by done. rewrite IH by done. destruct Hc as [->| ->]; reflexivity.
  - cbn [unquote_go]. rewrite !decide_False by tauto. by rewrite IH.
Qed.
Lemma esc_free s c : free_of c (escaped s) = true -> free_of c s = true.
Proof.
  induction s as [|x s IH]; [done|]. rewrite esc_cons. case_decide; cbn [free_of].
  - intros [_ [H1 H2]%andb_true_iff]%andb_true_iff. rewrite H1. by apply IH.
  - intros [H1 H2]%andb_true_iff. rewrite H1. by apply IH.
Qed.
Lemma tag_escaped o_unquote A desc go json req ty d : a_descTag A = true -> desc_ok true desc = true -> quotable json = true ->
  first_line desc = escaped d ->
  exists lit, src_field (a_descTag A) (GDecl desc go json req (Some ty)) = [RField [go] (src_type (a_descTag A) ty) (Some lit)] /\
    reads_back o_unquote lit (json +:+ json_option req ty) d.
Proof.
  intros HA Hd Hj Hf. rewrite HA. eexists. split; [apply src_some|].
  pose proof (first_line_flat desc) as Hn. rewrite Hf in Hn. apply esc_free in Hn.
  unfold reads_back. rewrite trim_literal by (done || by apply raw_quotable). rewrite get_json by done. split; [done|].
  rewrite tag_of_eq. unfold GoSrc.tag_get. rewrite lookup_desc by (by rewrite quotable_app, Hj, option_quotable). cbn [andb].
  destruct (decide (desc = "")) as [->|Hne].
  { destruct d as [|c d]; [done|]. rewrite esc_cons in Hf. case_decide; discriminate Hf. }
  rewrite bool_decide_eq_true_2 by done.
  change (String.length ("json:" +:+ ?x)) with (S (String.length ("son:" +:+ x))). rewrite lookup_desc_any, Hf, esc_value.
  change ("" +:+ escaped d) with (escaped d). unfold unquote. rewrite esc_numeric, esc_unquote by done. done.
Qed.

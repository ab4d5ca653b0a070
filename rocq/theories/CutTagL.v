(** Descriptions with double quotes in tags. *)
From stdpp Require Import strings list gmap.
From Coq Require Import Ascii ZArith Lia.
From Verif Require Import GoStr GoStrL Val Conv Schema Inst SpecGen SpecNamed Gen Avro GoSrc SpecAvro AvroL AvroMapL SpecGo GoSrcL GoSrcP GoSrcQ GoSrcA GoSrcC.

Lemma cut_quote s : free_of dquote s = true \/ exists a b, s = a +:+ String dquote b /\ free_of dquote a = true.
Proof.
  induction s as [|c s IH]; [by left|]. cbn [free_of]. destruct (decide (c = dquote)) as [->|Hc].
  { right. exists "", s. done. }
  rewrite bool_decide_eq_false_2 by done. cbn [negb andb]. destruct IH as [H|(a & b & -> & H)]; [by left|right].
  exists (String c a), b. split; [done|]. cbn [free_of]. rewrite bool_decide_eq_false_2 by done. done.
Qed.
Lemma first_line_flat s : free_of newline_char (first_line s) = true.
Proof.
  unfold first_line. pose proof (split_free s newline ltac:(done)) as H. destruct (split s newline) as [|l ls]; [done|]. cbn [hd].
  apply Forall_cons in H as [H _]. apply (without_free _ [newline_char]); [left|]. apply without_more; [|exact H].
  clear. unfold without. induction l as [|a l IH]; [done|]. cbn [str_all]. by rewrite IH.
Qed.
Lemma quotable_all s : raw_text s = true -> free_of newline_char s = true -> free_of dquote s = true -> free_of backslash s = true -> quotable s = true.
Proof.
  unfold raw_text, quotable, without. induction s as [|c s IH]; [done|]. cbn [str_all free_of].
  intros [A1 B1]%andb_true_iff [A2 B2]%andb_true_iff [A3 B3]%andb_true_iff [A4 B4]%andb_true_iff. rewrite IH by done. rewrite andb_true_r.
  apply negb_true_iff, bool_decide_eq_false in A1, A2, A3, A4. apply negb_true_iff, bool_decide_eq_false.
  unfold newline_char, dquote, backslash in *. rewrite !elem_of_cons, elem_of_nil in *. intros H. destruct_or! H; subst; tauto.
Qed.
Lemma free_left c a b : free_of c (a +:+ b) = true -> free_of c a = true.
Proof.
  induction a as [|x a IH]; [done|]. change (String x a +:+ b) with (String x (a +:+ b)). cbn [free_of].
  intros [H1 H2]%andb_true_iff. rewrite H1. by apply IH.
Qed.
Lemma lookup_desc_cut o_unquote n v rest : quotable v = true -> tag_lookup o_unquote (S n) (" description:" +:+ String dquote (v +:+ String dquote rest)) "description" = v.
Proof.
  intros H. change (tag_lookup o_unquote (S n) (" description:" +:+ String dquote (v +:+ String dquote rest)) "description") with
    (match tag_value (v +:+ String dquote rest) "" with Some (v, rest') => default "" (unquote o_unquote v) | None => "" end).
  rewrite tag_value_ok by done. change ("" +:+ v) with v. by rewrite unquote_ok.
Qed.
Lemma cut_desc o_unquote desc json req ty a b : quotable json = true -> first_line desc = a +:+ String dquote b -> quotable a = true ->
  tag_get o_unquote (tag_of true desc json req ty) "description" = a.
Proof.
  intros H Hf Ha. rewrite tag_of_eq. unfold GoSrc.tag_get. rewrite lookup_desc by (by rewrite quotable_app, H, option_quotable).
  cbn [andb]. rewrite bool_decide_eq_true_2 by (intros ->; destruct a; discriminate Hf).
  change (String.length ("json:" +:+ ?x)) with (S (String.length ("son:" +:+ x))). generalize (String.length ("son:" +:+ String dquote ((json +:+ json_option req ty) +:+ String dquote (" description:" +:+ String dquote (first_line desc +:+ String dquote ""))))).
  intros n. rewrite Hf. rewrite <- app_assoc_s. change (String dquote b +:+ String dquote "") with (String dquote (b +:+ String dquote "")).
  by apply lookup_desc_cut.
Qed.
Lemma tag_exactly o_unquote A desc go json req ty : a_descTag A = true -> desc_ok true desc = true -> quotable json = true ->
  free_of backslash (first_line desc) = true ->
  exists lit d, src_field (a_descTag A) (GDecl desc go json req (Some ty)) = [RField [go] (src_type (a_descTag A) ty) (Some lit)] /\
    reads_back o_unquote lit (json +:+ json_option req ty) d /\ free_of dquote d = true /\
    (first_line desc = d \/ exists b, first_line desc = d +:+ String dquote b).
Proof.
  intros HA Hd Hj Hb. destruct (cut_quote (first_line desc)) as [Hq|(a & b & Hf & Ha)].
  - destruct (one_tag o_unquote A desc go json req ty) as (lit & Hl & Hr).
    + by rewrite HA.
    + done.
    + intros _. apply quotable_all; [done|apply first_line_flat|done|done].
    + exists lit, (first_line desc). split; [done|]. split; [|by split; [|left]]. unfold read_desc in Hr. by rewrite HA in Hr.
  - rewrite HA. eexists _, a. split; [apply src_some|]. split; [|split; [done|right; by exists b]].
    assert (Hqa : quotable a = true).
    { pose proof (first_line_flat desc) as Hn. unfold desc_ok in Hd. rewrite Hf in Hd, Hn, Hb. apply quotable_all; [|by eapply free_left..|done|by eapply free_left].
      unfold raw_text, without in *. rewrite str_all_app in Hd. by apply andb_true_iff in Hd as [? _]. }
    unfold reads_back. rewrite trim_literal by (done || by apply raw_quotable). rewrite get_json by done. split; [done|]. by eapply cut_desc.
Qed.

(** Reading tags, and the Avro schema of generated structs. *)
From stdpp Require Import strings list gmap.
From Coq Require Import Ascii ZArith Lia.
From Verif Require Import GoStr GoStrL Val Conv Schema Inst SpecGen SpecNamed Avro GoSrc SpecAvro AvroL AvroMapL SpecGo GoSrcL GoSrcP GoSrcQ.

Section tags.
Context (o_unquote : string -> option string).
Notation tag_get := (tag_get o_unquote).
Lemma quotable_cons a s : quotable (String a s) = true -> (a <> "`" /\ a <> newline_char /\ a <> dquote /\ a <> backslash)%char /\ quotable s = true.
Proof.
  unfold quotable, without. cbn [str_all]. intros [Ha Hs]%andb_true_iff. apply negb_true_iff, bool_decide_eq_false in Ha. split; [|done].
  unfold newline_char, dquote, backslash. repeat split; intros ->; apply Ha; rewrite !elem_of_cons; tauto.
Qed.
Lemma quotable_app a b : quotable (a +:+ b) = quotable a && quotable b.
Proof. apply str_all_app. Qed.
Lemma tag_value_ok v acc rest : quotable v = true -> tag_value (v +:+ String dquote rest) acc = Some (acc +:+ v, rest).
Proof.
  revert acc. induction v as [|a v IH]; intros acc H; [cbn; by rewrite sapp_nil_r|]. apply quotable_cons in H as [(_ & _ & H1 & H2) H].
  change (String a v +:+ String dquote rest) with (String a (v +:+ String dquote rest)). cbn [tag_value]. rewrite !decide_False by done. rewrite IH by done. by rewrite <- app_assoc_s.
Qed.
Lemma numeric_none v : quotable v = true -> numeric_escape v = false.
Proof. induction v as [|a v IH]; intros H; [done|]. apply quotable_cons in H as [(_ & _ & H1 & H2) H]. cbn [numeric_escape]. rewrite decide_False by done. by apply IH. Qed.
Lemma unquote_go_ok v : quotable v = true -> unquote_go v = Some v.
Proof.
  induction v as [|a v IH]; intros H; [done|]. apply quotable_cons in H as [(_ & H1 & H2 & H3) H]. cbn [unquote_go].
  rewrite decide_False by (intros [?|?]; done). rewrite decide_False by done. by rewrite IH.
Qed.
Lemma unquote_ok v : quotable v = true -> unquote o_unquote v = Some v.
Proof. intros H. unfold unquote. by rewrite numeric_none, unquote_go_ok. Qed.
Lemma option_quotable req ty : quotable (json_option req ty) = true.
Proof. destruct req; [done|]. by destruct ty. Qed.
Lemma tag_of_eq dt desc json req ty : tag_of dt desc json req ty = "json:" +:+ String dquote ((json +:+ json_option req ty) +:+ String dquote
  (if dt && bool_decide (desc <> "") then " description:" +:+ String dquote (first_line desc +:+ String dquote "") else "")).
Proof.
  unfold tag_of, json_tag, in_quotes, json_option. rewrite <- !app_assoc_s. case_match; done.
Qed.
Lemma lookup_json n v rest : quotable v = true -> tag_lookup o_unquote (S n) ("json:" +:+ String dquote (v +:+ String dquote rest)) "json" = v.
Proof.
  intros H. change (tag_lookup o_unquote (S n) ("json:" +:+ String dquote (v +:+ String dquote rest)) "json") with
    (match tag_value (v +:+ String dquote rest) "" with Some (v, rest') => default "" (unquote o_unquote v) | None => "" end).
  rewrite tag_value_ok by done. change ("" +:+ v) with v. by rewrite unquote_ok.
Qed.
Lemma lookup_desc n v rest : quotable v = true -> tag_lookup o_unquote (S n) ("json:" +:+ String dquote (v +:+ String dquote rest)) "description" = tag_lookup o_unquote n rest "description".
Proof.
  intros H. change (tag_lookup o_unquote (S n) ("json:" +:+ String dquote (v +:+ String dquote rest)) "description") with
    (match tag_value (v +:+ String dquote rest) "" with Some (v, rest') => tag_lookup o_unquote n rest' "description" | None => "" end).
  rewrite tag_value_ok by done. done.
Qed.
Lemma lookup_desc_own n v : quotable v = true -> tag_lookup o_unquote (S n) (" description:" +:+ String dquote (v +:+ String dquote "")) "description" = v.
Proof.
  intros H. change (tag_lookup o_unquote (S n) (" description:" +:+ String dquote (v +:+ String dquote "")) "description") with
    (match tag_value (v +:+ String dquote "") "" with Some (v, rest') => default "" (unquote o_unquote v) | None => "" end).
  rewrite tag_value_ok by done. change ("" +:+ v) with v. by rewrite unquote_ok.
Qed.
Lemma get_json dt desc json req ty : quotable json = true -> tag_get (tag_of dt desc json req ty) "json" = json +:+ json_option req ty.
Proof. intros H. rewrite tag_of_eq. unfold GoSrc.tag_get. apply lookup_json. by rewrite quotable_app, H, option_quotable. Qed.
Lemma get_desc dt desc json req ty : quotable json = true -> (dt = true -> quotable (first_line desc) = true) ->
  tag_get (tag_of dt desc json req ty) "description" = read_desc dt desc.
Proof.
  intros H Hd. rewrite tag_of_eq. unfold GoSrc.tag_get. rewrite lookup_desc by (by rewrite quotable_app, H, option_quotable). unfold read_desc.
  destruct dt; [|done]. cbn [andb]. destruct (decide (desc = "")) as [->|Hne]; [done|]. rewrite bool_decide_eq_true_2 by done.
  change (String.length ("json:" +:+ ?x)) with (S (String.length ("son:" +:+ x))). apply lookup_desc_own. by apply Hd.
Qed.
(** ** the literal *)
Lemma trim_right_free c s : free_of c s = true -> trim_right c s = s.
Proof.
  induction s as [|a s IH]; intros H; [done|]. cbn [free_of] in H. apply andb_true_iff in H as [Ha%negb_true_iff%bool_decide_eq_false H]. cbn [trim_right]. rewrite IH by done.
  destruct s; [by rewrite decide_False|done].
Qed.
Lemma trim_right_snoc c s : trim_right c (s +:+ String c "") = trim_right c s.
Proof.
  induction s as [|a s IH]; [change ("" +:+ String c "") with (String c ""); cbn [trim_right]; by rewrite decide_True|]. change (String a s +:+ String c "") with (String a (s +:+ String c "")). cbn [trim_right]. by rewrite IH.
Qed.
Lemma without_free c cs s : c ∈ cs -> without cs s = true -> free_of c s = true.
Proof.
  unfold without. intros Hc. induction s as [|a s IH]; [done|]. cbn [str_all free_of]. intros [Ha Hs]%andb_true_iff. rewrite IH by done. rewrite andb_true_r.
  apply negb_true_iff, bool_decide_eq_false in Ha. apply negb_true_iff, bool_decide_eq_false. by intros ->.
Qed.
Lemma trim_literal dt desc json req ty : desc_ok dt desc = true -> raw_text json = true -> trim "`" ("`" +:+ tag_of dt desc json req ty +:+ "`") = tag_of dt desc json req ty.
Proof.
  intros Hd Hj. assert (H := raw_tag dt desc json req ty Hd Hj). revert H. rewrite tag_of_eq.
  generalize (String dquote ((json +:+ json_option req ty) +:+ String dquote (if dt && bool_decide (desc <> "") then " description:" +:+ String dquote (first_line desc +:+ String dquote "") else ""))).
  intros x H. change (trim "`" ("`" +:+ ("json:" +:+ x) +:+ "`")) with (trim_right "`" (("json:" +:+ x) +:+ "`")). rewrite trim_right_snoc. apply trim_right_free.
  eapply without_free; [|exact H]. left.
Qed.
Lemma raw_quotable s : quotable s = true -> raw_text s = true.
Proof.
  unfold quotable, raw_text, without. induction s as [|a s IH]; [done|]. cbn [str_all]. intros [Ha Hs]%andb_true_iff. rewrite IH by done. rewrite andb_true_r.
  apply negb_true_iff, bool_decide_eq_false in Ha. apply negb_true_iff, bool_decide_eq_false. revert Ha. rewrite !elem_of_cons. tauto.
Qed.
(** ** fields as the Avro generator sees them *)
Definition texpr_of (dt : bool) (t : gtype) : texpr := to_texpr o_unquote (src_type dt t).
Definition afields_of (dt : bool) (ds : list gdecl) : list afield := map (to_afield o_unquote) (flat_map (src_field dt) ds).
Lemma read_field dt desc go json req ty : desc_ok dt desc = true -> quotable json = true -> (dt = true -> quotable (first_line desc) = true) ->
  map (to_afield o_unquote) (src_field dt (GDecl desc go json req (Some ty))) = [AField [go] (texpr_of dt ty) (json +:+ json_option req ty) (read_desc dt desc)].
Proof.
  intros Hd Hj Hq. rewrite src_some. cbn [map]. cbv delta [to_afield] beta iota. cbv zeta. fold to_texpr. 
  rewrite trim_literal by (done || by apply raw_quotable). rewrite get_json, get_desc by done. done.
Qed.
End tags.

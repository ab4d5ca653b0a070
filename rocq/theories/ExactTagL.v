(** Which descriptions are read back from tags. *)
From stdpp Require Import strings list gmap.
From Coq Require Import Ascii ZArith Lia.
From Verif Require Import GoStr GoStrL Val Conv Schema Inst SpecGen SpecNamed Gen Avro GoSrc SpecAvro AvroL AvroMapL SpecGo GoSrcL GoSrcP GoSrcQ GoSrcA GoSrcC CutTagL.

Lemma tag_value_cut n : forall s acc v rest, String.length s <= n -> tag_value s acc = Some (v, rest) -> exists u, v = acc +:+ u /\ s = u +:+ String dquote rest.
Proof.
  induction n as [|n IH]; intros s acc v rest Hn H; (destruct s as [|c s]; [done|]); cbn [String.length] in Hn; [lia|]. cbn [tag_value] in H.
  destruct (decide (c = dquote)) as [->|Hq]. { injection H as <- <-. exists "". by rewrite sapp_nil_r. }
  destruct (decide (c = backslash)) as [->|Hb].
  - destruct s as [|c' s]; [done|]. cbn [String.length] in Hn. apply IH in H as (u & -> & ->); [|lia].
    exists (String backslash (String c' u)). split; [|done]. by rewrite <- app_assoc_s.
  - apply IH in H as (u & -> & ->); [|lia]. exists (String c u). split; [|done]. by rewrite <- app_assoc_s.
Qed.
Lemma unquote_go_shrinks n : forall s t, String.length s <= n -> unquote_go s = Some t ->
  String.length t <= String.length s /\ (String.length t = String.length s -> free_of backslash s = true /\ free_of dquote s = true).
Proof.
  induction n as [|n IH]; intros s t Hn H; (destruct s as [|c s]; [injection H as <-; done|]); cbn [String.length] in Hn; [lia|]. cbn [unquote_go] in H.
  destruct (decide (c = newline_char \/ c = dquote)) as [|Hq]; [done|]. destruct (decide (c = backslash)) as [->|Hb].
  - destruct s as [|c' s]; [done|]. destruct (unescape c'); [|done]. destruct (unquote_go s) as [r|] eqn:E; [|done]. injection H as <-.
    cbn [String.length] in *. destruct (IH s r) as [H1 _]; [lia|done|]. split; [lia|]. lia.
  - destruct (unquote_go s) as [r|] eqn:E; [|done]. injection H as <-. destruct (IH s r) as [H1 H2]; [lia|done|]. cbn [String.length]. split; [lia|].
    intros Hl. destruct H2 as [H2 H3]; [lia|]. cbn [free_of]. rewrite H2, H3, !bool_decide_eq_false_2 by tauto. done.
Qed.
Lemma cancel_len u v w : u +:+ v = w -> String.length u = String.length w -> u = w.
Proof.
  intros <- H. rewrite app_length_s in H. destruct v; [by rewrite sapp_nil_r|]. cbn in H. lia.
Qed.
Lemma snoc_cut u rest w : u +:+ String dquote rest = w +:+ String dquote "" -> exists v, w = u +:+ v.
Proof.
  revert w. induction u as [|a u IH]; intros w H; [by exists w|]. change (String a u +:+ String dquote rest) with (String a (u +:+ String dquote rest)) in H.
  destruct w as [|b w].
  - change ("" +:+ String dquote "") with (String dquote "") in H. injection H as _ H. by destruct u.
  - change (String b w +:+ String dquote "") with (String b (w +:+ String dquote "")) in H. injection H as <- H. destruct (IH _ H) as [v ->]. by exists v.
Qed.
Lemma lookup_desc_any o_unquote n rest : tag_lookup o_unquote (S n) (" description:" +:+ String dquote rest) "description" =
  match tag_value rest "" with Some (v, _) => default "" (unquote o_unquote v) | None => "" end.
Proof. reflexivity. Qed.
Lemma desc_only o_unquote desc json req ty : quotable json = true -> raw_text (first_line desc) = true ->
  (forall u v t, first_line desc = u +:+ v -> o_unquote u = Some t -> String.length t < String.length u) ->
  tag_get o_unquote (tag_of true desc json req ty) "description" = first_line desc -> quotable (first_line desc) = true.
Proof.
  intros Hj Hr Ho. rewrite tag_of_eq. unfold GoSrc.tag_get. rewrite lookup_desc by (by rewrite quotable_app, Hj, option_quotable). cbn [andb].
  destruct (decide (desc = "")) as [->|Hne]; [done|]. rewrite bool_decide_eq_true_2 by done.
  change (String.length ("json:" +:+ ?x)) with (S (String.length ("son:" +:+ x))). rewrite lookup_desc_any.
  pose proof (first_line_flat desc) as Hn. revert Hr Ho Hn. generalize (first_line desc). intros fl Hr Ho Hn. clear Hne.
  destruct (tag_value (fl +:+ String dquote "") "") as [[v rest]|] eqn:E; [|by intros <-].
  apply (tag_value_cut _ _ _ _ _ (le_n _)) in E as (u & -> & E). change ("" +:+ u) with u. symmetry in E. apply snoc_cut in E as [w Hw].
  assert (Hlen : String.length u <= String.length fl) by (rewrite Hw, app_length_s; lia).
  unfold unquote. destruct (numeric_escape u).
  - destruct (o_unquote u) as [t|] eqn:Eu; [|by intros <-]. intros Ht. change (t = fl) in Ht. subst t. specialize (Ho _ _ _ Hw Eu). lia.
  - destruct (unquote_go u) as [t|] eqn:Eu; [|by intros <-]. intros Ht. change (t = fl) in Ht. subst t.
    destruct (unquote_go_shrinks _ _ _ (le_n _) Eu) as [H1 H2]. destruct H2 as [Hb Hq]; [lia|].
    assert (u = fl) as -> by (eapply cancel_len; [symmetry; exact Hw|lia]). by apply quotable_all.
Qed.
Lemma tag_iff o_unquote A desc go json req ty lit : a_descTag A = true -> desc_ok true desc = true -> quotable json = true ->
  (forall u v t, first_line desc = u +:+ v -> o_unquote u = Some t -> String.length t < String.length u) ->
  src_field (a_descTag A) (GDecl desc go json req (Some ty)) = [RField [go] (src_type (a_descTag A) ty) (Some lit)] ->
  reads_back o_unquote lit (json +:+ json_option req ty) (first_line desc) <-> quotable (first_line desc) = true.
Proof.
  intros HA Hd Hj Ho Hs. rewrite HA, src_some in Hs. injection Hs as Hs. assert (lit = "`" +:+ tag_of true desc json req ty +:+ "`") as -> by (symmetry; exact Hs).
  clear Hs. unfold reads_back. rewrite trim_literal by (done || by apply raw_quotable). rewrite get_json by done. split.
  - intros [_ H]. by eapply desc_only.
  - intros Hq. split; [done|]. by rewrite get_desc.
Qed.

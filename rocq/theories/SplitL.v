(** What a split yields: leftmost separators, and characters. *)
From stdpp Require Import strings list gmap.
From Coq Require Import Ascii NArith Lia.
From Verif Require Import GoStr GoStrL Val Conv Instr SpecOps SpecText.

Lemma str_len_app (a b : string) : String.length (a +:+ b) = String.length a + String.length b.
Proof. induction a as [|c a IH]; [done|]. rewrite sapp_cons. cbn. by rewrite IH. Qed.
(** a text that is longer at the end begins earlier *)
Lemma starts_within p sep a b : p +:+ sep = a +:+ sep +:+ b -> b <> "" -> exists c, p = a +:+ c /\ c <> "".
Proof.
  intros H Hb. revert p H. induction a as [|x a IH]; intros p H.
  - exists p. split; [done|]. intros ->. rewrite !sapp_nil_l in H. assert (Hl : String.length sep = String.length (sep +:+ b)) by (by rewrite <- H). rewrite str_len_app in Hl. destruct b; [done|]. cbn in Hl. lia.
  - destruct p as [|y p].
    + exfalso. rewrite sapp_nil_l in H. assert (Hl : String.length sep = String.length (String x a +:+ sep +:+ b)) by (by rewrite <- H). rewrite !str_len_app in Hl. cbn in Hl. lia.
    + rewrite !sapp_cons in H. injection H as -> H. destruct (IH _ H) as (c & -> & Hc). exists c. by rewrite sapp_cons.
Qed.
Lemma app_cancel (a b c : string) : a +:+ b = a +:+ c -> b = c.
Proof. induction a as [|x a IH]; [done|]. rewrite !sapp_cons. intros [= H]. by apply IH. Qed.
Lemma nostart_end sep p t : nostart sep p (sep +:+ t) -> first_at_end sep p.
Proof.
  intros Hn a b H. destruct (decide (b = "")) as [|N]; [done|]. exfalso. destruct (starts_within _ _ _ _ H N) as (c & -> & Hc).
  rewrite <- app_assoc_s in H. apply app_cancel in H. specialize (Hn a c eq_refl Hc).
  rewrite app_assoc_s, H, <- app_assoc_s, has_prefix_app in Hn. done.
Qed.
Lemma removelast_cons {A} (x : A) l : l <> [] -> removelast (x :: l) = x :: removelast l.
Proof. by destruct l. Qed.
Lemma split_go_leftmost sep s k cur : sep <> "" -> nostart sep cur (drop_str k s) -> (k = 0%nat \/ cur = "") ->
  Forall (first_at_end sep) (removelast (split_go sep s k cur)).
Proof.
  intros Hsep. revert k cur. induction s as [|a s IH]; intros k cur Hn Hk; cbn [split_go].
  - constructor.
  - destruct k as [|k].
    + destruct (has_prefix sep (String a s)) eqn:Hp.
      * rewrite removelast_cons by apply split_go_ne. constructor; [|apply IH; [apply nostart_nil|by right]].
        apply has_prefix_spec in Hp as [t Ht]. cbn [drop_str] in Hn. rewrite Ht in Hn. by eapply nostart_end.
      * apply IH; [|by left]. replace (drop_str 0 s) with s by by destruct s. by apply nostart_snoc.
    + destruct Hk as [?| ->]; [lia|]. apply IH; [apply nostart_nil|by right].
Qed.
Lemma split_leftmost s sep : sep <> "" -> Forall (first_at_end sep) (removelast (split s sep)).
Proof. intros H. unfold split. rewrite decide_False by done. apply split_go_leftmost; [done|apply nostart_nil|by left]. Qed.

(** ** characters *)
Lemma cont_true a : continues a -> is_cont a = true.
Proof. unfold continues, is_cont. intros [H1 H2]. apply andb_true_intro. split; [by apply N.leb_le|by apply N.ltb_lt]. Qed.
Definition opt_cur (cur : string) : list string := if decide (cur = "") then [] else [cur].
Lemma explode_char c s cur : character c -> explode (c +:+ s) 0 cur = opt_cur cur ++ explode s 0 c.
Proof.
  intros H. destruct H as [a H|a b H Hb|a b c H Hb Hc|a b c d H Hb Hc Hd]; rewrite !sapp_cons, sapp_nil_l; cbn [explode]; unfold utf8_width; f_equal; repeat match goal with H : continues _ |- _ => apply cont_true in H end.
  - rewrite (proj2 (N.ltb_lt _ 192)) by lia. done.
  - rewrite (proj2 (N.ltb_ge _ 192)) by lia. rewrite Hb. rewrite (proj2 (N.ltb_lt _ 224)) by lia. done.
  - rewrite (proj2 (N.ltb_ge _ 192)) by lia. rewrite Hb. rewrite (proj2 (N.ltb_ge _ 224)) by lia. rewrite Hc. rewrite (proj2 (N.ltb_lt _ 240)) by lia. done.
  - rewrite (proj2 (N.ltb_ge _ 192)) by lia. rewrite Hb. rewrite (proj2 (N.ltb_ge _ 224)) by lia. rewrite Hc. rewrite (proj2 (N.ltb_ge _ 240)) by lia. rewrite Hd. rewrite (proj2 (N.ltb_lt _ 248)) by lia. done.
Qed.
Lemma char_ne c : character c -> c <> "".
Proof. by destruct 1. Qed.
Lemma join_nil_cons x l : join "" (x :: l) = x +:+ join "" l.
Proof. destruct l as [|y l]; [cbn; by rewrite sapp_nil_r|]. done. Qed.
Lemma explode_chars chars cur : Forall character chars -> explode (join "" chars) 0 cur = opt_cur cur ++ chars.
Proof.
  intros HF. revert cur. induction HF as [|c chars Hc HF IH]; intros cur; [cbn; by rewrite app_nil_r|].
  rewrite join_nil_cons, explode_char, IH by done. unfold opt_cur at 2. rewrite decide_False by (by apply char_ne). done.
Qed.
Lemma split_chars chars : Forall character chars -> split (join "" chars) "" = chars.
Proof. intros H. unfold split. rewrite decide_True by done. by rewrite explode_chars. Qed.

Lemma op_split_chars W V (view : V -> vw V) args raw chars : args !! "on" = Some "" -> Forall character chars -> holds_string view raw (join "" chars) ->
  op_run W view (OpSplit args) raw = Ok (GL ((fun p => GS (SStr p)) <$> chars)).
Proof.
  unfold holds_string. intros Es HF E. cbn [op_run]. unfold op_split, arg. rewrite E, Es. change (default "" (Some "")) with "".
  destruct chars as [|c chars]; [done|]. destruct (decide (join "" (c :: chars) = "")) as [N|N].
  - exfalso. rewrite join_nil_cons in N. apply app_inv_nil in N as [N _]. apply Forall_cons in HF as [HF _]. by apply char_ne in HF.
  - by rewrite split_chars.
Qed.
Lemma op_split_leftmost W V (view : V -> vw V) args sep raw s : args !! "on" = Some sep -> sep <> "" -> holds_string view raw s ->
  exists pieces, op_run W view (OpSplit args) raw = Ok (GL ((fun p => GS (SStr p)) <$> pieces)) /\ Forall (first_at_end sep) (removelast pieces).
Proof.
  unfold holds_string. intros Es Hsep E. cbn [op_run]. unfold op_split, arg. rewrite E, Es. change (default "" (Some sep)) with sep.
  destruct (decide (s = "")) as [->|N]; [exists []; split; [done|constructor]|]. exists (split s sep). split; [done|]. by apply split_leftmost.
Qed.

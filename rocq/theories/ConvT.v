(** Lemmas: conversions, operations and entries yield what they should. *)
From stdpp Require Import strings list gmap.
From Coq Require Import Ascii Floats.SpecFloat ZArith Lia.
From Verif Require Import GoStr GoStrL Val Conv Instr SpecOps OpsThm ConvL SpecConv.

Lemma dec_value_digits' s : forall acc z, dec_value acc s = Some z -> digits s.
Proof.
  induction s as [|a s IH]; intros acc z; [constructor|]. cbn [dec_value]. destruct (is_digit a) eqn:Ea; [|done].
  intros E. constructor; [|by eapply IH]. unfold is_digit in Ea. apply andb_true_iff in Ea. rewrite !N.leb_le in Ea. unfold nat_of_ascii. lia.
Qed.
Lemma atoi_digits_iff neg s z : atoi_digits neg s = Some z <-> s <> "" /\ digits s /\ z = (if neg then - number s else number s)%Z /\ fits z.
Proof.
  unfold atoi_digits. destruct s as [|a s]; [split; [done|by intros (? & _)]|]. split.
  - destruct (dec_value 0 (String a s)) as [v|] eqn:E; [|done]. assert (D := dec_value_digits' _ _ _ E). rewrite number_dec in E by done.
    injection E as <-. destruct (int_range _) eqn:R; [|done]. intros [= <-]. apply fits_range in R. split_and!; done.
  - intros (_ & D & -> & F). rewrite number_dec by done. apply fits_range in F. unfold number in *. by rewrite F.
Qed.
Lemma digits_sign a s : digits (String a s) -> a <> "-"%char /\ a <> "+"%char.
Proof. intros H. inversion H as [|? ? Ha _]; subst. split; intros ->; cbv in Ha; lia. Qed.
Lemma atoi_iff s z : atoi s = Some z <-> decimal s z /\ fits z.
Proof.
  assert (Hm : forall d, atoi ("-" +:+ d) = atoi_digits true d) by done.
  assert (Hp : forall d, atoi ("+" +:+ d) = atoi_digits false d) by done.
  assert (Hd : forall d, digits d -> d <> "" -> atoi d = atoi_digits false d).
  { intros [|a d] D N; [done|]. apply digits_sign in D as [D1 D2]. destruct a as [[] [] [] [] [] [] [] []]; try done; by destruct D1 || destruct D2. }
  split.
  - intros E. destruct s as [|a s]; [done|].
    destruct (decide (a = "-"%char)) as [->|N1].
    { change (String "-" s) with ("-" +:+ s) in *. rewrite Hm in E. apply atoi_digits_iff in E as (N & D & -> & F). split; [|done]. by apply decimal_minus. }
    destruct (decide (a = "+"%char)) as [->|N2].
    { change (String "+" s) with ("+" +:+ s) in *. rewrite Hp in E. apply atoi_digits_iff in E as (N & D & -> & F). split; [|done]. by apply decimal_plus. }
    assert (E' : atoi (String a s) = atoi_digits false (String a s)).
    { clear -N1 N2. destruct a as [[] [] [] [] [] [] [] []]; try done; by destruct N1 || destruct N2. }
    rewrite E' in E. apply atoi_digits_iff in E as (N & D & -> & F). split; [|done]. by apply decimal_plain.
  - intros [D F]. destruct D as [d D N|d D N|d D N].
    + rewrite Hd by done. by apply atoi_digits_iff.
    + rewrite Hp by done. by apply atoi_digits_iff.
    + rewrite Hm by done. by apply atoi_digits_iff.
Qed.
Lemma atoi_none s : atoi s = None <-> forall z, decimal s z -> ~ fits z.
Proof.
  split.
  - intros E z D F. assert (H : atoi s = Some z) by (by apply atoi_iff). congruence.
  - intros H. destruct (atoi s) as [z|] eqn:E; [|done]. apply atoi_iff in E as [D F]. by destruct (H z D).
Qed.
Lemma parse_bool_true s : parse_bool s = Some true <-> s ∈ true_words.
Proof.
  unfold parse_bool, true_words. destruct (bool_decide_reflect (s ∈ ["1"; "t"; "T"; "TRUE"; "true"; "True"])) as [H|H].
  - split; [intros _|done]. set_solver.
  - case_match; split; try done; intros H1; destruct H; set_solver.
Qed.
Lemma parse_bool_false s : parse_bool s = Some false <-> s ∈ false_words.
Proof.
  unfold parse_bool, false_words. destruct (bool_decide_reflect (s ∈ ["1"; "t"; "T"; "TRUE"; "true"; "True"])) as [H|H].
  - split; [done|]. intros H1. exfalso. repeat (apply elem_of_cons in H as [->|H]; [repeat (apply elem_of_cons in H1 as [H1|H1]; [discriminate H1|]); by apply elem_of_nil in H1|]). by apply elem_of_nil in H.
  - destruct (bool_decide_reflect (s ∈ ["0"; "f"; "F"; "FALSE"; "false"; "False"])) as [H1|H1]; split; try done.
    + intros _. set_solver.
    + intros H2. destruct H1. set_solver.
Qed.
Lemma f_trunc_iff f z : f_trunc f = Some z <-> integer_part f z.
Proof.
  destruct f as [b|b| |b m e]; cbn [f_trunc integer_part]; try (split; [done|done]).
  - split; [by intros [= <-]|by intros ->].
  - set (a := if (0 <=? e)%Z then (Z.pos m * 2 ^ e)%Z else (Z.pos m / 2 ^ (- e))%Z).
    assert (K : (0 <= a)%Z /\ (a * 2 ^ Z.max 0 (- e) <= Z.pos m * 2 ^ Z.max 0 e < (a + 1) * 2 ^ Z.max 0 (- e))%Z).
    { unfold a. destruct (Z.leb_spec 0 e) as [He|He].
      - rewrite (Z.max_l 0 (- e)), (Z.max_r 0 e) by lia. change (2 ^ 0)%Z with 1%Z. assert (0 < 2 ^ e)%Z by (apply Z.pow_pos_nonneg; lia). lia.
      - rewrite (Z.max_r 0 (- e)), (Z.max_l 0 e) by lia. change (2 ^ 0)%Z with 1%Z. assert (P : (0 < 2 ^ (- e))%Z) by (apply Z.pow_pos_nonneg; lia).
        assert (Z.pos m / 2 ^ (- e) >= 0)%Z by (apply Z_div_ge0; lia).
        assert (D := Z.div_mod (Z.pos m) (2 ^ (- e)) ltac:(lia)). assert (B := Z.mod_pos_bound (Z.pos m) (2 ^ (- e)) P). lia. }
    split.
    + intros [= <-]. exists a. split; [done|]. apply K.
    + intros (a' & -> & H0 & H1). destruct K as [K0 K1]. assert (a' = a) as ->; [|done].
      assert (P : (0 < 2 ^ Z.max 0 (- e))%Z) by (apply Z.pow_pos_nonneg; lia). nia.
Qed.
Lemma f2i_cases W f : (exists z, integer_part f z /\ fits z /\ f2i W f = z) \/ ((forall z, integer_part f z -> ~ fits z) /\ f2i W f = o_f2i W f).
Proof.
  unfold f2i. destruct (f_trunc f) as [z|] eqn:E.
  - destruct (int_range z) eqn:R; [left|right]; apply f_trunc_iff in E.
    + exists z. apply fits_range in R. done.
    + split; [|done]. intros z' Hz' F. apply f_trunc_iff in E, Hz'. rewrite E in Hz'. injection Hz' as ->. apply fits_range in F. congruence.
  - right. split; [|done]. intros z Hz. apply f_trunc_iff in Hz. congruence.
Qed.
Lemma t_zero_iff t : t_zero t = true <-> no_time t.
Proof. unfold t_zero, no_time. by rewrite andb_true_iff, !bool_decide_eq_true. Qed.

Section conv.
Context (W : oracles) {V : Type} (view : V -> vw V).
Notation G := (gval V).
Notation gv := (gview view).

(** the outcome of a conversion *)
Definition outcome (r : G * bool) (o : option scal) : Prop :=
  match o with Some s => r.2 = false /\ gv r.1 = WS s | None => r.2 = true end.

Lemma boolean_leaf x s : gv x = WS s -> exists r, converted W "boolean" s r /\ outcome (convert_boolean view x) r.
Proof.
  intros E. unfold convert_boolean. rewrite E. destruct s as [|b|z|z|f|s|t].
  - eexists. split; [apply bool_null|]. done.
  - eexists. split; [apply bool_bool|]. done.
  - destruct (Z.ltb_spec 0 z); eexists; (split; [by constructor|done]).
  - eexists. split; [apply bool_long|]. done.
  - destruct (f_gtb f f_zero) eqn:F; eexists.
    + split; [by apply bool_float_pos|done].
    + split; [apply bool_float|done]. unfold float_gt. unfold f_gtb in F. unfold zero_float. unfold f_zero in F. by rewrite F.
  - destruct (decide (s = "")) as [->|N]; [eexists; split; [apply bool_empty|done]|].
    destruct (parse_bool s) as [[]|] eqn:P.
    + eexists. split; [apply bool_true; by apply parse_bool_true|done].
    + eexists. split; [apply bool_false; by apply parse_bool_false|done].
    + eexists. split; [apply bool_bad; [done|..]; intros H|done]; [apply parse_bool_true in H|apply parse_bool_false in H]; congruence.
  - eexists. split; [apply bool_time|]. done.
Qed.
Lemma number_leaf jt x s : jt ∈ ["number"; "integer"] -> gv x = WS s -> exists r, converted W jt s r /\ outcome (convert_number W view x) r.
Proof.
  intros J E. unfold convert_number. rewrite E. destruct s as [|b|z|z|f|s|t].
  - eexists. split; [by apply num_null|]. done.
  - destruct b; eexists; (split; [by apply num_true || by apply num_false|]); done.
  - eexists. split; [by apply num_int|]. done.
  - eexists. split; [by apply num_long|]. done.
  - eexists. split; [by apply num_num|]. done.
  - destruct (decide (s = "")) as [->|N]; [eexists; split; [by apply num_empty|done]|].
    destruct (atoi s) as [z|] eqn:P.
    + apply atoi_iff in P as [P1 P2]. eexists. split; [by apply num_decimal|done].
    + assert (P' := proj1 (atoi_none s) P). destruct (o_parse_float W s) as [f|] eqn:Pf.
      * eexists. split; [by apply num_float|]. done.
      * eexists. split; [by apply num_bad|]. done.
  - eexists. split; [by apply num_time|]. done.
Qed.
Lemma string_leaf x s : gv x = WS s -> exists r, converted W "string" s r /\ outcome (convert_string W view x) r.
Proof.
  intros E. unfold convert_string. rewrite E. destruct s as [|b|z|z|f|s|t].
  - eexists. split; [apply str_null|]. done.
  - destruct b; eexists; (split; [apply str_true || apply str_false|]); done.
  - eexists. split; [apply str_int|]. done.
  - eexists. split; [apply str_long|]. done.
  - eexists. split; [apply str_float|]. done.
  - eexists. split; [apply str_str|]. done.
  - eexists. split; [apply str_time|]. done.
Qed.
Lemma time_leaf x s : gv x = WS s -> exists r, converted W "date-time" s r /\ outcome (convert_datetime W view x) r.
Proof.
  intros E. unfold convert_datetime. rewrite E. destruct s as [|b|z|z|f|s|t].
  - eexists. split; [apply time_null|]. done.
  - eexists. split; [apply time_bool|]. done.
  - eexists. split; [apply time_int|]. done.
  - eexists. split; [apply time_long|]. done.
  - destruct (f2i_cases W f) as [(z & H1 & H2 & ->)|[H1 ->]].
    + eexists. split; [by apply time_float|]. done.
    + eexists. split; [by apply time_float_large|]. done.
  - destruct (decide (s = "")) as [->|N]; [eexists; split; [apply time_empty|done]|].
    destruct (o_parse_time W rfc3339 s) as [t|] eqn:P.
    + destruct (t_zero t) eqn:Z.
      * eexists. split; [eapply time_none; [done|exact P|by apply t_zero_iff]|done].
      * eexists. split; [eapply time_str; [done|exact P|]|done]. rewrite <- t_zero_iff. by rewrite Z.
    + eexists. split; [by apply time_bad|]. done.
  - eexists. split; [apply time_time|]. done.
Qed.
Lemma scalar_leaf jt x s : jt ∈ scalar_types -> gv x = WS s -> exists r, converted W jt s r /\ outcome (convert_leaf W view jt x) r.
Proof.
  intros J E. unfold convert_leaf.
  destruct (decide (jt = "boolean")) as [->|N1]; [by apply boolean_leaf|].
  destruct (decide (jt = "number" \/ jt = "integer")) as [H|N2]; [apply number_leaf; [destruct H as [->| ->]; set_solver|done]|].
  destruct (decide (jt = "string")) as [->|N3]; [by apply string_leaf|].
  destruct (decide (jt = "date-time")) as [->|N4]; [by apply time_leaf|].
  exfalso. unfold scalar_types in J. set_solver.
Qed.
Lemma other_leaf jt x : jt ∈ scalar_types -> (forall s, gv x <> WS s) -> outcome (convert_leaf W view jt x) None.
Proof.
  intros J E. unfold convert_leaf.
  destruct (decide (jt = "boolean")) as [->|N1]; [unfold convert_boolean; destruct (gv x) eqn:Ex; try done; by destruct (E s)|].
  destruct (decide (jt = "number" \/ jt = "integer")) as [H|N2]; [unfold convert_number; destruct (gv x) eqn:Ex; try done; by destruct (E s)|].
  destruct (decide (jt = "string")) as [->|N3]; [unfold convert_string; destruct (gv x) eqn:Ex; try done; by destruct (E s)|].
  destruct (decide (jt = "date-time")) as [->|N4]; [unfold convert_datetime; destruct (gv x) eqn:Ex; try done; by destruct (E s)|].
  exfalso. unfold scalar_types in J. set_solver.
Qed.
Lemma convert_go_sound n jt raw r : jt ∈ scalar_types -> convert_go W view n jt raw = Some r -> exists o, converts W view jt raw o /\ outcome r o.
Proof.
  intros J. assert (Ja : jt <> "array") by (intros ->; unfold scalar_types in J; set_solver).
  revert raw. induction n as [|n IH]; intros raw; [done|]. cbn [convert_go]. unfold is_nil.
  destruct (gv raw) as [s|l|m|k|k] eqn:E.
  - assert (Hs : s = SNil \/ s <> SNil) by (destruct s; [by left|by right..]). destruct Hs as [->|N].
    + intros [= <-]. exists (Some SNil). split; [by apply conv_null|done].
    + assert (H : Some (convert_leaf W view jt raw) = Some r -> exists o, converts W view jt raw o /\ outcome r o).
      { intros [= <-]. destruct (scalar_leaf jt raw s J E) as (o & H1 & H2). exists o. split; [|done]. by eapply conv_scalar. }
      destruct s; try done.
  - destruct l as [|x l].
    { intros [= <-]. exists (Some SNil). split; [by apply conv_empty|done]. }
    rewrite (bool_decide_eq_true_2 (jt <> "array")) by done. rewrite orb_true_r.
    destruct (gv x) as [s|[|y l']|m|k|k] eqn:Ex.
    + intros [= <-]. destruct (scalar_leaf jt x s J Ex) as (o & H1 & H2). exists o. split; [|done]. by eapply conv_item.
    + intros [= <-]. exists None. split; [eapply conv_item_other; [exact E|]|apply other_leaf; [done|]]; [split|]; by rewrite Ex.
    + intros H. destruct (IH _ H) as (o & H1 & H2). exists o. split; [|done]. by eapply conv_nested.
    + intros [= <-]. exists None. split; [eapply conv_item_other; [exact E|]|apply other_leaf; [done|]]; [split|]; by rewrite Ex.
    + intros [= <-]. exists None. split; [eapply conv_item_other; [exact E|]|apply other_leaf; [done|]]; [split|]; by rewrite Ex.
    + intros [= <-]. exists None. split; [eapply conv_item_other; [exact E|]|apply other_leaf; [done|]]; [split|]; by rewrite Ex.
  - intros [= <-]. exists None. split; [eapply conv_other|apply other_leaf; [done|]]; [split|..]; by rewrite E.
  - intros [= <-]. exists None. split; [eapply conv_other|apply other_leaf; [done|]]; [split|..]; by rewrite E.
  - intros [= <-]. exists None. split; [eapply conv_other|apply other_leaf; [done|]]; [split|..]; by rewrite E.
Qed.
Lemma plain_leaf jt x : jt ∉ scalar_types -> convert_leaf W view jt x = (x, false).
Proof.
  intros J. unfold convert_leaf. unfold scalar_types in J. rewrite !decide_False; [done|..]; intros H; apply J; [|..]; try (rewrite H; set_solver).
  destruct H as [->| ->]; set_solver.
Qed.
Lemma convert_taken n jt raw r : jt ∉ scalar_types -> convert_go W view n jt raw = Some r ->
  exists o, taken view jt raw o /\ r = (default (GS SNil) o, false).
Proof.
  intros J. revert raw. induction n as [|n IH]; intros raw; [done|]. cbn [convert_go]. unfold is_nil.
  destruct (gv raw) as [s|l|m|k|k] eqn:E.
  - assert (Hs : s = SNil \/ s <> SNil) by (destruct s; [by left|by right..]). destruct Hs as [->|N].
    { intros [= <-]. exists None. split; [by apply taken_null|done]. }
    assert (H : Some (convert_leaf W view jt raw) = Some r -> exists o, taken view jt raw o /\ r = (default (GS SNil) o, false)).
    { rewrite plain_leaf by done. intros [= <-]. exists (Some raw). split; [|done]. apply taken_plain; rewrite E; congruence. }
    destruct s; done.
  - destruct l as [|x l].
    { intros [= <-]. exists None. split; [by apply taken_empty|done]. }
    destruct (bool_decide (l = []) || bool_decide (jt <> "array")) eqn:B.
    + assert (B' : l = [] \/ jt <> "array") by (apply orb_true_iff in B; rewrite !bool_decide_eq_true in B; done).
      destruct (gv x) as [s|[|y l']|m|k|k] eqn:Ex;
        try (rewrite plain_leaf by done; intros [= <-]; exists (Some x); split; [|done]; eapply taken_item; [exact E|done|by rewrite Ex]).
      intros H. apply IH in H as (o & H1 & H2). exists o. split; [|done]. by eapply taken_nested.
    + apply orb_false_iff in B as [B1 B2]. rewrite bool_decide_eq_false in B1, B2.
      rewrite plain_leaf by done. intros [= <-]. exists (Some raw). split; [|done]. eapply taken_whole; [exact E|destruct l; cbn; [done|lia]|].
      destruct (decide (jt = "array")) as [|Nj]; [done|]. by destruct B2.
  - rewrite plain_leaf by done. intros [= <-]. exists (Some raw). split; [|done]. by apply taken_plain; rewrite E.
  - rewrite plain_leaf by done. intros [= <-]. exists (Some raw). split; [|done]. by apply taken_plain; rewrite E.
  - rewrite plain_leaf by done. intros [= <-]. exists (Some raw). split; [|done]. by apply taken_plain; rewrite E.
Qed.
Lemma shallow_convert n jt raw : shallow view n raw -> exists r, convert_go W view n jt raw = Some r.
Proof.
  revert raw. induction n as [|n IH]; intros raw; [done|]. cbn [shallow convert_go]. intros H.
  destruct (is_nil view raw); [eauto|]. destruct (gv raw) as [s|[|x l]|m|k|k] eqn:E; eauto.
  destruct (_ || _); eauto. destruct (gv x) as [s|[|y l']|m|k|k] eqn:Ex; eauto.
Qed.

(** the relations are functions *)
Lemma no_decimal_empty z : ~ decimal "" z.
Proof. intros H. inversion H; subst; done. Qed.
Lemma decimal_fun s z1 z2 : decimal s z1 -> fits z1 -> decimal s z2 -> fits z2 -> z1 = z2.
Proof. intros H1 F1 H2 F2. assert (E1 : atoi s = Some z1) by (by apply atoi_iff). assert (E2 : atoi s = Some z2) by (by apply atoi_iff). congruence. Qed.
Lemma converted_fun jt s r1 r2 : converted W jt s r1 -> converted W jt s r2 -> r1 = r2.
Proof.
  assert (TF : forall s, s ∈ true_words -> s ∈ false_words -> False).
  { intros w H1 H2. apply parse_bool_true in H1. apply parse_bool_false in H2. congruence. }
  assert (TE : "" ∉ true_words) by (unfold true_words; set_solver). assert (FE : "" ∉ false_words) by (unfold false_words; set_solver).
  assert (NB : "boolean" ∉ ["number"; "integer"]) by set_solver. assert (NS : "string" ∉ ["number"; "integer"]) by set_solver.
  assert (ND : "date-time" ∉ ["number"; "integer"]) by set_solver.
  assert (DE := no_decimal_empty).
  intros H1 H2. destruct H1; inversion H2; subst; try done; try (exfalso; by eauto); try lia; try congruence.
  all: try (exfalso; match goal with A : decimal ?s ?z, B : fits ?z, C : forall z, decimal ?s z -> ~ fits z |- _ => exact (C z A B) end).
  all: try (exfalso; match goal with A : integer_part ?f ?z, B : fits ?z, C : forall z, integer_part ?f z -> ~ fits z |- _ => exact (C z A B) end).
  all: try match goal with A : integer_part ?f ?z, B : integer_part ?f ?y |- Some (STime (GTime ?z _ _)) = Some (STime (GTime ?y _ _)) => apply f_trunc_iff in A, B; assert (z = y) by congruence; by subst end.
  all: try (exfalso; by eapply DE).
  f_equal. f_equal. by eapply decimal_fun.
Qed.
Lemma converts_fun jt g r1 r2 : converts W view jt g r1 -> converts W view jt g r2 -> r1 = r2.
Proof.
  intros H. revert r2. induction H as [g E|g s r E N C|g E|g x l s r E Ex C|g x l E [O1 O2]|g x l y l' r E Ex H IH|g [O1 O2] N]; intros r2 H2;
  destruct H2 as [? E'|? s' r' E' N' C'|? E'|? x' l0 s' r' E' Ex' C'|? x' l0 E' [O1' O2']|? x' l0 y' l1 r' E' Ex' H'|? [O1' O2'] N'];
  try (exfalso; congruence); try done; try (exfalso; by eauto).
  all: try (assert (x' = x) as -> by congruence).
  all: try (exfalso; by eauto).
  all: try (assert (s' = s) as -> by congruence; by eapply converted_fun).
  all: try (exfalso; congruence).
  assert (y' = y) as -> by congruence. by apply IH.
Qed.
Lemma convert_scalar_thm jt raw r : jt ∈ scalar_types -> shallow view (o_stack W) raw -> converts W view jt raw r ->
  exists g e, convert W view jt raw = Some (g, e) /\ match r with Some s => e = false /\ gv g = WS s | None => e = true end.
Proof.
  intros J S C. destruct (shallow_convert _ jt _ S) as [[g e] E]. exists g, e. split; [done|].
  destruct (convert_go_sound _ _ _ _ J E) as (o & C' & O). rewrite (converts_fun _ _ _ _ C C'). by destruct o.
Qed.
Lemma converts_total jt raw : jt ∈ scalar_types -> shallow view (o_stack W) raw -> exists r, converts W view jt raw r.
Proof.
  intros J S. destruct (shallow_convert _ jt _ S) as [r E]. destruct (convert_go_sound _ _ _ _ J E) as (o & C' & O). eauto.
Qed.
Lemma converts_one jt raw : jt ∈ scalar_types -> shallow view (o_stack W) raw ->
  exists r, converts W view jt raw r /\ forall r', converts W view jt raw r' -> r' = r.
Proof. intros J S. destruct (converts_total jt raw J S) as [r C]. exists r. split; [done|]. intros r' C'. exact (converts_fun jt raw r' r C' C). Qed.
Lemma taken_fun jt g h1 h2 : taken view jt g h1 -> taken view jt g h2 -> h1 = h2.
Proof.
  intros H. revert h2. induction H as [g E|g E|g N E|g l E L J|g x l E J Ex|g x l y l' h E J Ex H IH]; intros h2 H2;
  destruct H2 as [? E'|? E'|? N' E'|? l0 E' L' J'|? x' l0 E' J' Ex'|? x' l0 y' l1 h' E' J' Ex' H'];
  try (exfalso; congruence); try done; try (exfalso; by eauto).
  all: try (rewrite E in E'; injection E' as ->; cbn in L; destruct J' as [->|?]; [cbn in L; lia|done]).
  all: try (rewrite E in E'; injection E' as <-; cbn in L'; destruct J as [->|?]; [cbn in L'; lia|done]).
  all: try (assert (x' = x) as -> by congruence).
  all: try (exfalso; by eauto).
  all: try done.
  all: try (assert (y' = y) as -> by congruence; by apply IH).
  - rewrite E in E'. injection E' as <-. cbn in L'. lia.
  - rewrite E in E'. injection E' as ->. cbn in L. lia.
Qed.
Lemma convert_taken_thm jt raw h : jt ∉ scalar_types -> shallow view (o_stack W) raw -> taken view jt raw h ->
  convert W view jt raw = Some (default (GS SNil) h, false).
Proof.
  intros J S C. destruct (shallow_convert _ jt _ S) as [r E]. destruct (convert_taken _ _ _ _ J E) as (o & C' & ->).
  rewrite (taken_fun _ _ _ _ C C'). done.
Qed.

(** ** entries *)
Lemma applied_ops os g : applied (op_run W view) os g (ops_run W view os g).
Proof.
  revert g. induction os as [|o os IH]; intros g; cbn [ops_run]; [apply applied_nil|].
  destruct (op_run W view o g) eqn:E; cbn [rbind]; [by eapply applied_cons|by apply applied_err|by apply applied_panic].
Qed.
Lemma applied_fun (run : op -> G -> res G) os g r1 r2 : applied run os g r1 -> applied run os g r2 -> r1 = r2.
Proof.
  intros H. revert r2. induction H; intros r2 H2; inversion H2; subst; try congruence.
  apply IHapplied. assert (h0 = h) as -> by congruence. done.
Qed.
Lemma is_nil_iff g : is_nil view g = true <-> null view g.
Proof. unfold is_nil, null. destruct (gv g) as [[]| | | |]; split; done. Qed.
Lemma json_entry_thm ins input ft m (out := instr_run W view FJson ins input ft m)
    (sel := jget W view (apply_mod m (i_jpath ins)) input) :
  (sel = None -> out = Ok (GS SNil)) /\
  (forall raw, sel = Some raw -> null view raw -> out = Ok (GS SNil)) /\
  (forall raw, sel = Some raw -> ~ null view raw -> shallow view (o_stack W) raw ->
    (ft ∈ scalar_types ->
      (converts W view ft raw (Some SNil) -> out = Ok (GS SNil)) /\
      (forall s, converts W view ft raw (Some s) -> s <> SNil -> exists g, gv g = WS s /\ applied (op_run W view) (i_ops ins) g out) /\
      (converts W view ft raw None -> applied (op_run W view) (i_ops ins) raw out)) /\
    (ft ∉ scalar_types -> forall h, taken view ft raw h ->
      (default (GS SNil) h = GS SNil \/ null view (default (GS SNil) h) -> out = Ok (GS SNil)) /\
      (forall g, h = Some g -> ~ null view g -> applied (op_run W view) (i_ops ins) g out))).
Proof.
  unfold out, sel. cbn [instr_run]. unfold json_instr. split_and!.
  - intros ->. done.
  - intros raw -> N. apply is_nil_iff in N. by rewrite N.
  - intros raw -> N S. assert (is_nil view raw = false) as -> by (apply not_true_iff_false; by rewrite is_nil_iff).
    split.
    + intros J. split_and!.
      * intros C. destruct (convert_scalar_thm _ _ _ J S C) as (g & e & -> & -> & Hg). cbv beta iota zeta. assert (is_nil view g = true) as -> by (by apply is_nil_iff). done.
      * intros s C Ns. destruct (convert_scalar_thm _ _ _ J S C) as (g & e & -> & -> & Hg). cbv beta iota zeta.
        assert (is_nil view g = false) as -> by (apply not_true_iff_false; rewrite is_nil_iff; unfold null; congruence).
        exists g. split; [done|]. apply applied_ops.
      * intros C. destruct (convert_scalar_thm _ _ _ J S C) as (g & e & -> & ->). cbv beta iota zeta.
        assert (is_nil view raw = false) as -> by (apply not_true_iff_false; by rewrite is_nil_iff). apply applied_ops.
    + intros J h T. rewrite (convert_taken_thm _ _ _ J S T). cbv beta iota zeta. split.
      * intros H. assert (is_nil view (default (GS SNil) h) = true) as ->; [|done]. apply is_nil_iff. by destruct H as [->|H].
      * intros g -> Ng. change (default (GS SNil) (Some g)) with g. assert (is_nil view g = false) as -> by (apply not_true_iff_false; by rewrite is_nil_iff). apply applied_ops.
Qed.

Lemma convert_text jt s r : jt ∈ scalar_types -> 0 < o_stack W -> converted W jt (SStr s) r ->
  convert W view jt (GS (SStr s)) = Some (GS (default (if decide (jt = "boolean") then SBool false else SNil) r), bool_decide (r = None)).
Proof.
  intros J S C. unfold convert. destruct (o_stack W) as [|n]; [lia|]. cbn [convert_go]. unfold is_nil. cbn [gview].
  f_equal. destruct (scalar_leaf jt (GS (SStr s)) (SStr s) J eq_refl) as (r' & C' & O).
  rewrite (converted_fun _ _ _ _ C C'). clear C r. revert O.
  unfold convert_leaf, convert_boolean, convert_number, convert_string, convert_datetime. cbn [gview].
  destruct (decide (jt = "boolean")) as [->|N1].
  - destruct (decide (s = "")); [|destruct (parse_bool s)]; destruct r'; cbn; intros O; try done; (by destruct O as [_ [= <-]]) || (by destruct O).
  - destruct (decide (jt = "number" \/ jt = "integer")) as [H|N2].
    + destruct (decide (s = "")); [|destruct (atoi s); [|destruct (o_parse_float W s)]]; destruct r'; cbn; intros O; try done; (by destruct O as [_ [= <-]]) || (by destruct O).
    + destruct (decide (jt = "string")) as [->|N3].
      * destruct r'; cbn; intros O; try done; (by destruct O as [_ [= <-]]) || (by destruct O).
      * destruct (decide (jt = "date-time")) as [->|N4].
        -- destruct (decide (s = "")); [|destruct (o_parse_time W rfc3339 s) as [t|]; [destruct (t_zero t)|]]; destruct r'; cbn; intros O; try done; (by destruct O as [_ [= <-]]) || (by destruct O).
        -- exfalso. unfold scalar_types in J. set_solver.
Qed.
Lemma xml_entry_thm ins input ft m node nodes wc nc (out := instr_run W view FXml ins input ft m)
    (path := apply_mod m (i_xpath ins)) :
  view input = WNode node -> o_xfind W node path = Some nodes ->
  o_xfind W node (path +:+ "[*]") = Some wc -> o_xfind W node (path +:+ "[not(*)]") = Some nc -> 0 < o_stack W ->
  (nodes = [] -> out = Ok (GS SNil)) /\
  (forall n ns, nodes = n :: ns ->
    (wc = [] -> length nc = 1 -> ft ∈ scalar_types ->
      (forall s, converted W ft (SStr (o_text W n)) (Some s) -> s <> SNil -> applied (op_run W view) (i_ops ins) (GS s) out) /\
      (converted W ft (SStr (o_text W n)) (Some SNil) -> out = Ok (GS SNil)) /\
      (converted W ft (SStr (o_text W n)) None ->
        (ft = "boolean" -> applied (op_run W view) (i_ops ins) (GS (SBool false)) out) /\ (ft <> "boolean" -> out = Ok (GS SNil)))) /\
    (wc = [] -> length nc = 1 -> ft = "array" \/ ft = "object" -> applied (op_run W view) (i_ops ins) (GS (SStr (o_text W n))) out) /\
    (wc <> [] \/ length nc <> 1 ->
      (ft = "array" \/ ft = "object" -> applied (op_run W view) (i_ops ins) (GN (n :: ns)) out) /\
      (ft = "string" -> applied (op_run W view) (i_ops ins) (GS (SStr (join " " (map (o_text W) (n :: ns))))) out) /\
      (ft ∈ scalar_types -> ft <> "string" ->
        (forall s, converted W ft (SStr (o_text W n)) (Some s) -> s <> SNil -> applied (op_run W view) (i_ops ins) (GS s) out) /\
        (converted W ft (SStr (o_text W n)) (Some SNil) -> out = Ok (GS SNil)) /\
        (converted W ft (SStr (o_text W n)) None -> applied (op_run W view) (i_ops ins) (GN (n :: ns)) out)))).
Proof.
  intros Ei En Ew Ec S. unfold out. cbn [instr_run]. unfold xml_instr. fold path. rewrite Ei, En, Ew, Ec.
  assert (NN : forall s, s <> SNil -> is_nil view (GS s) = false) by (by intros []).
  split; [by intros ->|]. intros n ns ->. split_and!.
  - intros -> L J. rewrite !bool_decide_eq_true_2 by done. cbn [andb]. split_and!.
    + intros s C N. rewrite (convert_text _ _ _ J S C). cbn [fmap option_fmap option_map fst default]. cbv beta iota zeta delta [default from_option id]. rewrite NN by done. apply applied_ops.
    + intros C. rewrite (convert_text _ _ _ J S C). done.
    + intros C. rewrite (convert_text _ _ _ J S C). cbn [fmap option_fmap option_map fst]. cbv beta iota zeta delta [default from_option id]. split.
      * intros ->. rewrite decide_True by done. apply applied_ops.
      * intros N. rewrite decide_False by done. done.
  - intros -> L J. rewrite !bool_decide_eq_true_2 by done. cbn [andb]. unfold convert. destruct (o_stack W) as [|k] eqn:Ek; [lia|]. cbn [convert_go]. unfold is_nil at 1. cbn [gview].
    rewrite plain_leaf; [|unfold scalar_types; destruct J as [->| ->]; set_solver]. cbn [fmap option_fmap option_map fst]. cbv beta iota zeta. rewrite NN by done. apply applied_ops.
  - intros NL. assert (bool_decide (wc = []) && bool_decide (length nc = 1) = false) as ->.
    { apply andb_false_iff. destruct NL as [NL|NL]; [left|right]; by apply bool_decide_eq_false_2. }
    split_and!.
    + intros J. rewrite decide_True by done. apply applied_ops.
    + intros ->. rewrite decide_False by (intros [?|?]; done). rewrite decide_True by done. apply applied_ops.
    + intros J N. assert (ft <> "array" /\ ft <> "object") as [Na No] by (unfold scalar_types in J; split; intros ->; set_solver).
      rewrite decide_False by (by intros [?|?]). rewrite decide_False by done. split_and!.
      * intros s C Ns. rewrite (convert_text _ _ _ J S C). cbn [fmap option_fmap option_map fst snd]. cbv beta iota zeta delta [default from_option id]. rewrite bool_decide_eq_false_2 by done. rewrite NN by done. apply applied_ops.
      * intros C. rewrite (convert_text _ _ _ J S C). done.
      * intros C. rewrite (convert_text _ _ _ J S C). cbn [fmap option_fmap option_map fst snd]. apply applied_ops.
Qed.
Lemma xml_other ins input ft m : (forall n, view input <> WNode n) -> instr_run W view FXml ins input ft m = Err.
Proof. intros N. cbn [instr_run]. unfold xml_instr. destruct (view input) eqn:E; try done. by destruct (N n). Qed.

(** ** operations *)
Lemma ascii_all s : ascii_string s <-> str_all is_ascii_char s = true.
Proof.
  unfold ascii_string. induction s as [|a s IH]; cbn [str_all]; [split; [done|constructor]|].
  rewrite andb_true_iff, <- IH. unfold is_ascii_char. rewrite N.ltb_lt. unfold nat_of_ascii. split.
  - intros H. inversion H as [|? ? ? ? [_ Ha] Hs]; subst. split; [lia|done].
  - intros [Ha Hs]. constructor; [split; [done|lia]|done].
Qed.
Lemma char_small a : (N_of_ascii a < 256)%N.
Proof. apply N_ascii_bounded. Qed.
Lemma N_of_ascii_of n : (n < 256)%N -> N_of_ascii (ascii_of_N n) = n.
Proof. apply N_ascii_embedding. Qed.
Lemma lower_char_rel a : in_lower a (lower_char a).
Proof.
  unfold in_lower, letters, lower_char. destruct (is_upper a) eqn:U; unfold is_upper in U.
  - apply andb_true_iff in U. rewrite !N.leb_le in U. left. unfold nat_of_ascii. rewrite N_of_ascii_of by lia. lia.
  - apply andb_false_iff in U. rewrite !N.leb_gt in U. right. split; [done|]. unfold nat_of_ascii. lia.
Qed.
Lemma upper_char_rel a : in_upper a (upper_char a).
Proof.
  unfold in_upper, letters, upper_char. destruct (is_lower a) eqn:U; unfold is_lower in U.
  - apply andb_true_iff in U. rewrite !N.leb_le in U. left. unfold nat_of_ascii. rewrite N_of_ascii_of by lia. lia.
  - apply andb_false_iff in U. rewrite !N.leb_gt in U. right. split; [done|]. unfold nat_of_ascii. lia.
Qed.
Lemma str_map_rel (R : ascii -> ascii -> Prop) f s : (forall a, R a (f a)) -> each_char R s (str_map f s).
Proof. intros H. induction s; cbn; constructor; auto. Qed.
Lemma lower_rel s : ascii_string s -> each_char in_lower s (go_lower W s).
Proof. intros H. apply ascii_all in H. unfold go_lower. rewrite H. apply str_map_rel, lower_char_rel. Qed.
Lemma upper_rel s : ascii_string s -> each_char in_upper s (go_upper W s).
Proof. intros H. apply ascii_all in H. unfold go_upper. rewrite H. apply str_map_rel, upper_char_rel. Qed.
Lemma is_word_iff a : is_word a = true <-> word_char a.
Proof.
  unfold is_word, word_char, is_letter, is_upper, is_lower, is_digit. rewrite !orb_true_iff, !andb_true_iff, !N.leb_le, bool_decide_eq_true.
  unfold nat_of_ascii. split.
  - intros [[[H|H]|H]| ->]; [lia|lia|lia|]. cbv. lia.
  - intros H. assert (D : a = "_"%char \/ N_of_ascii a <> 95%N).
    { destruct (N.eq_dec (N_of_ascii a) 95) as [E|E]; [left|by right]. rewrite <- (ascii_N_embedding a), E. reflexivity. }
    destruct D as [->|D]; [by right|]. left. lia.
Qed.
Lemma title_go_rel s : forall w, titled w s (title_go w s).
Proof.
  induction s as [|a s IH]; intros w; cbn [title_go]; [constructor|]. destruct w.
  - apply titled_inside with (is_word a); [apply is_word_iff|apply IH].
  - apply titled_start with (is_word a); [apply upper_char_rel|apply is_word_iff|apply IH].
Qed.
Lemma title_rel s : ascii_string s -> titled false s (go_title W s).
Proof. intros H. apply ascii_all in H. unfold go_title. rewrite H. apply title_go_rel. Qed.

Lemma change_case_thm args raw s : holds_string view raw s -> ascii_string s ->
  (args !! "to" = Some "lower" -> exists t, op_run W view (OpChangeCase args) raw = Ok (GS (SStr t)) /\ each_char in_lower s t) /\
  (args !! "to" = Some "upper" -> exists t, op_run W view (OpChangeCase args) raw = Ok (GS (SStr t)) /\ each_char in_upper s t).
Proof.
  intros E A. cbn [op_run]. unfold op_change_case, arg. rewrite E. split; intros ->; eexists; (split; [reflexivity|]).
  - by apply lower_rel.
  - by apply upper_rel.
Qed.
Lemma not_string_err (raw : G) (f : string -> res G) : (forall s, ~ holds_string view raw s) ->
  match gv raw with WS (SStr s) => f s | _ => Err end = Err.
Proof. intros N. unfold holds_string in N. destruct (gv raw) as [[]| | | |] eqn:E; try done. by destruct (N s). Qed.
Lemma string_only_thm args raw : (forall s, ~ holds_string view raw s) ->
  op_run W view (OpChangeCase args) raw = Err /\ op_run W view (OpReplace args) raw = Err /\ op_run W view (OpTimeParse args) raw = Err /\
  op_run W view (OpToCamelCase args) raw = Err /\ op_run W view OpRemoveHTML raw = Err.
Proof.
  intros N. cbn [op_run]. unfold op_change_case, op_replace, op_time_parse, op_to_camel, op_remove_html. split_and!; by apply not_string_err.
Qed.
Lemma inverse_thm raw : (forall b, gv raw = WS (SBool b) -> op_run W view OpInverse raw = Ok (GS (SBool (negb b)))) /\
  ((forall b, gv raw <> WS (SBool b)) -> op_run W view OpInverse raw = Err).
Proof.
  cbn [op_run]. unfold op_inverse. split; [by intros b ->|]. intros N. destruct (gv raw) as [[]| | | |] eqn:E; try done. by destruct (N b).
Qed.
Lemma value_exists_thm raw :
  (forall s, holds_string view raw s -> exists b, op_run W view OpValueExists raw = Ok (GS (SBool b)) /\ (b = true <-> s <> "")) /\
  (forall l, gv raw = WNodes l -> exists b, op_run W view OpValueExists raw = Ok (GS (SBool b)) /\ (b = true <-> l <> [])) /\
  ((forall s, ~ holds_string view raw s) -> (forall l, gv raw <> WNodes l) -> op_run W view OpValueExists raw = Err).
Proof.
  cbn [op_run]. unfold op_value_exists, holds_string. split_and!.
  - intros s ->. eexists. split; [done|]. apply bool_decide_eq_true.
  - intros l ->. eexists. split; [done|]. apply bool_decide_eq_true.
  - intros N1 N2. destruct (gv raw) as [[]| | | |] eqn:E; try done; [by destruct (N1 s)|by destruct (N2 l)].
Qed.
Lemma replace_thm args regex new raw s : args !! "regex" = Some regex -> args !! "new" = Some new -> holds_string view raw s ->
  op_run W view (OpReplace args) raw = Ok (GS (SStr (o_re_replace W regex s new))).
Proof. intros H1 H2 E. cbn [op_run]. unfold op_replace, arg. by rewrite E, H1, H2. Qed.
Lemma time_parse_thm args from to raw s : args !! "format" = Some from -> args !! "layout" = Some to -> holds_string view raw s ->
  (forall t, o_parse_time W from s = Some t -> op_run W view (OpTimeParse args) raw = Ok (GS (SStr (o_fmt_time W to t)))) /\
  (o_parse_time W from s = None -> op_run W view (OpTimeParse args) raw = Err).
Proof.
  intros H1 H2 E. unfold holds_string in E. cbn [op_run]. unfold op_time_parse, arg. rewrite E, H1, H2.
  cbv beta iota delta [default from_option id]. split; [by intros t ->|by intros ->].
Qed.
Lemma current_time_thm args layout raw : args !! "format" = Some layout ->
  op_run W view (OpCurrentTime args) raw = Ok (GS (SStr (o_fmt_time W (if decide (layout = "RFC3339") then iso_layout else layout) (o_now W)))).
Proof. intros H. cbn [op_run]. unfold op_current_time, arg. by rewrite H. Qed.
Lemma str_all_app p a b : str_all p (a +:+ b) = str_all p a && str_all p b.
Proof. induction a as [|x a IH]; [done|]. change (String x a +:+ b) with (String x (a +:+ b)). cbn [str_all]. rewrite IH. by rewrite andb_assoc. Qed.
Lemma ascii_join sep l : ascii_string (join sep l) -> Forall ascii_string l.
Proof.
  induction l as [|x l IH]; intros H; [constructor|]. destruct l as [|y l].
  - constructor; [done|constructor].
  - assert (join sep (x :: y :: l) = x +:+ sep +:+ join sep (y :: l)) as E by done. rewrite E in H. apply ascii_all in H. rewrite !str_all_app, !andb_true_iff in H.
    destruct H as (H1 & H2 & H3). constructor; [by apply ascii_all|]. apply IH. by apply ascii_all.
Qed.
Lemma camel_thm args delim raw s : args !! "delimiter" = Some delim -> holds_string view raw s -> ascii_string s ->
  exists pieces t rest rest', op_run W view (OpToCamelCase args) raw = Ok (GS (SStr (join "" (t :: rest')))) /\
    (s <> "" \/ delim <> "" -> exists p, pieces = p :: rest /\ each_char in_lower p t) /\
    join delim pieces = s /\ (delim <> "" -> Forall (fun p => ~ exists a b, p = a +:+ delim +:+ b) pieces) /\
    Forall2 (titled false) rest rest'.
Proof.
  intros H E A. cbn [op_run]. unfold op_to_camel, arg. rewrite E, H. change (default "" (Some delim)) with delim.
  assert (J := split_join s delim). assert (AP : Forall ascii_string (split s delim)) by (apply (ascii_join delim); by rewrite J).
  assert (F : delim <> "" -> Forall (fun p => ~ exists a b, p = a +:+ delim +:+ b) (split s delim)).
  { intros Hd. eapply Forall_impl; [by apply split_free|]. intros p Hp H'. apply str_in_spec in H'. congruence. }
  destruct (split s delim) as [|p r] eqn:S.
  - exists [], "", [], []. split_and!; [done| |done|done|done]. intros [N|N].
    + cbn in J. congruence.
    + by apply (split_ne s) in N.
  - exists (p :: r), (go_lower W p), r, (go_title W <$> r). inversion AP; subst. split_and!; try done.
    + intros _. exists p. split; [done|]. by apply lower_rel.
    + clear -H3. induction H3; cbn; constructor; [by apply title_rel|done].
Qed.
Lemma is_space_iff a : is_space_char a = true <-> white a.
Proof.
  unfold is_space_char, white. rewrite orb_true_iff, andb_true_iff, !N.leb_le, N.eqb_eq. unfold nat_of_ascii. lia.
Qed.
Lemma trim_l_spec s : exists l, s = l +:+ trim_l s /\ all_white l /\ forall a t, trim_l s = String a t -> ~ white a.
Proof.
  induction s as [|a s (l & E & Hl & Hn)]; cbn [trim_l]; [exists ""; split; [done|split; [constructor|done]]|].
  destruct (is_space_char a) eqn:A.
  - exists (String a l). split; [|split; [constructor; [split; [done|by apply is_space_iff]|done]|done]].
    change (String a l +:+ trim_l s) with (String a (l +:+ trim_l s)). congruence.
  - exists "". split; [done|]. split; [constructor|]. intros b t [= <- <-] Hw. apply is_space_iff in Hw. congruence.
Qed.
Lemma trim_r_spec s : exists r, s = trim_r s +:+ r /\ all_white r /\ (forall a t, trim_r s = t +:+ String a "" -> ~ white a) /\
  (forall a t, trim_r s = String a t -> exists s', s = String a s').
Proof.
  induction s as [|a s (r & E & Hr & Hn & Hh)]; cbn [trim_r].
  - exists "". split; [done|]. split; [constructor|]. split; [|done]. intros a [|? t] H; done.
  - destruct (trim_r s) as [|b t] eqn:T.
    + destruct (is_space_char a) eqn:A.
      * exists (String a s). split; [done|]. split; [constructor; [split; [done|by apply is_space_iff]|by rewrite E]|]. split; [|done]. intros x [|? t] H; done.
      * exists s. split; [done|]. split; [by rewrite E|]. split; [|intros x t [= <- <-]; eauto].
        intros x [|y t] H; [injection H as <-|by destruct t]. intros Hw. apply is_space_iff in Hw. congruence.
    + exists r. split; [|split; [done|split; [|intros x t' [= <- <-]; eauto]]].
      * change (String a (String b t) +:+ r) with (String a (String b t +:+ r)). by rewrite E at 1.
      * intros x [|y t'] H; [done|]. change (String y t' +:+ String x "") with (String y (t' +:+ String x "")) in H. injection H as <- H. by apply (Hn x t').
Qed.
Lemma trim_spec s : trimmed s (trim_r (trim_l s)).
Proof.
  destruct (trim_l_spec s) as (l & E & Hl & Hn). destruct (trim_r_spec (trim_l s)) as (r & E' & Hr & Hn' & Hh).
  exists l, r. split; [by rewrite <- E'|]. split; [done|]. split; [done|]. split; [|done].
  intros a t H. destruct (Hh _ _ H) as [s' H']. by eapply Hn.
Qed.
Lemma halved_spec s : halved s (replace_all s "  " " ").
Proof.
  unfold replace_all. remember (String.length s) as n eqn:L. revert s L. induction (lt_wf n) as [n _ IH]. intros s L.
  destruct s as [|a s]; [constructor|]. cbn [replace_all_go].
  destruct (has_prefix "  " (String a s)) eqn:P.
  - destruct s as [|b s]; [cbn in P; by destruct (decide _) in P|].
    assert (a = " "%char /\ b = " "%char) as [-> ->].
    { cbn [has_prefix] in P. destruct (decide _) as [H1|H1] in P; [|done]. destruct (decide _) as [H2|H2] in P; [|done]. done. }
    cbn [String.length Nat.sub replace_all_go]. apply halved_two. eapply IH; [|done]. subst. cbn. lia.
  - apply halved_other; [|eapply IH; [|done]; subst; cbn; lia].
    destruct (decide (a = " "%char)) as [->|N]; [right|by left]. intros s' ->. cbn in P. done.
Qed.
Lemma remove_html_thm raw s : holds_string view raw s -> exists t u,
  op_run W view OpRemoveHTML raw = Ok (GS (SStr (o_unescape W u))) /\ trimmed (o_sanitize W s) t /\ halved t u.
Proof. intros E. eexists _, _. split; [cbn [op_run]; unfold op_remove_html; by rewrite E|]. split; [apply trim_spec|apply halved_spec]. Qed.
Lemma to_float_thm raw :
  (forall s f, holds_string view raw s -> o_parse_float W s = Some f -> op_run W view OpConvertToFloat64 raw = Ok (GS (SF f))) /\
  (forall f, number_value view raw f -> op_run W view OpConvertToFloat64 raw = Ok (GS (SF f))) /\
  ((forall s, holds_string view raw s -> o_parse_float W s = None) -> (forall f, ~ number_value view raw f) -> op_run W view OpConvertToFloat64 raw = Err).
Proof.
  cbn [op_run]. unfold op_to_float, holds_string, number_value. split_and!.
  - intros s f -> ->. done.
  - intros f [->|(z & -> & ->)]; done.
  - intros N1 N2. destruct (gv raw) as [[]| | | |] eqn:E; try done.
    + destruct (N2 (binary_normalize 53 1024 z 0 false)). right. eauto.
    + destruct (N2 f). by left.
    + by rewrite N1.
Qed.
Lemma to_int_thm raw :
  (forall s z, holds_string view raw s -> decimal s z -> SpecOps.fits z -> op_run W view OpConvertToInt64 raw = Ok (GS (SI64 z))) /\
  (forall s, holds_string view raw s -> (forall z, decimal s z -> ~ SpecOps.fits z) -> op_run W view OpConvertToInt64 raw = Err) /\
  (forall f z, gv raw = WS (SF f) -> integer_part f z -> SpecOps.fits z -> op_run W view OpConvertToInt64 raw = Ok (GS (SI64 z))) /\
  (forall z, gv raw = WS (SInt z) \/ gv raw = WS (SI64 z) -> op_run W view OpConvertToInt64 raw = Ok (GS (SI64 z))) /\
  ((forall s, ~ holds_string view raw s) -> (forall f, ~ number_value view raw f) -> (forall z, gv raw <> WS (SI64 z)) -> op_run W view OpConvertToInt64 raw = Err).
Proof.
  cbn [op_run]. unfold op_to_int64, holds_string, number_value. split_and!.
  - intros s z -> D F. assert (atoi s = Some z) as -> by (by apply atoi_iff). done.
  - intros s -> D. assert (atoi s = None) as -> by (by apply atoi_none). done.
  - intros f z -> I F. destruct (f2i_cases W f) as [(z' & I' & _ & ->)|[N _]]; [|by destruct (N z)].
    apply f_trunc_iff in I, I'. rewrite I in I'. by injection I' as ->.
  - intros z [->| ->]; done.
  - intros N1 N2 N3. destruct (gv raw) as [[]| | | |] eqn:E; try done.
    + destruct (N2 (binary_normalize 53 1024 z 0 false)). right. eauto.
    + by destruct (N3 z).
    + destruct (N2 f). by left.
    + by destruct (N1 s).
Qed.
Lemma to_bool_thm raw :
  (forall b, gv raw = WS (SBool b) -> op_run W view OpConvertToBool raw = Ok (GS (SBool b))) /\
  (forall s, holds_string view raw s -> (s ∈ true_words -> op_run W view OpConvertToBool raw = Ok (GS (SBool true))) /\
     (s ∈ false_words -> op_run W view OpConvertToBool raw = Ok (GS (SBool false))) /\
     (s ∉ true_words -> s ∉ false_words -> op_run W view OpConvertToBool raw = Err)) /\
  (forall z, gv raw = WS (SInt z) \/ gv raw = WS (SI64 z) -> exists b, op_run W view OpConvertToBool raw = Ok (GS (SBool b)) /\ (b = true <-> z <> 0%Z)) /\
  (forall f, gv raw = WS (SF f) -> exists b, op_run W view OpConvertToBool raw = Ok (GS (SBool b)) /\ (b = true <-> forall s, f <> S754_zero s)) /\
  (forall l, gv raw = WArr l -> exists b, op_run W view OpConvertToBool raw = Ok (GS (SBool b)) /\ (b = true <-> l <> [])) /\
  (null view raw \/ (exists t, gv raw = WS (STime t)) \/ (exists m, gv raw = WMap m) \/ (exists n, gv raw = WNode n) \/ (exists l, gv raw = WNodes l) ->
     op_run W view OpConvertToBool raw = Err).
Proof.
  cbn [op_run]. unfold op_to_bool, holds_string. split_and!.
  - by intros b ->.
  - intros s ->. split_and!.
    + intros H. apply parse_bool_true in H. by rewrite H.
    + intros H. apply parse_bool_false in H. by rewrite H.
    + intros H1 H2. destruct (parse_bool s) as [[]|] eqn:P; [|by apply parse_bool_false in P|done]. by apply parse_bool_true in P.
  - intros z [->| ->]; eexists; (split; [done|]); rewrite negb_true_iff, Z.eqb_neq; done.
  - intros f ->. eexists. split; [done|]. unfold f_nez. destruct f as [b|b| |b m e]; cbn.
    + split; [done|]. intros H. by destruct (H b).
    + destruct b; cbn; split; done.
    + split; done.
    + destruct b; cbn; split; done.
  - intros l ->. eexists. split; [done|]. apply bool_decide_eq_true.
  - intros [H|[[t H]|[[m H]|[[n H]|[l H]]]]]; [unfold null in H|..]; by rewrite H.
Qed.
End conv.

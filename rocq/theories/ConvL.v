(** Lemmas about convert and the operations. *)
From stdpp Require Import strings list gmap.
From Coq Require Import Ascii Floats.SpecFloat ZArith Lia.
From Verif Require Import GoStr GoStrL Val Conv.

Section conv.
Context (W : oracles) {V : Type} (view : V -> vw V).
Notation G := (gval V).
Notation gv := (gview view).

(** Go representation of a JSON type *)
Definition typed (jt : string) (w : vw G) : Prop :=
  (jt = "boolean" -> exists b, w = WS (SBool b)) /\
  (jt = "number" \/ jt = "integer" -> (exists z, w = WS (SInt z)) \/ (exists f, w = WS (SF f))) /\
  (jt = "string" -> exists s, w = WS (SStr s)) /\
  (jt = "date-time" -> exists t, w = WS (STime t)).

Lemma convert_leaf_typed jt raw g :
  convert_leaf W view jt raw = (g, false) -> gv g <> WS SNil -> typed jt (gv g).
Proof.
  unfold convert_leaf, typed. intros H Hn.
  assert (forall g1 : G, (g1, false) = (g, false) -> g1 = g) as Hinj by congruence.
  assert (forall g1 : G, (g1, true) = (g, false) -> False) as Hno by congruence.
  destruct (decide (jt = "boolean")) as [->|N1].
  { repeat split; try (clear; intros; intuition (subst; discriminate)). all: intros _; revert H; unfold convert_boolean;
    destruct (gv raw) as [[]| | | |] eqn:E; intros H; repeat case_match;
      try (by apply Hno in H); apply Hinj in H; subst g; eauto; by destruct Hn. }
  destruct (decide (jt = "number" \/ jt = "integer")) as [HN|N2].
  { repeat split; try (clear - HN; intros; destruct HN; subst; discriminate). all: intros _; revert H; unfold convert_number;
    destruct (gv raw) as [[]| | | |] eqn:E; intros H; repeat case_match;
      try (by apply Hno in H); apply Hinj in H; subst g; eauto; by destruct Hn. }
  destruct (decide (jt = "string")) as [->|N3].
  { repeat split; try (clear; intros; intuition (subst; discriminate)). all: intros _; revert H; unfold convert_string;
    destruct (gv raw) as [[]| | | |] eqn:E; intros H; repeat case_match;
      try (by apply Hno in H); apply Hinj in H; subst g; eauto; by destruct Hn. }
  destruct (decide (jt = "date-time")) as [->|N4].
  { repeat split; try (clear; intros; intuition (subst; discriminate)). all: intros _; revert H; unfold convert_datetime;
    destruct (gv raw) as [[]| | | |] eqn:E; intros H; repeat case_match;
      try (by apply Hno in H); apply Hinj in H; subst g; eauto; by destruct Hn. }
  repeat split; intros; exfalso; auto.
Qed.
Lemma convert_go_typed fuel jt raw g :
  convert_go W view fuel jt raw = Some (g, false) -> gv g <> WS SNil -> typed jt (gv g).
Proof.
  revert raw. induction fuel as [|n IH]; intros raw; cbn [convert_go]; [done|].
  destruct (is_nil view raw). { intros [= <-] Hn. by destruct Hn. }
  destruct (gv raw) as [s|l|m|k|k].
  1,3,4,5: intros [= H]; by eapply convert_leaf_typed.
  destruct l as [|x l']; [intros [= <-] Hn; by destruct Hn|].
  destruct (_ || _).
  - destruct (gv x) as [s|[|y l'']|m|k|k];
      first [apply IH | intros [= H]; by eapply convert_leaf_typed].
  - intros [= H]. by eapply convert_leaf_typed.
Qed.

(** convert depends on a value only through one look at it, when it is no array *)
Lemma convert_scal jt g s : (0 < o_stack W)%nat -> gv g = WS s -> s <> SNil ->
  convert W view jt g = Some (convert_leaf W view jt g).
Proof.
  unfold convert. destruct (o_stack W); [lia|]. intros _ Hg Hs. cbn [convert_go].
  unfold is_nil. rewrite Hg. by destruct s.
Qed.

Lemma convert_int_string_number z : (0 < o_stack W)%nat -> int_range z = true ->
  exists s, convert W view "string" (GS (SInt z)) = Some (GS (SStr s), false) /\
            convert W view "number" (GS (SStr s)) = Some (GS (SInt z), false) /\
            convert W view "integer" (GS (SStr s)) = Some (GS (SInt z), false).
Proof.
  intros Hs Hz. exists (itoa z).
  rewrite !(convert_scal _ (GS (SStr (itoa z))) (SStr (itoa z))), (convert_scal _ (GS (SInt z)) (SInt z)) by done.
  assert (forall jt, jt = "number" \/ jt = "integer" ->
    convert_leaf W view jt (GS (SStr (itoa z))) = (GS (SInt z), false)) as H.
  { intros jt Hj. unfold convert_leaf. destruct (decide (jt = "boolean")) as [->|]; [naive_solver|].
    rewrite decide_True by done. unfold convert_number. cbn [gview].
    rewrite decide_False by apply itoa_ne. by rewrite atoi_itoa. }
  split; [done|]. split; f_equal; apply H; auto.
Qed.
Lemma convert_bool_roundtrip b : (0 < o_stack W)%nat ->
  (exists s, convert W view "string" (GS (SBool b)) = Some (GS (SStr s), false) /\
             convert W view "boolean" (GS (SStr s)) = Some (GS (SBool b), false)) /\
  (exists z, convert W view "number" (GS (SBool b)) = Some (GS (SInt z), false) /\
             convert W view "boolean" (GS (SInt z)) = Some (GS (SBool b), false)).
Proof.
  intros Hs. split.
  - exists (format_bool b). rewrite (convert_scal _ (GS (SBool b)) (SBool b)), (convert_scal _ (GS (SStr (format_bool b))) (SStr (format_bool b))) by done.
    by destruct b.
  - exists (if b then 1 else 0)%Z. rewrite (convert_scal _ (GS (SBool b)) (SBool b)), (convert_scal _ (GS (SInt (if b then 1 else 0))) (SInt (if b then 1 else 0))) by done.
    by destruct b.
Qed.
Lemma typed_idem jt g : typed jt (gv g) ->
  jt = "boolean" \/ jt = "number" \/ jt = "integer" \/ jt = "string" ->
  convert_leaf W view jt g = (g, false).
Proof.
  intros (Hb & Hn & Hs & _) Hj. unfold convert_leaf.
  destruct (decide (jt = "boolean")) as [->|N1].
  { destruct (Hb eq_refl) as [b E]. unfold convert_boolean. by rewrite E. }
  destruct (decide (jt = "number" \/ jt = "integer")) as [HN|N2].
  { unfold convert_number. destruct (Hn HN) as [[z E]|[x E]]; by rewrite E. }
  destruct (decide (jt = "string")) as [->|N3]; [|naive_solver].
  destruct (Hs eq_refl) as [b E]. unfold convert_string. by rewrite E.
Qed.
Lemma convert_idem jt raw g : (0 < o_stack W)%nat ->
  jt = "boolean" \/ jt = "number" \/ jt = "integer" \/ jt = "string" ->
  convert W view jt raw = Some (g, false) -> gv g <> WS SNil ->
  convert W view jt g = Some (g, false).
Proof.
  intros Hs Hj H Hn. pose proof (convert_go_typed _ _ _ _ H Hn) as Ht.
  assert (exists s, gv g = WS s /\ s <> SNil) as (s & E & Es).
  { destruct Ht as (Hb & Hnum & Hst & _).
    destruct Hj as [ -> | [ -> | [ -> | -> ] ] ].
    - destruct (Hb eq_refl) as [b E]; eauto.
    - destruct (Hnum (or_introl eq_refl)) as [[z E]|[x E]]; eauto.
    - destruct (Hnum (or_intror eq_refl)) as [[z E]|[x E]]; eauto.
    - destruct (Hst eq_refl) as [b E]; eauto. }
  rewrite (convert_scal _ _ s) by done. f_equal. by apply typed_idem.
Qed.
End conv.

(** ** duration *)
Definition all_digits (s : string) : Prop := str_all is_digit s = true.
Lemma span_digits_spec s : let '(d, r) := span_digits s in
  s = d +:+ r /\ all_digits d /\ (forall a r', r = String a r' -> is_digit a = false).
Proof.
  induction s as [|a s IH]; cbn [span_digits].
  - split; [done|]. split; [done|]. done.
  - destruct (is_digit a) eqn:Ha.
    + destruct (span_digits s) as [d r]. destruct IH as (E & Hd & Hr).
      split; [by rewrite sapp_cons, E|]. split; [|done]. unfold all_digits. cbn. by rewrite Ha.
    + split; [done|]. split; [done|]. by intros b r' [= <- _].
Qed.
Lemma span_digits_app d r : all_digits d -> (forall a r', r = String a r' -> is_digit a = false) ->
  span_digits (d +:+ r) = (d, r).
Proof.
  unfold all_digits. intros Hd Hr. induction d as [|a d IH].
  - rewrite sapp_nil_l. destruct r as [|a r']; [done|]. cbn. by rewrite (Hr a r').
  - cbn in Hd. apply andb_true_iff in Hd as [Ha Hd]. rewrite sapp_cons. cbn [span_digits].
    rewrite Ha, IH; done.
Qed.
Lemma colon_nodigit r a r' : String ":" r = String a r' -> is_digit a = false.
Proof. by intros [= <- _]. Qed.
Lemma dur_tail_spec s g2 g3 : dur_tail s = Some (g2, g3) <->
  (s = g2 +:+ String ":" g3 /\ all_digits g2 /\ all_digits g3).
Proof.
  unfold dur_tail. split.
  - pose proof (span_digits_spec s) as H. destruct (span_digits s) as [d r]. destruct H as (E & Hd & Hr).
    destruct r as [|a r']; [done|]. destruct (decide (a = ":"%char)) as [->|Na].
    2:{ destruct a as [[] [] [] [] [] [] [] []]; done. }
    pose proof (span_digits_spec r') as H. destruct (span_digits r') as [d' r'']. destruct H as (E' & Hd' & Hr').
    destruct (decide (r'' = "")) as [->|]; [|done]. intros [= <- <-].
    rewrite sapp_nil_r in E'. subst. done.
  - intros (-> & H2 & H3). rewrite span_digits_app; [|done|apply colon_nodigit].
    rewrite <- (sapp_nil_r g3) at 1. rewrite span_digits_app by done. by rewrite decide_True.
Qed.
Lemma all_digits_app a b : all_digits (a +:+ b) <-> all_digits a /\ all_digits b.
Proof.
  unfold all_digits. induction a as [|x a IH]; [naive_solver|].
  rewrite sapp_cons. cbn. rewrite !andb_true_iff, IH. naive_solver.
Qed.
Lemma digits_no_colon d r e r' : all_digits d -> all_digits e ->
  d +:+ String ":" r = e +:+ String ":" r' -> d = e /\ r = r'.
Proof.
  intros Hd He E.
  assert (span_digits (d +:+ String ":" r) = span_digits (e +:+ String ":" r')) as H by by rewrite E.
  rewrite !span_digits_app in H; try done; try apply colon_nodigit.
  by injection H.
Qed.
Lemma digits_colon_free d r e : all_digits e -> d +:+ String ":" r <> e.
Proof.
  intros He E. subst e. apply all_digits_app in He as [_ He]. done.
Qed.
(** soundness: a match decomposes the string *)
Lemma dur_match_sound g1 s a b c : all_digits g1 -> dur_match g1 s = Some (a, b, c) ->
  all_digits a /\ all_digits b /\ all_digits c /\
  (exists d, a = g1 +:+ d /\
   (s = d +:+ String ":" (b +:+ String ":" c) \/ s = d +:+ b +:+ String ":" c)).
Proof.
  revert g1. induction s as [|x s IH]; intros g1 Hg1 H.
  - cbn in H. done.
  - cbn [dur_match] in H.
    destruct (match x with
              | ":"%char => dur_tail s
              | _ => None end) as [[p q]|] eqn:E1.
    { assert (x = ":"%char) as -> by (destruct x as [[] [] [] [] [] [] [] []]; done).
      assert (Some (g1, p, q) = Some (a, b, c)) as [= <- <- <-] by exact H.
      apply dur_tail_spec in E1 as (-> & Hp & Hq).
      repeat split; try done. exists "". rewrite sapp_nil_r. split; [done|]. by left. }
    assert (match dur_tail (String x s) with
            | Some (g2, g3) => Some (g1, g2, g3)
            | None => if is_digit x then dur_match (g1 +:+ String x "") s else None
            end = Some (a, b, c)) as H2.
    { destruct x as [[] [] [] [] [] [] [] []]; rewrite ?E1 in H; exact H. }
    clear H E1. destruct (dur_tail (String x s)) as [[p q]|] eqn:E2.
    { injection H2 as <- <- <-. apply dur_tail_spec in E2 as (-> & Hp & Hq).
      repeat split; try done. exists "". rewrite sapp_nil_r. split; [done|]. by right. }
    destruct (is_digit x) eqn:Hx; [|done].
    apply IH in H2.
    + destruct H2 as (Ha & Hb & Hc & d & -> & Hd). repeat split; try done.
      exists (String x d). rewrite <- app_assoc_s, sapp_cons, sapp_nil_l.
      split; [done|]. rewrite !sapp_cons. destruct Hd as [->| ->]; [left|right]; done.
    + apply all_digits_app. split; [done|]. unfold all_digits. cbn. by rewrite Hx.
Qed.
Lemma digit_not_colon x : is_digit x = true -> x <> ":"%char.
Proof. by intros H ->. Qed.
Lemma dur_match_digit g1 x s : is_digit x = true -> dur_match g1 (String x s) =
  match dur_tail (String x s) with
  | Some (g2, g3) => Some (g1, g2, g3)
  | None => dur_match (g1 +:+ String x "") s
  end.
Proof.
  intros Hx. cbn [dur_match]. rewrite Hx.
  destruct x as [[] [] [] [] [] [] [] []]; done.
Qed.
Lemma dur_match_colon g1 s : dur_match g1 (String ":" s) =
  match dur_tail s with
  | Some (g2, g3) => Some (g1, g2, g3)
  | None => match dur_tail (String ":" s) with
            | Some (g2, g3) => Some (g1, g2, g3)
            | None => None end
  end.
Proof. cbn [dur_match]. by destruct (dur_tail s) as [[]|]. Qed.
(** two groups *)
Lemma dur_match_ms m s : all_digits m -> all_digits s ->
  dur_match "" (m +:+ String ":" s) = Some ("", m, s).
Proof.
  intros Hm Hs. destruct m as [|x m].
  - rewrite sapp_nil_l, dur_match_colon.
    assert (dur_tail s = None) as ->.
    { destruct (dur_tail s) as [[p q]|] eqn:E; [|done]. apply dur_tail_spec in E as (E & _ & _).
      symmetry in E. by apply digits_colon_free in E. }
    assert (dur_tail (String ":" s) = Some ("", s)) as -> by (apply dur_tail_spec; done). done.
  - assert (is_digit x = true) as Hx by by apply andb_true_iff in Hm as [? _].
    rewrite sapp_cons, dur_match_digit by done. rewrite <- sapp_cons.
    assert (dur_tail (String x m +:+ String ":" s) = Some (String x m, s)) as -> by (apply dur_tail_spec; done).
    done.
Qed.
(** three groups *)
Lemma dur_tail_three h m s : all_digits h -> all_digits m ->
  dur_tail (h +:+ String ":" (m +:+ String ":" s)) = None.
Proof.
  intros Hh Hm. destruct (dur_tail _) as [[p q]|] eqn:E; [|done].
  apply dur_tail_spec in E as (E & Hp & Hq). apply digits_no_colon in E as [-> E]; [|done..].
  by apply digits_colon_free in E.
Qed.
Lemma dur_match_hms g1 h m s : all_digits h -> all_digits m -> all_digits s ->
  dur_match g1 (h +:+ String ":" (m +:+ String ":" s)) = Some (g1 +:+ h, m, s).
Proof.
  intros Hh Hm Hs. revert g1 Hh. induction h as [|x h IH]; intros g1 Hh.
  - rewrite sapp_nil_l, sapp_nil_r, dur_match_colon.
    assert (dur_tail (m +:+ String ":" s) = Some (m, s)) as -> by (apply dur_tail_spec; done). done.
  - pose proof Hh as Hh'. apply andb_true_iff in Hh' as [Hx Hh'].
    rewrite sapp_cons, dur_match_digit by done. rewrite <- sapp_cons, dur_tail_three by done.
    rewrite IH by done. by rewrite <- app_assoc_s.
Qed.
(** exactness *)
Lemma dur_match_complete s : dur_match "" s <> None ->
  (exists m sec, all_digits m /\ all_digits sec /\ s = m +:+ String ":" sec) \/
  (exists h m sec, all_digits h /\ all_digits m /\ all_digits sec /\
     s = h +:+ String ":" (m +:+ String ":" sec)).
Proof.
  intros H. destruct (dur_match "" s) as [[[a b] c]|] eqn:E; [|done].
  apply dur_match_sound in E as (Ha & Hb & Hc & d & -> & Hd); [|done].
  rewrite sapp_nil_l in Ha. destruct Hd as [->| ->].
  - right. exists d, b, c. done.
  - left. exists (d +:+ b), c. rewrite all_digits_app. rewrite <- app_assoc_s. done.
Qed.

(** value of a digit group: the empty group counts 0 *)
Lemma atoi_group_range s z : all_digits s -> atoi_group s = Some z -> (0 <= z <= int_max)%Z.
Proof.
  intros Hd. unfold atoi_group. destruct (decide (s = "")) as [->|N]; [intros [= <-]; unfold int_max; lia|].
  destruct s as [|a s]; [done|].
  assert (is_digit a = true) as Ha by by apply andb_true_iff in Hd as [? _].
  rewrite atoi_nosign by done. unfold atoi_digits.
  assert (forall acc v t, (0 <= acc)%Z -> all_digits t -> dec_value acc t = Some v -> (0 <= v)%Z) as Hpos.
  { intros acc v t. revert acc. induction t as [|b t IH]; intros acc Hacc Ht; cbn [dec_value].
    - intros [= <-]. done.
    - apply andb_true_iff in Ht as [Hb Ht]. rewrite Hb. apply IH; [|done].
      unfold is_digit in Hb. apply andb_true_iff in Hb as [Hb _]. apply N.leb_le in Hb. lia. }
  destruct (dec_value 0 (String a s)) as [v|] eqn:E; [|done].
  apply Hpos in E; [|lia|done].
  destruct (int_range v) eqn:Hr; [|done]. intros [= <-].
  unfold int_range in Hr. apply andb_true_iff in Hr as [_ Hr]. apply Z.leb_le in Hr. done.
Qed.

Lemma wrap64_mod z : (wrap64 z mod 2 ^ 64 = z mod 2 ^ 64)%Z.
Proof.
  unfold wrap64. rewrite Zminus_mod, Z.mod_mod by lia. rewrite <- Zminus_mod. f_equal. lia.
Qed.
Lemma wrap64_small z : int_range z = true -> wrap64 z = z.
Proof.
  intros H. unfold int_range, int_min, int_max in H. apply andb_true_iff in H as [H1 H2].
  apply Z.leb_le in H1, H2. unfold wrap64. rewrite Z.mod_small by lia. lia.
Qed.
Lemma wrap64_eq a b : (a mod 2 ^ 64 = b mod 2 ^ 64)%Z -> wrap64 a = wrap64 b.
Proof.
  intros H. unfold wrap64. rewrite (Zplus_mod a), (Zplus_mod b), H. done.
Qed.
Lemma wrap64_nest h m s :
  wrap64 (s + wrap64 (60 * wrap64 (m + wrap64 (60 * h)))) = wrap64 (3600 * h + 60 * m + s).
Proof.
  apply wrap64_eq.
  assert (forall x y, (x + wrap64 y) mod 2 ^ 64 = (x + y) mod 2 ^ 64)%Z as A.
  { intros x y. rewrite Zplus_mod, wrap64_mod, <- Zplus_mod. done. }
  assert (forall x y, (x * wrap64 y) mod 2 ^ 64 = (x * y) mod 2 ^ 64)%Z as B.
  { intros x y. rewrite Zmult_mod, wrap64_mod, <- Zmult_mod. done. }
  rewrite A. rewrite Zplus_mod, B, <- Zplus_mod.
  rewrite Zplus_mod, Zmult_mod, A, <- Zmult_mod, <- Zplus_mod. f_equal. lia.
Qed.

(** ** max *)
Section fcmp.
Local Open Scope Z_scope.
(** a measure-free order lemma: SFltb is a strict order that is compatible with "not greater" *)
Definition SFcmp := SFcompare.
Lemma SFltb_alt f g : SFltb f g = true <-> SFcompare f g = Some Lt.
Proof. unfold SFltb. destruct (SFcompare f g) as [[]|]; split; done. Qed.
Lemma pcont_lt m1 m2 : Pcompare m1 m2 Eq = (m1 ?= m2)%positive.
Proof. done. Qed.
Ltac fsolve :=
  repeat match goal with
  | H : context [match ?x with _ => _ end] |- _ => destruct x eqn:?; try discriminate H
  | |- context [match ?x with _ => _ end] => destruct x eqn:?; try discriminate
  end.
(** lexicographic key of a non NaN float *)
Definition fkey (f : spec_float) : option (Z * Z * Z) :=
  match f with
  | S754_nan => None
  | S754_zero _ => Some (0, 0, 0)
  | S754_infinity s => Some (if s then -2 else 2, 0, 0)
  | S754_finite s m e => Some (if s then (-1, - e, - Z.pos m) else (1, e, Z.pos m))
  end.
Definition klt (a b : Z * Z * Z) : Prop :=
  let '(a1, a2, a3) := a in let '(b1, b2, b3) := b in
  a1 < b1 \/ (a1 = b1 /\ (a2 < b2 \/ (a2 = b2 /\ a3 < b3))).
Lemma SFltb_key f g : SFltb f g = true <->
  exists a b, fkey f = Some a /\ fkey g = Some b /\ klt a b.
Proof.
  unfold SFltb.
  destruct f as [s1|s1| |s1 m1 e1], g as [s2|s2| |s2 m2 e2]; cbn [SFcompare fkey];
  try destruct s1; try destruct s2;
  try (split; [intros H; first [discriminate H | eexists _, _; split; [done|]; split; [done|]; unfold klt; lia]
        | intros (a & b & Ha & Hb & H); first [discriminate Ha | discriminate Hb | injection Ha as <-; injection Hb as <-; unfold klt in H; first [done | lia]]]).
  - destruct (Z.compare_spec e1 e2) as [->|L|L].
    + change (Pos.compare_cont Eq m1 m2) with (m1 ?= m2)%positive.
      destruct (Pos.compare_spec m1 m2) as [->|P|P]; cbn [CompOpp];
      (split; [intros H; first [discriminate H | eexists _, _; split; [done|]; split; [done|]; unfold klt; lia]
        | intros (a & b & Ha & Hb & H); injection Ha as <-; injection Hb as <-; unfold klt in H; first [done | lia]]).
    + split; [done|]. intros (a & b & Ha & Hb & H). injection Ha as <-; injection Hb as <-. unfold klt in H. lia.
    + split; [|done]. intros _. eexists _, _. split; [done|]. split; [done|]. unfold klt. lia.
  - destruct (Z.compare_spec e1 e2) as [->|L|L].
    + change (Pos.compare_cont Eq m1 m2) with (m1 ?= m2)%positive.
      destruct (Pos.compare_spec m1 m2) as [->|P|P];
      (split; [intros H; first [discriminate H | eexists _, _; split; [done|]; split; [done|]; unfold klt; lia]
        | intros (a & b & Ha & Hb & H); injection Ha as <-; injection Hb as <-; unfold klt in H; first [done | lia]]).
    + split; [|done]. intros _. eexists _, _. split; [done|]. split; [done|]. unfold klt. lia.
    + split; [done|]. intros (a & b & Ha & Hb & H). injection Ha as <-; injection Hb as <-. unfold klt in H. lia.
Qed.
Lemma klt_trans a b c : klt a b -> klt b c -> klt a c.
Proof. destruct a as [[? ?] ?], b as [[? ?] ?], c as [[? ?] ?]. unfold klt. lia. Qed.
Lemma klt_not a b : klt a b -> klt b a -> False.
Proof. destruct a as [[? ?] ?], b as [[? ?] ?]. unfold klt. lia. Qed.
Lemma klt_total a b : klt a b \/ a = b \/ klt b a.
Proof.
  destruct a as [[a1 a2] a3], b as [[b1 b2] b3]. unfold klt.
  destruct (Z.lt_trichotomy a1 b1) as [|[->|]]; [lia| |lia].
  destruct (Z.lt_trichotomy a2 b2) as [|[->|]]; [lia| |lia].
  destruct (Z.lt_trichotomy a3 b3) as [|[->|]]; [lia| |lia]. auto.
Qed.
Lemma f_gtb_trans a b c : f_gtb a b = true -> f_gtb b c = true -> f_gtb a c = true.
Proof.
  unfold f_gtb. rewrite !SFltb_key. intros (kb & ka & Hb & Ha & L1) (kc & kb' & Hc & Hb' & L2).
  rewrite Hb in Hb'. injection Hb' as <-. exists kc, ka. eauto using klt_trans.
Qed.
Lemma f_gtb_irrefl a : f_gtb a a = false.
Proof.
  unfold f_gtb. destruct (SFltb a a) eqn:E; [|done].
  apply SFltb_key in E as (k & k' & H1 & H2 & L). rewrite H1 in H2. injection H2 as <-.
  exfalso. eauto using klt_not.
Qed.
(** not a > b and c > b give not a > c ... *)
Lemma f_gtb_not_trans a b c : f_gtb a b = false -> f_gtb c b = true -> f_gtb a c = false.
Proof.
  intros H1 H2. destruct (f_gtb a c) eqn:E; [|done].
  rewrite (f_gtb_trans a c b) in H1 by done. done.
Qed.
(** ... and, unless a is NaN, c > a *)
Lemma f_gtb_not_flip a b c : f_gtb a b = false -> f_gtb c b = true -> fkey a <> None -> f_gtb c a = true.
Proof.
  intros H1 H2 Ha. unfold f_gtb in *. apply SFltb_key in H2 as (kb & kc & Hb & Hc & L).
  destruct (fkey a) as [ka|] eqn:Ea; [|done].
  apply SFltb_key. exists ka, kc. split; [done|]. split; [done|].
  destruct (klt_total ka kb) as [?|[->|?]]; [by eapply klt_trans|done|].
  assert (SFltb b a = true) as C by (apply SFltb_key; eauto). congruence.
Qed.
End fcmp.

Section max.
Context (W : oracles) {V : Type} (view : V -> vw V).
Notation G := (gval V).
Notation gv := (gview view).

(** the `by` number of an item *)
Definition by_value (by_arg : string) (item : G) : option spec_float :=
  match jget_g W view by_arg item with
  | Some b => match gv b with WS (SF f) => Some f | WS (SInt z) => Some (f_of_int z) | _ => None end
  | None => None
  end.
Lemma max_loop_step by_arg i item rest lg li :
  max_loop W view by_arg i (item :: rest) lg li =
  match by_value by_arg item with
  | None => Err
  | Some f => if f_gtb f lg then max_loop W view by_arg (S i) rest f i
              else max_loop W view by_arg (S i) rest lg li
  end.
Proof.
  cbn [max_loop]. unfold by_value. destruct (jget_g W view by_arg item) as [b|]; [|done].
  destruct (gv b) as [[]| | | |]; done.
Qed.
Lemma max_loop_np by_arg i items lg li : max_loop W view by_arg i items lg li <> Panic.
Proof.
  revert i lg li. induction items as [|x items IH]; intros; [done|].
  rewrite max_loop_step. destruct (by_value by_arg x); [|done]. by case_match.
Qed.
(** the loop keeps the first largest value *)
Lemma max_loop_inv by_arg (all : list G) (fs : list spec_float) :
  Forall2 (fun item f => by_value by_arg item = Some f) all fs ->
  forall done_ rest i lg li,
  fs = done_ ++ rest -> i = length done_ ->
  (forall j f, done_ !! j = Some f -> f_gtb f lg = false) ->
  ((lg = f_zero /\ li = 0%nat) \/
   (done_ !! li = Some lg /\ f_gtb lg f_zero = true /\
    forall j f, (j < li)%nat -> done_ !! j = Some f -> fkey f <> None -> f_gtb lg f = true)) ->
  exists lg' li', max_loop W view by_arg i (drop i all) lg li = Ok (lg', li') /\
  (forall j f, fs !! j = Some f -> f_gtb f lg' = false) /\
  ((lg' = f_zero /\ li' = 0%nat) \/
   (fs !! li' = Some lg' /\ f_gtb lg' f_zero = true /\
    forall j f, (j < li')%nat -> fs !! j = Some f -> fkey f <> None -> f_gtb lg' f = true)).
Proof.
  intros HF done_ rest. revert done_. induction rest as [|f rest IH]; intros dn i lg li Hfs Hi Hle Hinv.
  - rewrite app_nil_r in Hfs. subst fs i. exists lg, li.
    rewrite drop_ge by (rewrite (Forall2_length _ _ _ HF); lia). done.
  - assert (fs !! i = Some f) as Hf by (subst; by rewrite lookup_app_r, Nat.sub_diag).
    destruct (Forall2_lookup_r _ _ _ _ _ HF Hf) as (item & Hit & Hby).
    rewrite (drop_S _ _ _ Hit). rewrite max_loop_step, Hby.
    assert (fs = (dn ++ [f]) ++ rest) as Hfs' by by rewrite <- app_assoc.
    destruct (f_gtb f lg) eqn:Hgt.
    + apply (IH (dn ++ [f])); [done|rewrite app_length; cbn; lia| |].
      * intros j f' Hj. apply lookup_app_Some in Hj as [Hj|[Hj Hj']].
        -- eapply f_gtb_not_trans; [|done]. by eapply Hle.
        -- destruct (j - length dn)%nat; [|done]. cbn in Hj'. injection Hj' as <-. apply f_gtb_irrefl.
      * right. split; [subst i; by rewrite lookup_app_r, Nat.sub_diag|]. split.
        { destruct Hinv as [[-> _]|(_ & Hz & _)]; [done|]. by eapply f_gtb_trans. }
        intros j f' Hlt Hj Hk. rewrite lookup_app_l in Hj by lia.
        eapply f_gtb_not_flip; [by eapply Hle|done|done].
    + apply (IH (dn ++ [f])); [done|rewrite app_length; cbn; lia| |].
      * intros j f' Hj. apply lookup_app_Some in Hj as [Hj|[Hj Hj']]; [by eapply Hle|].
        destruct (j - length dn)%nat; [|done]. cbn in Hj'. by injection Hj' as <-.
      * destruct Hinv as [?|(Hl & Hz & Hb)]; [by left|]. right.
        split; [by apply lookup_app_l_Some|]. split; [done|].
        intros j f' Hlt Hj Hk. apply lookup_lt_Some in Hl. rewrite lookup_app_l in Hj by lia. by eapply Hb.
Qed.

(** ** panics *)
Lemma op_run_panic o raw : op_run W view o raw = Panic <->
  exists args, o = OpMax args /\ gv raw = WArr [].
Proof.
  split.
  - destruct o; cbn [op_run].
    1: { unfold op_duration, duration_str. repeat case_match; done. }
    1: { unfold op_change_case. repeat case_match; done. }
    1: { unfold op_value_exists. repeat case_match; done. }
    1: { unfold op_inverse. repeat case_match; done. }
    1: { unfold op_max. destruct (gv raw) as [|l| | |] eqn:E; try done.
         destruct (max_loop _ _ _ _ _ _) as [[lg li]| |] eqn:EL; try done.
         - destruct (l !! li) eqn:El.
           + by case_match.
           + intros _. exists args. split; [done|]. f_equal.
             destruct l as [|x l]; [done|]. exfalso.
             assert (forall rest i lg0 li0, (li0 < length (x :: l))%nat -> (i + length rest = length (x :: l))%nat ->
               max_loop W view (replace1 (arg args "by") "@" "$") i rest lg0 li0 = Ok (lg, li) -> (li < length (x :: l))%nat) as H.
             { induction rest as [|y rest IH]; intros i lg0 li0 H1 H2; [intros [= <- <-]; done|].
               rewrite max_loop_step. destruct (by_value _ _); [|done]. cbn [length] in *.
               case_match; apply IH; lia. }
             apply H in EL; [|cbn; lia|cbn; lia]. apply lookup_lt_is_Some in EL as [? ?]. congruence.
         - by apply max_loop_np in EL. }
    1: { unfold op_replace. repeat case_match; done. }
    1: { unfold op_split. repeat case_match; done. }
    1: { unfold op_time_parse. repeat case_match; done. }
    1: { unfold op_current_time. repeat case_match; done. }
    1: { unfold op_to_camel. repeat case_match; done. }
    1: { unfold op_remove_html. repeat case_match; done. }
    1: { unfold op_to_float. repeat case_match; done. }
    1: { unfold op_to_int64. repeat case_match; done. }
    1: { unfold op_to_bool. repeat case_match; done. }
  - intros (args & -> & E). cbn [op_run]. unfold op_max. by rewrite E.
Qed.
End max.

(** ** argument checking *)
Lemma required_args_spec req args : NoDup req ->
  required_args req args = true <-> dom args = (list_to_set req : gset string).
Proof.
  intros Hnd. unfold required_args. rewrite andb_true_iff, bool_decide_eq_true, forallb_forall.
  assert (size (list_to_set req : gset string) = length req) as Hsz by by apply size_list_to_set.
  split.
  - intros [Hs Ha].
    assert ((list_to_set req : gset string) ⊆ dom args) as Hsub.
    { intros x Hx. apply elem_of_list_to_set in Hx. apply elem_of_dom.
      specialize (Ha x ltac:(by apply elem_of_list_In)). by destruct (args !! x) eqn:E; [eexists|]. }
    assert (dom args ∖ (list_to_set req : gset string) ≡ ∅) as He.
    { apply size_empty_iff. rewrite size_difference by done. rewrite size_dom, Hsz. lia. }
    apply set_eq. intros x. split; [|apply Hsub]. intros Hx.
    destruct (decide (x ∈ (list_to_set req : gset string))) as [|Hn]; [done|].
    exfalso. apply (not_elem_of_empty (C := gset string) x). rewrite <- He. by apply elem_of_difference.
  - intros E. split.
    + rewrite <- Hsz, <- E, size_dom. done.
    + intros x Hx. assert (x ∈ dom args) as Hd.
      { rewrite E. apply elem_of_list_to_set. by apply elem_of_list_In. }
      apply elem_of_dom in Hd as [v ->]. done.
Qed.

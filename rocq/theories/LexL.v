(** Lemmas on tokens. *)
From stdpp Require Import strings list.
From Coq Require Import Ascii NArith Lia.
From Verif Require Import GoStr GoStrL SpecGen SpecGql SpecDesc DescL SpecSdl.

Lemma span_eq p s : (span p s).1 +:+ (span p s).2 = s.
Proof. induction s as [|c s IH]; [done|]. cbn. destruct (p c); [|done]. destruct (span p s) as [a b]. cbn [fst snd] in *. rewrite sapp_cons. by rewrite IH. Qed.
Lemma span_len p s : String.length (span p s).2 <= String.length s.
Proof. rewrite <- (span_eq p s) at 2. rewrite len_app. lia. Qed.
(** what comes after a word does not matter if it does not begin with such a character *)
Definition no_first (p : ascii -> bool) (s : string) : Prop := match s with String c _ => p c = false | EmptyString => True end.
Lemma span_word p w rest : all_chars p w = true -> no_first p rest -> span p (w +:+ rest) = (w, rest).
Proof.
  induction w as [|c w IH]; intros Hw Hr.
  - rewrite sapp_nil_l. destruct rest as [|d r]; [done|]. cbn in *. by rewrite Hr.
  - cbn [all_chars] in Hw. apply andb_prop in Hw as [Hc Hw]. rewrite sapp_cons. cbn [span]. by rewrite Hc, IH.
Qed.
Lemma span_more p s rest : (span p s).2 <> "" -> span p (s +:+ rest) = ((span p s).1, (span p s).2 +:+ rest).
Proof.
  induction s as [|c s IH]; [done|]. rewrite sapp_cons. cbn [span]. destruct (p c); [|done]. destruct (span p s) as [a b]. cbn [fst snd] in *. intros H. by rewrite IH.
Qed.

Definition lexes (s : string) (ts : list lexeme) : Prop := forall n, String.length s < n -> lex n s = Some ts.
Lemma lexes_all s ts : lexes s ts -> lex_all s = Some ts.
Proof. intros H. apply H. lia. Qed.
Lemma lexes_nil : lexes "" [].
Proof. intros [|n] H; [cbn in H; lia|done]. Qed.
Lemma lexes_ignored c s ts : ignored c = true -> lexes s ts -> lexes (String c s) ts.
Proof. intros Hc H [|n] Hn; [cbn in Hn; lia|]. cbn [lex]. rewrite Hc. apply H. cbn in Hn. lia. Qed.
Lemma lexes_blank p s ts : all_chars ignored p = true -> lexes s ts -> lexes (p +:+ s) ts.
Proof. induction p as [|c p IH]; [done|]. cbn [all_chars]. intros [Hc Hp]%andb_prop H. rewrite sapp_cons. apply lexes_ignored; [done|]. by apply IH. Qed.
Lemma name_not_ignored c : name_start c = true -> ignored c = false /\ c <> "#"%char.
Proof. intros H. split; [|by intros ->]. destruct c as [[] [] [] [] [] [] [] []]; done. Qed.
Lemma lexes_name w s ts : gql_name w = true -> no_first name_char s -> lexes s ts -> lexes (w +:+ s) (LName w :: ts).
Proof.
  destruct w as [|c w]; [done|]. cbn [gql_name]. intros [Hc Hw]%andb_prop Hs H [|n] Hn; [cbn in Hn; lia|].
  change (String c w +:+ s) with (String c (w +:+ s)) in *. cbn [lex]. destruct (name_not_ignored c Hc) as [-> Hh]. rewrite decide_False by done. rewrite Hc.
  change (String c (w +:+ s)) with (String c w +:+ s). rewrite span_word; [|cbn; unfold name_char at 1; by rewrite Hc, Hw|done]. cbn. rewrite (H n); [done|]. cbn in Hn. rewrite len_app in Hn. lia.
Qed.
Lemma punct_other c : c ∈ gql_puncts -> ignored c = false /\ c <> "#"%char /\ name_start c = false /\ c <> c_quote.
Proof. unfold gql_puncts. rewrite !elem_of_cons. intros H. destruct_or! H; subst; try done. by apply elem_of_nil in H. Qed.
Lemma lexes_punct c s ts : c ∈ gql_puncts -> lexes s ts -> lexes (String c s) (LPunct c :: ts).
Proof.
  intros Hc H [|n] Hn; [cbn in Hn; lia|]. cbn [lex]. destruct (punct_other c Hc) as (-> & Hh & -> & Hq). rewrite (decide_False _ _ Hh), (decide_False _ _ Hq), (decide_True _ _ Hc).
  rewrite (H n); [done|]. cbn in Hn. lia.
Qed.
Lemma lexes_comment x s ts : all_chars in_comment x = true -> lexes s ts -> lexes ("#" +:+ x +:+ newline +:+ s) ts.
Proof.
  intros Hx H [|n] Hn; [cbn in Hn; lia|]. change ("#" +:+ x +:+ newline +:+ s) with (String "#" (x +:+ newline +:+ s)) in *. cbn [lex]. change (ignored "#") with false. cbn iota. rewrite decide_True by done.
  rewrite span_word by done. cbn [snd]. cbn [String.length] in Hn. rewrite len_app in Hn. destruct n as [|n]; [lia|]. change (newline +:+ s) with (String c_newline s) in *. cbn [lex]. change (ignored c_newline) with true. cbn iota. apply H. cbn in Hn. lia.
Qed.
Lemma lexes_string s v rest ts : read_string (String c_quote s) = Some (v, rest) -> String.length rest <= String.length s -> lexes rest ts -> lexes (String c_quote s) (LStr v :: ts).
Proof.
  intros Hr Hl H [|n] Hn; [cbn in Hn; lia|]. cbn [lex]. change (ignored c_quote) with false. change (name_start c_quote) with false. cbn iota.
  rewrite decide_False by done. rewrite decide_True by done. rewrite Hr. rewrite (H n); [done|]. cbn in Hn. lia.
Qed.

(** ** a text that ends with a newline *)
Definition closed (s : string) : Prop := s = "" \/ exists y, s = y +:+ newline.
Lemma closed_tail a s : closed (a +:+ s) -> closed s.
Proof.
  induction a as [|c a IH]; [done|]. intros [H|[y H]]; [done|]. destruct y as [|d y].
  - injection H as -> H. destruct a; [|done]. cbn in H. subst. by left.
  - injection H as -> H. apply IH. right. by exists y.
Qed.
Lemma closed_one c : closed (String c "") -> c = c_newline.
Proof. intros [H|[[|d [|e y]] H]]; try done; by injection H. Qed.
Lemma closed_span p s : p c_newline = false -> closed s -> s <> "" -> (span p s).2 <> "".
Proof.
  intros Hp Hc Hs. intros E. pose proof (span_eq p s) as Hq. rewrite E, sapp_nil_r in Hq.
  assert (Hall : all_chars p s = true). { rewrite <- Hq. clear. induction s as [|c s IH]; [done|]. cbn. destruct (p c) eqn:E; [|done]. destruct (span p s). cbn in *. by rewrite E, IH. }
  destruct Hc as [->|[y ->]]; [done|]. rewrite all_chars_app in Hall. apply andb_prop in Hall as [_ H]. cbn in H. change "010"%char with c_newline in H. by rewrite Hp in H.
Qed.
Lemma prefix_more p s t : String.length p <= String.length s -> has_prefix p (s +:+ t) = has_prefix p s.
Proof.
  revert s. induction p as [|a p IH]; intros [|b s] H; [by destruct t|done|cbn in H; lia|]. rewrite sapp_cons. cbn. destruct (decide (a = b)); [|done]. apply IH. cbn in H. lia.
Qed.
Lemma read_chars_more n : forall s v r t, String.length s <= n -> read_chars s = Some (v, r) -> read_chars (s +:+ t) = Some (v, r +:+ t) /\ exists y, s = y +:+ r /\ y <> "".
Proof.
  induction n as [|n IH]; intros s v r t Hn; [by destruct s; cbn in Hn; [|lia]|]. destruct s as [|c s]; [done|]. cbn [String.length] in *. rewrite sapp_cons. cbn [read_chars].
  destruct (decide (c = c_quote)) as [->|N1]; [intros [= <- <-]; split; [done|]; by exists (String c_quote "")|].
  destruct (decide (c = c_backslash)) as [->|N2].
  - destruct s as [|e s]; [done|]. cbn [String.length] in *. rewrite sapp_cons. destruct (decide (e = "u"%char)) as [->|N3].
    + destruct s as [|h1 [|h2 [|h3 [|h4 s]]]]; try done. rewrite !sapp_cons. destruct (hex4 h1 h2 h3 h4) as [m|]; [|done]. intros (v' & Hv & ->)%before_some. cbn [String.length] in *.
      destruct (IH s v' r t) as (-> & y & -> & _); [lia|done|]. split; [done|]. by exists (String c_backslash (String "u" (String h1 (String h2 (String h3 (String h4 y)))))).
    + destruct (escaped e) as [x|]; [|done]. intros (v' & Hv & ->)%before_some. destruct (IH s v' r t) as (-> & y & -> & _); [lia|done|]. split; [done|]. by exists (String c_backslash (String e y)).
  - destruct (plain_char c) eqn:E; [|done]. intros (v' & Hv & ->)%before_some. destruct (IH s v' r t) as (-> & y & -> & _); [lia|done|]. split; [done|]. by exists (String c y).
Qed.
Lemma read_block_more n : forall s v r t, String.length s <= n -> read_block s = Some (v, r) -> read_block (s +:+ t) = Some (v, r +:+ t) /\ exists y, s = y +:+ r /\ y <> "".
Proof.
  induction n as [|n IH]; intros s v r t Hn; [by destruct s; cbn in Hn; [|lia]|]. destruct s as [|c s]; [done|]. intros H. pose proof (read_block_len _ _ _ _ Hn H) as Hl.
  rewrite sapp_cons. cbn [read_block] in *. rewrite <- sapp_cons. rewrite prefix_more by (cbn in *; lia). destruct (has_prefix quotes3 (String c s)) eqn:E3.
  - destruct s as [|a [|b s]]; try done. injection H as <- <-. rewrite !sapp_cons. split; [done|]. by exists (String c (String a (String b ""))).
  - assert (Hp : has_prefix (String c_backslash quotes3) (String c s +:+ t) = has_prefix (String c_backslash quotes3) (String c s)).
    { destruct (decide (4 <= String.length (String c s))) as [H4|H4]; [by apply prefix_more|]. exfalso. cbn [String.length] in *. destruct (has_prefix (String c_backslash quotes3) (String c s)) eqn:E4.
      - apply has_prefix_spec in E4 as [u Hu]. assert (Hlen : String.length (String c s) = String.length (String c_backslash quotes3 +:+ u)) by by rewrite Hu. rewrite len_app in Hlen. cbn [String.length] in Hlen. change (String.length quotes3) with 3 in Hlen. lia.
      - destruct (source_char c); [|done]. apply before_some in H as (v' & Hv & ->). pose proof (read_block_len _ _ _ _ (Nat.le_refl _) Hv). lia. }
    rewrite Hp. destruct (has_prefix (String c_backslash quotes3) _).
    + destruct s as [|a [|b [|d s]]]; try done. rewrite !sapp_cons. apply before_some in H as (v' & Hv & ->). cbn [String.length] in *. destruct (IH s v' r t) as (-> & y & -> & _); [lia|done|].
      split; [done|]. by exists (String c (String a (String b (String d y)))).
    + destruct (source_char c); [|done]. apply before_some in H as (v' & Hv & ->). cbn [String.length] in *. destruct (IH s v' r t) as (-> & y & -> & _); [lia|done|]. split; [done|]. by exists (String c y).
Qed.
Lemma skip_quote s : skip_white (String c_quote s) = String c_quote s.
Proof. done. Qed.
Lemma read_string_more s v r t : 2 <= String.length s -> read_string (String c_quote s) = Some (v, r) ->
  read_string (String c_quote s +:+ t) = Some (v, r +:+ t) /\ exists y, String c_quote s = y +:+ r /\ y <> "".
Proof.
  intros Hl. rewrite sapp_cons. unfold read_string. rewrite !skip_quote. rewrite <- sapp_cons, prefix_more by (cbn; lia). destruct (has_prefix quotes3 _) eqn:E.
  - destruct s as [|a [|b s]]; try done. rewrite !sapp_cons. cbn [drop_str].
    destruct (read_block s) as [[raw r']|] eqn:Er; [|done]. intros [= <- <-]. destruct (read_block_more _ s raw r' t (Nat.le_refl _) Er) as (-> & y & -> & _). split; [done|]. by exists (String c_quote (String a (String b y))).
  - rewrite decide_True by done. intros H. destruct (read_chars_more _ s v r t (Nat.le_refl _) H) as (-> & y & -> & _). split; [done|]. by exists (String c_quote y).
Qed.
(** ** the tokens of a text that is put before another *)
Lemma len_neq (s : string) : s <> "" -> 1 <= String.length s.
Proof. destruct s; [done|]. cbn. lia. Qed.
Lemma lex_app n : forall s ts, lex n s = Some ts -> closed s -> forall rest ts', lexes rest ts' -> lexes (s +:+ rest) (ts ++ ts').
Proof.
  induction n as [|n IH]; intros s ts Hs Hc rest ts' Hr; [done|]. destruct s as [|c s]; [by injection Hs as <-|].
  assert (Hcs : closed s) by (by apply (closed_tail (String c ""))).
  cbn [lex] in Hs. rewrite sapp_cons. destruct (ignored c) eqn:Ei; [apply lexes_ignored; [done|]; by apply IH|].
  assert (Hne : s <> "") by (intros ->; by rewrite (closed_one c Hc) in Ei).
  intros [|m] Hm; [cbn in Hm; lia|]. cbn [lex]. rewrite Ei. cbn [String.length] in Hm. rewrite len_app in Hm.
  destruct (decide (c = "#"%char)) as [->|N1].
  { pose proof (closed_span in_comment s eq_refl Hcs Hne) as Hp. rewrite span_more by done. cbn [snd]. eapply IH; [exact Hs| |exact Hr|].
    - eapply closed_tail. by rewrite span_eq.
    - rewrite len_app. pose proof (span_len in_comment s). lia. }
  destruct (name_start c) eqn:En.
  { assert (Hp : (span name_char (String c s)).2 <> "") by (by apply closed_span). rewrite <- sapp_cons, span_more by done.
    assert (Hlen : String.length (span name_char (String c s)).2 <= String.length s). { cbn [span]. unfold name_char at 1. rewrite En. cbn [orb]. pose proof (span_len name_char s). by destruct (span name_char s). }
    assert (Hcl : closed (span name_char (String c s)).2) by (eapply closed_tail; by rewrite span_eq).
    destruct (span name_char (String c s)) as [w r] eqn:Es. cbn [fst snd] in *. unfold then_lex in *. destruct (lex n r) as [l|] eqn:El; [|done]. injection Hs as <-.
    rewrite (IH r l El Hcl rest ts' Hr m); [done|]. rewrite len_app. lia. }
  destruct (decide (c = c_quote)) as [->|N2].
  { destruct (read_string (String c_quote s)) as [[v r]|] eqn:Er; [|done]. unfold then_lex in *. destruct (lex n r) as [l|] eqn:El; [|done]. injection Hs as <-.
    assert (H2 : 2 <= String.length s). { destruct s as [|d [|e s]]; [done| |cbn; lia]. rewrite (closed_one d Hcs) in Er. by vm_compute in Er. }
    destruct (read_string_more s v r rest H2 Er) as (Hm' & y & Hy & Hy'). rewrite <- sapp_cons, Hm'. rewrite Hy in Hc. apply closed_tail in Hc.
    rewrite (IH r l El Hc rest ts' Hr m); [done|]. rewrite len_app. assert (Hl : String.length (String c_quote s) = String.length (y +:+ r)) by by rewrite Hy. rewrite len_app in Hl. apply len_neq in Hy'. cbn [String.length] in Hl. lia. }
  destruct (decide (c ∈ gql_puncts)) as [Hp|N3].
  { unfold then_lex in *. destruct (lex n s) as [l|] eqn:El; [|done]. injection Hs as <-. rewrite (IH s l El Hcs rest ts' Hr m); [done|]. rewrite len_app. lia. }
  destruct (bool_decide (c = "-"%char) || digit c) eqn:Ed; [|done].
  destruct (decide (c = "-"%char)) as [->|N4].
  - assert (Hp : (span digit s).2 <> "") by (by apply closed_span). rewrite span_more by done. pose proof (span_len digit s) as Hlen. assert (Hcl : closed (span digit s).2) by (eapply closed_tail; by rewrite span_eq).
    destruct (span digit s) as [ds r] eqn:Es. cbn [fst snd] in *. destruct (decide (ds = "")); [done|]. unfold then_lex in *. destruct (lex n r) as [l|] eqn:El; [|done]. injection Hs as <-.
    rewrite (IH r l El Hcl rest ts' Hr m); [done|]. rewrite len_app. lia.
  - assert (Hd : digit c = true). { apply orb_prop in Ed as [Hx|Hx]; [|done]. by apply bool_decide_eq_true_1 in Hx. }
    assert (Hp : (span digit (String c s)).2 <> "") by (by apply closed_span). rewrite <- sapp_cons, span_more by done.
    assert (Hlen : String.length (span digit (String c s)).2 <= String.length s). { cbn [span]. rewrite Hd. pose proof (span_len digit s). by destruct (span digit s). }
    assert (Hcl : closed (span digit (String c s)).2) by (eapply closed_tail; by rewrite span_eq).
    destruct (span digit (String c s)) as [ds r] eqn:Es. cbn [fst snd] in *. destruct (decide (ds = "")); [done|]. unfold then_lex in *. destruct (lex n r) as [l|] eqn:El; [|done]. injection Hs as <-.
    rewrite (IH r l El Hcl rest ts' Hr m); [done|]. rewrite len_app. lia.
Qed.

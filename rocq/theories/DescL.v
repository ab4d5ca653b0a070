(** Descriptions are read back. *)
From stdpp Require Import strings list.
From Coq Require Import Ascii NArith Lia.
From Verif Require Import GoStr GoStrL SpecGen SpecGql Gen Avro Gql GqlL SpecDesc SpecDoc GqlC.

(** ** one line *)
Lemma before_some x r v rest : before x r = Some (v, rest) -> exists v', r = Some (v', rest) /\ v = x +:+ v'.
Proof. destruct r as [[v' r']|]; [|done]. cbn. intros [= <- <-]. by exists v'. Qed.
Lemma len_app (a b : string) : String.length (a +:+ b) = String.length a + String.length b.
Proof. induction a as [|c a IH]; [done|]. rewrite sapp_cons. cbn. by rewrite IH. Qed.
Lemma plain_read v rest : all_chars plain_char v = true -> read_chars (v +:+ String c_quote rest) = Some (v, rest).
Proof.
  induction v as [|c v IH]; [done|]. cbn [all_chars]. intros [Hc Hv]%andb_prop. rewrite sapp_cons. cbn [read_chars].
  destruct (decide (c = c_quote)) as [->|N1]; [done|]. destruct (decide (c = c_backslash)) as [->|N2]; [done|]. rewrite Hc, (IH Hv). done.
Qed.
Lemma utf8_len n : String.length (utf8 n) <= 3.
Proof. unfold utf8. repeat case_decide; cbn; lia. Qed.
(** what is read is shorter than the text, unless all is plain *)
Lemma read_chars_len n : forall s v rest, String.length s <= n -> read_chars s = Some (v, rest) ->
  (s = v +:+ String c_quote rest /\ all_chars plain_char v = true) \/ String.length v + 1 + String.length rest < String.length s.
Proof.
  induction n as [|n IH]; intros s v rest Hn; [by destruct s; cbn in Hn; [|lia]|]. destruct s as [|c s]; [done|]. cbn [String.length] in *. cbn [read_chars].
  destruct (decide (c = c_quote)) as [->|N1]; [intros [= <- <-]; by left|].
  destruct (decide (c = c_backslash)) as [->|N2].
  - destruct s as [|e s]; [done|]. cbn [String.length] in *. destruct (decide (e = "u"%char)) as [->|N3].
    + destruct s as [|h1 [|h2 [|h3 [|h4 s]]]]; try done. destruct (hex4 h1 h2 h3 h4) as [m|]; [|done]. intros (v' & Hv & ->)%before_some. rewrite len_app. pose proof (utf8_len m). cbn [String.length] in *.
      destruct (IH s v' rest) as [[-> _]|H']; [lia|done| |right; lia]. right. rewrite len_app. cbn. lia.
    + destruct (escaped e) as [x|]; [|done]. intros (v' & Hv & ->)%before_some. rewrite len_app. cbn [String.length].
      destruct (IH s v' rest) as [[-> _]|H']; [lia|done| |right; lia]. right. rewrite len_app. cbn. lia.
  - destruct (plain_char c) eqn:E; [|done]. intros (v' & Hv & ->)%before_some. destruct (IH s v' rest) as [[-> Hp]|H']; [lia|done| |].
    + left. rewrite sapp_cons, sapp_nil_l. split; [done|]. cbn [all_chars]. by rewrite E.
    + right. rewrite len_app. cbn [String.length]. lia.
Qed.
Lemma read_block_len n : forall s v rest, String.length s <= n -> read_block s = Some (v, rest) -> String.length v + 3 + String.length rest <= String.length s.
Proof.
  induction n as [|n IH]; intros s v rest Hn; [by destruct s; cbn in Hn; [|lia]|]. destruct s as [|c s]; [done|]. cbn [read_block].
  destruct (has_prefix quotes3 _).
  - destruct s as [|a [|b s]]; try done. intros [= <- <-]. cbn. lia.
  - destruct (has_prefix (String c_backslash quotes3) _).
    + destruct s as [|a [|b [|d s]]]; try done. intros (v' & Hv & ->)%before_some. rewrite len_app. cbn [String.length] in *. specialize (IH s v' rest ltac:(lia) Hv). cbn. lia.
    + destruct (source_char c); [|done]. intros (v' & Hv & ->)%before_some. rewrite len_app. cbn [String.length] in *. specialize (IH s v' rest ltac:(lia) Hv). lia.
Qed.
(** the lines together, with the line ends *)
Fixpoint size (ls : list string) : nat := match ls with [] => 0 | l :: ls' => String.length l + 1 + size ls' end.
Lemma size_app a b : size (a ++ b) = size a + size b.
Proof. induction a as [|l a IH]; [done|]. cbn. rewrite IH. lia. Qed.
Lemma size_rev a : size (List.rev a) = size a.
Proof. induction a as [|l a IH]; [done|]. cbn. rewrite size_app, IH. cbn. lia. Qed.
Lemma size_skip a : size (skip_blank a) <= size a.
Proof. induction a as [|l a IH]; [done|]. cbn. destruct (blank l); cbn; lia. Qed.
Lemma drop_len n s : String.length (drop_str n s) <= String.length s.
Proof. revert s. induction n as [|n IH]; intros [|c s]; cbn; try lia. specialize (IH s). lia. Qed.
Lemma size_drop n a : size (map (drop_str n) a) <= size a.
Proof. induction a as [|l a IH]; [done|]. cbn. pose proof (drop_len n l). lia. Qed.
Lemma size_join ls : ls <> [] -> String.length (join newline ls) + 1 = size ls.
Proof.
  induction ls as [|l ls IH]; [done|]. intros _. destruct ls as [|l' ls]; [cbn; lia|]. rewrite join_cons_ne, !len_app. specialize (IH ltac:(done)). cbn [size] in *. cbn. cbn in IH. lia.
Qed.
Lemma size_lines n : forall s, String.length s <= n -> size (lines s) <= String.length s + 1.
Proof.
  induction n as [|n IH]; intros [|c s] Hn; cbn in Hn; try (cbn; lia). cbn [lines].
  destruct (decide (c = c_newline)); [cbn; specialize (IH s ltac:(lia)); lia|]. destruct (decide (c = c_return)).
  - destruct s as [|c' s]; [cbn; lia|]. cbn in Hn. destruct (decide (c' = c_newline)).
    + cbn. specialize (IH s ltac:(lia)). lia.
    + specialize (IH (String c' s) ltac:(cbn; lia)). cbn [size String.length] in *. lia.
  - specialize (IH s ltac:(lia)). unfold to_first. destruct (lines s) as [|l ls]; cbn in *; lia.
Qed.
Lemma block_len raw : String.length (block_value raw) <= String.length raw.
Proof.
  unfold block_value. pose proof (size_lines _ raw ltac:(reflexivity)) as H. destruct (lines raw) as [|l ls]; [cbn; lia|].
  set (x := List.rev _). destruct (decide (x = [])) as [->|Hx]; [cbn; lia|]. pose proof (size_join x Hx) as E.
  assert (size x <= size (l :: ls)); [|lia]. unfold x. rewrite size_rev. etransitivity; [apply size_skip|]. rewrite size_rev. etransitivity; [apply size_skip|].
  cbn [size]. pose proof (size_drop (default 0 (common_indent ls)) ls). lia.
Qed.
Lemma skip_app p s : all_chars white p = true -> skip_white (p +:+ s) = skip_white s.
Proof. induction p as [|c p IH]; [done|]. cbn [all_chars]. intros [Hc Hp]%andb_prop. rewrite sapp_cons. cbn. rewrite Hc. by apply IH. Qed.
Lemma single_read prefix desc rest : all_chars white prefix = true -> desc <> "" ->
  read_string (prefix +:+ in_quotes desc +:+ rest) = Some (desc, rest) <-> all_chars plain_char desc = true.
Proof.
  intros Hp Hne. unfold read_string. rewrite (skip_app _ _ Hp). unfold in_quotes.
  assert (E : skip_white (("""" +:+ desc +:+ """") +:+ rest) = String c_quote (desc +:+ String c_quote rest)).
  { rewrite <- app_assoc_s. rewrite sapp_cons, sapp_nil_l, <- app_assoc_s, sapp_cons. by rewrite sapp_nil_l. }
  rewrite E. cbn zeta. split.
  - destruct (has_prefix quotes3 _) eqn:E3.
    + destruct (read_block _) as [[raw r]|] eqn:Eb; [|done]. intros [= Hv ->]. exfalso. apply (read_block_len _ _ _ _ (le_n _)) in Eb. pose proof (block_len raw) as Hl. rewrite Hv in Hl.
      pose proof (drop_len 2 (desc +:+ String c_quote rest)) as Hd. change (drop_str 3 (String c_quote ?x)) with (drop_str 2 x) in Eb.
      assert (Hd' : String.length (drop_str 2 (desc +:+ String c_quote rest)) + 2 <= String.length (desc +:+ String c_quote rest)).
      { destruct desc as [|a [|b desc]]; [done| |rewrite !sapp_cons; cbn [drop_str String.length]; lia]. rewrite sapp_cons, sapp_nil_l. destruct rest; cbn; lia. }
      rewrite len_app in Hd'. cbn [String.length] in Hd'. lia.
    + rewrite decide_True by done. intros H. destruct (read_chars_len _ _ _ _ (le_n _) H) as [[_ Hall]|Hlt]; [done|]. rewrite len_app in Hlt. cbn [String.length] in Hlt. lia.
  - intros Hall. destruct (has_prefix quotes3 _) eqn:E3.
    + exfalso. destruct desc as [|c desc]; [done|]. cbn [all_chars] in Hall. apply andb_prop in Hall as [Hc _]. apply has_prefix_spec in E3 as [t E3]. unfold quotes3 in E3. rewrite !sapp_cons in E3. injection E3 as -> _. by vm_compute in Hc.
    + rewrite decide_True by done. by apply plain_read.
Qed.

(** ** blocks *)
Fixpoint no3 (s : string) : Prop := match s with EmptyString => True | String c s' => has_prefix quotes3 s = false /\ no3 s' end.
Lemma no3_of s : ~ contains s quotes3 -> no3 s.
Proof.
  induction s as [|c s IH]; [done|]. intros H. split.
  - destruct (has_prefix quotes3 (String c s)) eqn:E; [|done]. exfalso. apply H. apply has_prefix_spec in E as [t ->]. exists "", t. by rewrite sapp_nil_l.
  - apply IH. intros (a & b & ->). apply H. exists (String c a), b. by rewrite sapp_cons.
Qed.
Lemma white_step c t : white c = true \/ c = c_newline -> read_block (String c t) = before (String c "") (read_block t).
Proof.
  intros H. assert (Hc : c <> c_quote /\ c <> c_backslash /\ source_char c = true).
  { destruct H as [H| ->]; [|done]. unfold white in H. apply orb_prop in H as [H|H]; apply bool_decide_eq_true in H; subst; done. }
  destruct Hc as (N1 & N2 & Hs). cbn [read_block]. unfold quotes3. cbn [has_prefix]. rewrite !decide_False by (intros E; by apply N1 || by apply N2). by rewrite Hs.
Qed.

Lemma prefix_nl line t : has_prefix quotes3 line = false -> has_prefix quotes3 (line +:+ String c_newline t) = false.
Proof.
  unfold quotes3. destruct line as [|a line]; [done|]. rewrite sapp_cons. cbn [has_prefix]. destruct (decide _); [|done]. destruct line as [|b line]; [done|]. rewrite sapp_cons. cbn [has_prefix].
  destruct (decide _); [|done]. destruct line as [|d line]; [done|]. rewrite sapp_cons. cbn [has_prefix]. by destruct (decide _).
Qed.
Lemma no3_head s : no3 s -> has_prefix quotes3 s = false.
Proof. destruct s; [done|by intros []]. Qed.
Lemma line_step line t : no3 line -> all_chars source_char line = true -> read_block (line +:+ String c_newline t) = before line (read_block (String c_newline t)).
Proof.
  induction line as [|c line IH]; intros H3 Hs.
  - rewrite sapp_nil_l. destruct (read_block _) as [[v r]|]; [|done]. cbn. by rewrite sapp_nil_l.
  - destruct H3 as [H3 H3']. cbn [all_chars] in Hs. apply andb_prop in Hs as [Hc Hs]. remember (read_block (String c_newline t)) as rb eqn:Erb. rewrite sapp_cons. cbn [read_block]. rewrite <- sapp_cons, (prefix_nl _ _ H3), sapp_cons.
    replace (has_prefix (String c_backslash quotes3) (String c (line +:+ String c_newline t))) with false.
    + rewrite Hc, (IH H3' Hs). destruct rb as [[v r]|]; [|done]. cbn. by rewrite sapp_cons, sapp_nil_l, sapp_cons.
    + change (has_prefix (String c_backslash quotes3) (String c (line +:+ String c_newline t))) with (if decide (c_backslash = c) then has_prefix quotes3 (line +:+ String c_newline t) else false).
      rewrite (prefix_nl _ _ (no3_head _ H3')). by destruct (decide _).
Qed.
Lemma before_app a b r : before (a +:+ b) r = before a (before b r).
Proof. destruct r as [[v x]|]; [|done]. cbn. by rewrite app_assoc_s. Qed.
Lemma white_read p t : all_chars white p = true -> read_block (p +:+ t) = before p (read_block t).
Proof.
  induction p as [|c p IH]; intros H.
  - rewrite sapp_nil_l. destruct (read_block _) as [[v r]|]; [|done]. cbn. by rewrite sapp_nil_l.
  - cbn [all_chars] in H. apply andb_prop in H as [Hc Hp]. rewrite sapp_cons, white_step by (by left). rewrite (IH Hp), <- before_app. by rewrite sapp_cons, sapp_nil_l.
Qed.
Lemma join_cons_nil x l : join "" (x :: l) = x +:+ join "" l.
Proof. destruct l as [|y l]; [cbn; by rewrite sapp_nil_r|]. by rewrite join_cons_ne, sapp_nil_l. Qed.
(** a line as it is written *)
Definition put_line (prefix line : string) : string := if decide (line = "") then "" else prefix +:+ line.
Lemma body_read prefix ls t : all_chars white prefix = true -> Forall (fun l => no3 l /\ all_chars source_char l = true) ls ->
  read_block (join "" (map (fun l => put_line prefix l +:+ newline) ls) +:+ t) = before (join "" (map (fun l => put_line prefix l +:+ newline) ls)) (read_block t).
Proof.
  intros Hp. induction 1 as [|l ls [H3 Hs] HF IH].
  - cbn. rewrite sapp_nil_l. destruct (read_block _) as [[v r]|]; [|done]. cbn. by rewrite sapp_nil_l.
  - cbn [map]. rewrite join_cons_nil, <- !app_assoc_s. rewrite !before_app.
    assert (Hl : forall t, read_block (put_line prefix l +:+ newline +:+ t) = before (put_line prefix l) (before newline (read_block t))).
    { intros t'. assert (Hn : read_block (l +:+ newline +:+ t') = before l (before newline (read_block t'))).
      { change (newline +:+ t') with (String c_newline t'). rewrite line_step by done. by rewrite white_step by (by right). }
      unfold put_line. destruct (decide (l = "")) as [->|N]; [exact Hn|]. rewrite <- app_assoc_s, white_read by done. by rewrite Hn, before_app. }
    rewrite Hl, IH. done.
Qed.
(** the lines of the block *)
Definition no_end (l : string) : bool := all_chars (fun c => negb (bool_decide (c = c_newline)) && negb (bool_decide (c = c_return))) l.
Lemma lines_app l t : no_end l = true -> lines (l +:+ String c_newline t) = l :: lines t.
Proof.
  induction l as [|c l IH]; intros H; [done|]. cbn in H. apply andb_prop in H as [[H1 H2]%andb_prop H]. apply negb_true_iff, bool_decide_eq_false in H1. apply negb_true_iff, bool_decide_eq_false in H2.
  rewrite sapp_cons. cbn [lines]. rewrite !decide_False by done. by rewrite (IH H).
Qed.
Lemma lines_one l : no_end l = true -> lines l = [l].
Proof.
  induction l as [|c l IH]; intros H; [done|]. cbn in H. apply andb_prop in H as [[H1 H2]%andb_prop H]. apply negb_true_iff, bool_decide_eq_false in H1. apply negb_true_iff, bool_decide_eq_false in H2.
  cbn [lines]. rewrite !decide_False by done. by rewrite (IH H).
Qed.
Lemma lines_body prefix ls p : Forall (fun l => no_end (put_line prefix l) = true) ls -> no_end p = true ->
  lines (join "" (map (fun l => put_line prefix l +:+ newline) ls) +:+ p) = map (put_line prefix) ls ++ [p].
Proof.
  intros H Hp. induction H as [|l ls Hl H IH]; [cbn; rewrite sapp_nil_l; by apply lines_one|]. cbn [map app]. rewrite join_cons_nil, <- !app_assoc_s.
  change (newline +:+ ?x) with (String c_newline x). by rewrite lines_app, IH.
Qed.
Lemma all_chars_app p a b : all_chars p (a +:+ b) = all_chars p a && all_chars p b.
Proof. induction a as [|c a IH]; [done|]. rewrite sapp_cons. cbn. by rewrite IH, andb_assoc. Qed.
Lemma white_no_end p : all_chars white p = true -> no_end p = true.
Proof.
  unfold no_end. induction p as [|c p IH]; [done|]. cbn. intros [Hc Hp]%andb_prop. rewrite (IH Hp), andb_true_r. unfold white in Hc. apply orb_prop in Hc as [Hc|Hc]; apply bool_decide_eq_true in Hc; subst; done.
Qed.
Lemma indent_app p l : all_chars white p = true -> indent (p +:+ l) = String.length p + indent l.
Proof. induction p as [|c p IH]; [done|]. cbn [all_chars]. intros [Hc Hp]%andb_prop. rewrite sapp_cons. cbn. rewrite Hc. by rewrite IH. Qed.
Lemma blank_put prefix l : all_chars white prefix = true -> blank (put_line prefix l) = blank l.
Proof. intros Hp. unfold put_line. destruct (decide (l = "")) as [->|N]; [done|]. unfold blank. by rewrite all_chars_app, Hp. Qed.
Lemma indent_put prefix l : all_chars white prefix = true -> blank l = false -> indent (put_line prefix l) = String.length prefix + indent l.
Proof. intros Hp Hb. unfold put_line. destruct (decide (l = "")) as [->|N]; [done|]. by apply indent_app. Qed.
Lemma common_least prefix ls tail : all_chars white prefix = true -> blank tail = true ->
  match common_indent (map (put_line prefix) ls ++ [tail]) with Some n => String.length prefix <= n | None => True end /\
  ((exists l, l ∈ ls /\ blank l = false /\ indent l = 0) -> common_indent (map (put_line prefix) ls ++ [tail]) = Some (String.length prefix)).
Proof.
  intros Hp Ht. induction ls as [|l ls [IH1 IH2]].
  - cbn. rewrite Ht. split; [done|]. intros (l & H & _). by apply elem_of_nil in H.
  - cbn [map app common_indent]. rewrite blank_put by done. destruct (blank l) eqn:E.
    + split; [done|]. intros (x & [->|Hx]%elem_of_cons & Hb & Hi); [congruence|]. apply IH2. by exists x.
    + rewrite indent_put by done. split.
      * destruct (common_indent _); lia.
      * intros (x & [->|Hx]%elem_of_cons & Hb & Hi).
        -- rewrite Hi. destruct (common_indent _); f_equal; lia.
        -- rewrite IH2 by (by exists x). f_equal. lia.
Qed.
Lemma drop_put prefix l : drop_str (String.length prefix) (put_line prefix l) = l.
Proof.
  unfold put_line. destruct (decide (l = "")) as [->|N]; [by destruct prefix|]. induction prefix as [|c p IH]; [done|]. rewrite sapp_cons. cbn. done.
Qed.
Lemma drop_all p : drop_str (String.length p) p = "".
Proof. by induction p. Qed.
Lemma block_eq prefix ls : all_chars white prefix = true -> Forall (fun l => no_end l = true) ls -> (exists l, l ∈ ls /\ blank l = false /\ indent l = 0) ->
  (exists l, head ls = Some l /\ blank l = false) -> (exists l, last ls = Some l /\ blank l = false) ->
  block_value (newline +:+ join "" (map (fun l => put_line prefix l +:+ newline) ls) +:+ prefix) = join newline ls.
Proof.
  intros Hp Hn Hz (f & Hf & Hbf) (e & He & Hbe). unfold block_value. change (newline +:+ ?x) with ("" +:+ String c_newline x). rewrite lines_app by done.
  rewrite lines_body; [|eapply Forall_impl; [exact Hn|]; intros l Hl; unfold put_line; destruct (decide (l = "")) as [->|N]; [done|pose proof (white_no_end _ Hp) as Ew; unfold no_end in *; by rewrite all_chars_app, Ew, Hl]|by apply white_no_end].
  rewrite (proj2 (common_least prefix ls prefix Hp Hp) Hz). change (default 0 (Some ?n)) with n. rewrite map_app, map_map. cbn [map]. rewrite drop_all.
  replace (map (fun x => drop_str (String.length prefix) (put_line prefix x)) ls) with ls; [|clear; induction ls as [|l ls IH]; [done|]; cbn; by rewrite drop_put, <- IH].
  f_equal. cbn [skip_blank blank all_chars]. destruct ls as [|l ls]; [done|]. cbn in Hf. injection Hf as ->. cbn [app skip_blank]. rewrite Hbf.
  rewrite app_comm_cons, List.rev_app_distr. cbn [List.rev app skip_blank blank all_chars]. change (List.rev ls ++ [f]) with (List.rev (f :: ls)).
  destruct (List.rev (f :: ls)) as [|y ys] eqn:E; [apply (f_equal length) in E; by rewrite List.rev_length in E|].
  assert (Hy : y = e). { apply (f_equal (@List.rev _)) in E. rewrite List.rev_involutive in E. rewrite E in He. cbn in He. rewrite last_snoc in He. congruence. }
  subst y. cbn [skip_blank]. rewrite Hbe. rewrite <- E. apply List.rev_involutive.
Qed.
Lemma contains_line (ls : list string) l : l ∈ ls -> contains (join newline ls) l.
Proof. apply contains_join. Qed.
Lemma chars_join p sep ls : all_chars p (join sep ls) = true -> Forall (fun l => all_chars p l = true) ls.
Proof.
  induction ls as [|l ls IH]; [done|]. intros H. destruct ls as [|l' ls]; [constructor; [done|constructor]|]. rewrite join_cons_ne, !all_chars_app in H. apply andb_prop in H as [H1 [_ H2]%andb_prop].
  constructor; [done|by apply IH].
Qed.
Lemma block_read prefix ls rest : all_chars white prefix = true -> Forall (fun l => no_end l = true) ls -> all_chars source_char (join newline ls) = true -> ~ contains (join newline ls) quotes3 ->
  (exists l, l ∈ ls /\ blank l = false /\ indent l = 0) ->
  (exists l, head ls = Some l /\ blank l = false) -> (exists l, last ls = Some l /\ blank l = false) ->
  read_string (prefix +:+ quotes3 +:+ newline +:+ join "" (map (fun l => put_line prefix l +:+ newline) ls) +:+ prefix +:+ quotes3 +:+ rest) = Some (join newline ls, rest).
Proof.
  intros Hp Hn Hs H3 Hz Hf He. unfold read_string. rewrite (skip_app _ _ Hp). change (skip_white (quotes3 +:+ ?x)) with (quotes3 +:+ x). cbn zeta. rewrite has_prefix_app.
  change (drop_str 3 (quotes3 +:+ ?x)) with x. change (newline +:+ ?x) with (String c_newline x) at 1. rewrite white_step by (by right).
  assert (Hl : Forall (fun l => no3 l /\ all_chars source_char l = true) ls).
  { apply Forall_forall. intros l Hl. split; [|by eapply (proj1 (Forall_forall _ _) (chars_join _ _ _ Hs))]. apply no3_of. intros Hc. apply H3. eapply contains_trans; [by apply contains_line|done]. }
  rewrite body_read by done. rewrite white_read by done.
  assert (E : read_block (quotes3 +:+ rest) = Some ("", rest)) by done. rewrite E. cbn [before]. rewrite sapp_nil_r.
  change (String c_newline "" +:+ ?x) with (newline +:+ x). by rewrite block_eq.
Qed.
Lemma split_newline_free d : Forall (fun l => all_chars (fun c => negb (bool_decide (c = c_newline))) l = true) (split d newline).
Proof.
  eapply Forall_impl; [by apply split_free|]. intros l Hl. cbn beta in Hl. change newline with (chr c_newline) in Hl. assert (H : free_of c_newline l = true) by (by rewrite free_of_str_in, Hl). clear Hl.
  induction l as [|c l IH]; [done|]. cbn in *. apply andb_prop in H as [-> H]. by apply IH.
Qed.
Lemma comment_single prefix desc rest : all_chars white prefix = true -> desc <> "" -> split desc newline = [desc] ->
  read_string (q_comment prefix desc +:+ rest) = Some (desc, newline +:+ rest) <-> all_chars plain_char desc = true.
Proof.
  intros Hp Hne Hs. rewrite comment_eq by done. unfold description_text. rewrite decide_False by done. rewrite Hs, <- !app_assoc_s. by apply single_read.
Qed.
Lemma comment_block prefix desc rest : all_chars white prefix = true -> split desc newline <> [desc] ->
  all_chars source_char desc = true -> all_chars (fun c => negb (bool_decide (c = c_return))) desc = true -> ~ contains desc quotes3 ->
  (exists l, l ∈ split desc newline /\ blank l = false /\ indent l = 0) ->
  (exists l, head (split desc newline) = Some l /\ blank l = false) -> (exists l, last (split desc newline) = Some l /\ blank l = false) ->
  read_string (q_comment prefix desc +:+ rest) = Some (desc, newline +:+ rest).
Proof.
  intros Hp Hs Hc Hr H3 Hz Hf Hl. pose proof (split_join desc newline) as Hj. assert (Hne : desc <> "") by (intros ->; by apply Hs).
  rewrite comment_eq by done. unfold description_text. rewrite decide_False by done. destruct (split desc newline) as [|a [|b ls]] eqn:E; [by destruct Hf as (? & [=] & _)| |].
  - exfalso. apply Hs. cbn in Hj. by rewrite Hj.
  - rewrite <- !app_assoc_s. transitivity (Some (join newline (a :: b :: ls), newline +:+ rest)); [|by rewrite Hj]. apply block_read; rewrite ?Hj; try done.
    rewrite <- Hj in Hr. apply chars_join in Hr. pose proof (split_newline_free desc) as Hn. rewrite E in Hn. apply Forall_forall. intros l Hin. unfold no_end.
    pose proof (proj1 (Forall_forall _ _) Hr l Hin) as H1. pose proof (proj1 (Forall_forall _ _) Hn l Hin) as H2. cbn beta in H1, H2. clear -H1 H2. induction l as [|c l IH]; [done|]. cbn in *.
    apply andb_prop in H1 as [-> H1]. apply andb_prop in H2 as [-> H2]. by rewrite IH.
Qed.

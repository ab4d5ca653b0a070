(** Descriptions of several lines: only those of C51 are read back. *)
From stdpp Require Import strings list.
From Coq Require Import Ascii NArith Lia.
From Verif Require Import GoStr GoStrL SpecGen SpecGql Gen Avro Gql GqlL SpecDesc SpecDoc GqlC DescL FilesL.

(** ** counting backslashes *)
Fixpoint bs (s : string) : nat := match s with EmptyString => 0 | String c s' => (if decide (c = c_backslash) then 1 else 0) + bs s' end.
Fixpoint bsl (ls : list string) : nat := match ls with [] => 0 | l :: ls' => bs l + bsl ls' end.
Lemma bs_app a b : bs (a +:+ b) = bs a + bs b.
Proof. induction a as [|c a IH]; [done|]. rewrite sapp_cons. cbn [bs]. rewrite IH. lia. Qed.
Lemma bsl_app a b : bsl (a ++ b) = bsl a + bsl b.
Proof. induction a as [|l a IH]; [done|]. cbn in *. lia. Qed.
Lemma bsl_rev a : bsl (List.rev a) = bsl a.
Proof. induction a as [|l a IH]; [done|]. cbn [List.rev]. rewrite bsl_app, IH. cbn. lia. Qed.
Lemma bsl_skip a : bsl (skip_blank a) <= bsl a.
Proof. induction a as [|l a IH]; [done|]. cbn. destruct (blank l); cbn; lia. Qed.
Lemma bs_drop n s : bs (drop_str n s) <= bs s.
Proof. revert s. induction n as [|n IH]; intros [|c s]; cbn [drop_str]; try lia. specialize (IH s). cbn [bs]. lia. Qed.
Lemma bsl_drop n a : bsl (map (drop_str n) a) <= bsl a.
Proof. induction a as [|l a IH]; [done|]. cbn. pose proof (bs_drop n l). lia. Qed.
Lemma bs_join ls : bs (join newline ls) = bsl ls.
Proof.
  induction ls as [|l ls IH]; [done|]. destruct ls as [|l' ls]; [cbn; lia|]. rewrite join_cons_ne, !bs_app, IH. change (bs newline) with 0. cbn [bsl]. lia.
Qed.
Lemma bs_lines n : forall s, String.length s <= n -> bsl (lines s) <= bs s.
Proof.
  induction n as [|n IH]; intros [|c s] Hn; cbn [String.length] in Hn; try (cbn; lia). cbn [lines bs].
  case_decide as E1.
  - subst c. rewrite decide_False by done. specialize (IH s ltac:(lia)). cbn. lia.
  - case_decide as E2.
    + subst c. rewrite decide_False by done. destruct s as [|c' s]; [done|]. cbn [String.length] in Hn. case_decide as E3.
      * subst c'. specialize (IH s ltac:(lia)). cbn [bs]. rewrite decide_False by done. cbn [bsl bs]. cbn. lia.
      * specialize (IH (String c' s) ltac:(cbn; lia)). cbn. cbn in IH. lia.
    + specialize (IH s ltac:(lia)). unfold to_first. destruct (lines s) as [|l ls]; cbn in *; lia.
Qed.
Lemma bs_block raw : bs (block_value raw) <= bs raw.
Proof.
  unfold block_value. pose proof (bs_lines _ raw ltac:(reflexivity)) as H. destruct (lines raw) as [|l ls]; [cbn; lia|]. rewrite bs_join, bsl_rev.
  etrans; [apply bsl_skip|]. rewrite bsl_rev. etrans; [apply bsl_skip|]. pose proof (bsl_drop (default 0 (common_indent ls)) ls) as Hd. cbn in *. lia.
Qed.
Lemma bs_white p : all_chars white p = true -> bs p = 0.
Proof.
  induction p as [|c p IH]; [done|]. cbn [all_chars bs]. intros [Hc Hp]%andb_prop. rewrite (IH Hp). unfold white in Hc.
  apply orb_prop in Hc as [Hc|Hc]; apply bool_decide_eq_true in Hc; subst; by rewrite decide_False.
Qed.

(** ** what is between the quotes *)
Lemma no3_ext a b : has_prefix quotes3 (a +:+ b) = false -> has_prefix quotes3 a = false.
Proof. destruct (has_prefix quotes3 a) eqn:E; [|done]. by rewrite (has_prefix_mono _ _ _ E). Qed.
Lemma read_block_parts n : forall s raw rest, String.length s <= n -> read_block s = Some (raw, rest) ->
  exists consumed, s = consumed +:+ quotes3 +:+ rest /\ all_chars source_char consumed = true /\ bs raw <= bs consumed /\ (bs raw = bs consumed -> no3 consumed).
Proof.
  induction n as [|n IH]; intros s raw rest Hn; [by destruct s; cbn in Hn; [|lia]|]. destruct s as [|c s]; [done|]. cbn [read_block].
  destruct (has_prefix quotes3 (String c s)) eqn:E1.
  - apply has_prefix_spec in E1 as [t E1]. unfold quotes3 in E1. rewrite !sapp_cons, sapp_nil_l in E1. injection E1 as -> ->. intros [= <- <-].
    exists "". split_and!; [by rewrite sapp_nil_l|done|cbn; lia|done].
  - destruct (has_prefix (String c_backslash quotes3) (String c s)) eqn:E2.
    + apply has_prefix_spec in E2 as [t E2]. unfold quotes3 in E2. rewrite !sapp_cons, sapp_nil_l in E2. injection E2 as -> ->.
      intros (v & Hv & ->)%before_some. cbn in Hn. apply IH in Hv as (x & -> & Hs & Hb & _); [|lia].
      exists (String c_backslash quotes3 +:+ x). split_and!; [done|by rewrite all_chars_app, Hs| |]; rewrite !bs_app; change (bs (String c_backslash quotes3)) with 1; change (bs quotes3) with 0; lia.
    + destruct (source_char c) eqn:E3; [|done]. intros (v & Hv & ->)%before_some. cbn [String.length] in Hn. apply IH in Hv as (x & -> & Hs & Hb & H3); [|lia].
      exists (String c x). split_and!; [done|cbn; by rewrite E3, Hs| |].
      * rewrite bs_app. cbn [bs]. lia.
      * rewrite bs_app. cbn [bs]. intros Hq. split; [|apply H3; lia]. by apply (no3_ext (String c x) (quotes3 +:+ rest)).
Qed.
Lemma no3_parts a b : no3 (a +:+ b) -> no3 a /\ no3 b.
Proof.
  induction a as [|c a IH]; [done|]. rewrite sapp_cons. intros [H1 H2]. destruct (IH H2) as [H3 H4]. split; [|done]. split; [|done]. by apply (no3_ext (String c a) b).
Qed.
Lemma no3_not s : no3 s -> ~ contains s quotes3.
Proof.
  intros H (a & b & ->). apply no3_parts in H as [_ H]. apply no3_head in H. by rewrite has_prefix_app in H.
Qed.
Lemma no3_line l t : no3 l -> no3 t -> no3 (l +:+ String c_newline t).
Proof.
  induction l as [|c l IH]; intros Hl Ht; [by split|]. destruct Hl as [H1 H2]. rewrite sapp_cons. split; [|by apply IH].
  by apply (prefix_nl (String c l)).
Qed.
Lemma no3_join ls : Forall no3 ls -> no3 (join newline ls).
Proof.
  induction 1 as [|l ls Hl HF IH]; [done|]. destruct ls as [|l' ls]; [done|]. rewrite join_cons_ne. by apply (no3_line l).
Qed.
Lemma chars_join_all p ls : p c_newline = true -> Forall (fun l => all_chars p l = true) ls -> all_chars p (join newline ls) = true.
Proof.
  intros Hn. induction 1 as [|l ls Hl HF IH]; [done|]. destruct ls as [|l' ls]; [done|]. rewrite join_cons_ne, !all_chars_app, Hl, IH. change (all_chars p newline) with (p c_newline && true). by rewrite Hn.
Qed.

(** ** the lines of a value *)
Lemma skip_parts ls : exists B, ls = B ++ skip_blank ls.
Proof. induction ls as [|l ls [B IH]]; [by exists []|]. cbn. destruct (blank l); [|by exists []]. exists (l :: B). cbn. by rewrite <- IH. Qed.
Lemma skip_head ls l : head (skip_blank ls) = Some l -> blank l = false.
Proof. induction ls as [|x ls IH]; [done|]. cbn. destruct (blank x) eqn:E; [done|]. by intros [= <-]. Qed.
Lemma skip_in ls l : l ∈ ls -> blank l = false -> l ∈ skip_blank ls.
Proof. intros Hl Hb. induction Hl as [l ls|l x ls Hl IH]; cbn; [rewrite Hb; left|]. destruct (blank x); [by apply IH|by right]. Qed.
Lemma skip_all ls : Forall (fun l => blank l = true) ls -> skip_blank ls = [].
Proof. induction 1 as [|l ls Hl HF IH]; [done|]. cbn. by rewrite Hl. Qed.
Lemma common_attained ls n : common_indent ls = Some n -> exists l, l ∈ ls /\ blank l = false /\ indent l = n.
Proof.
  revert n. induction ls as [|l ls IH]; intros n; [done|]. cbn. destruct (blank l) eqn:E.
  - intros H. destruct (IH _ H) as (x & H1 & H2 & H3). exists x. split; [by right|done].
  - destruct (common_indent ls) as [m|]; intros [= <-].
    + destruct (decide (indent l <= m)%nat) as [Hm|Hm].
      * exists l. split; [left|]. split; [done|lia].
      * destruct (IH m eq_refl) as (x & H1 & H2 & H3). exists x. split; [by right|]. split; [done|lia].
    + exists l. split; [left|done].
Qed.
Lemma common_none ls : common_indent ls = None -> Forall (fun l => blank l = true) ls.
Proof. induction ls as [|l ls IH]; [done|]. cbn. destruct (blank l) eqn:E; [|done]. intros H. constructor; [done|]. by apply IH. Qed.
Lemma drop_indent l : blank l = false -> blank (drop_str (indent l) l) = false /\ indent (drop_str (indent l) l) = 0.
Proof.
  induction l as [|c l IH]; [done|]. unfold blank in *. cbn [all_chars indent]. destruct (white c) eqn:E; cbn [andb].
  - intros H. cbn [drop_str]. by apply IH.
  - intros _. cbn. by rewrite E.
Qed.
Lemma drop_chars p n s : all_chars p s = true -> all_chars p (drop_str n s) = true.
Proof. revert s. induction n as [|n IH]; intros [|c s]; try done. cbn. intros [_ H]%andb_prop. by apply IH. Qed.
Lemma lines_no_end n : forall s, String.length s <= n -> Forall (fun l => no_end l = true) (lines s).
Proof.
  induction n as [|n IH]; intros [|c s] Hn; cbn [String.length] in Hn; try lia; try (by repeat constructor). cbn [lines].
  case_decide as E1; [constructor; [done|]; apply IH; lia|]. case_decide as E2.
  - constructor; [done|]. destruct s as [|c' s]; [by repeat constructor|]. cbn [String.length] in Hn. case_decide; apply IH; cbn; lia.
  - pose proof (IH s ltac:(lia)) as H. assert (Hc : negb (bool_decide (c = c_newline)) && negb (bool_decide (c = c_return)) = true) by (by rewrite !bool_decide_eq_false_2).
    unfold to_first. destruct (lines s) as [|l ls]; [repeat constructor; unfold no_end; cbn; by rewrite Hc|]. inversion H; subst. constructor; [|done]. unfold no_end in *. cbn [all_chars]. by rewrite Hc.
Qed.
Lemma rev_in {A} (x : A) ls : x ∈ ls -> x ∈ List.rev ls.
Proof. rewrite !elem_of_list_In. apply in_rev. Qed.
Lemma block_shape raw X : X = List.rev (skip_blank (List.rev (skip_blank (map (drop_str (default 0 (common_indent (lines raw)))) (lines raw))))) -> X <> [] ->
  Forall (fun l => no_end l = true) X /\ (exists l, l ∈ X /\ blank l = false /\ indent l = 0) /\
  (exists l, head X = Some l /\ blank l = false) /\ (exists l, last X = Some l /\ blank l = false).
Proof.
  intros HX Hne. set (Z := map (drop_str (default 0 (common_indent (lines raw)))) (lines raw)) in *. set (Y := skip_blank Z) in *.
  destruct (skip_parts Z) as [B HB]. fold Y in HB. destruct (skip_parts (List.rev Y)) as [C HC].
  assert (HY : Y = X ++ List.rev C). { rewrite HX, <- rev_app_distr, <- HC, rev_involutive. done. }
  split_and!.
  - assert (HZ : Forall (fun l => no_end l = true) Z).
    { unfold Z. apply Forall_map. eapply Forall_impl; [apply (lines_no_end _ raw (le_n _))|]. intros l Hl. by apply drop_chars. }
    rewrite HB, HY in HZ. apply Forall_app in HZ as [_ HZ]. by apply Forall_app in HZ as [HZ _].
  - destruct (common_indent (lines raw)) as [n|] eqn:En.
    + destruct (common_attained _ _ En) as (l & Hl & Hb & Hi). destruct (drop_indent l Hb) as [H1 H2]. rewrite Hi in H1, H2. exists (drop_str n l). split; [|done].
      rewrite HX. apply rev_in, skip_in; [|done]. apply rev_in, skip_in; [|done]. unfold Z. cbn [default]. apply elem_of_list_fmap. by exists l.
    + exfalso. apply Hne. rewrite HX. unfold Y. rewrite (skip_all Z); [done|]. unfold Z. cbn [default]. apply Forall_map. eapply Forall_impl; [by apply common_none|]. intros l Hl. by destruct l.
  - destruct X as [|x X']; [done|]. exists x. split; [done|]. apply (skip_head Z). fold Y. by rewrite HY.
  - destruct (skip_blank (List.rev Y)) as [|z Q] eqn:EQ; [by cbn in HX|]. exists z. split; [|apply (skip_head (List.rev Y)); by rewrite EQ]. rewrite HX. cbn. apply last_snoc.
Qed.

Lemma body_lines prefix ls : bs prefix = 0 ->
  bs (join "" (map (fun l => put_line prefix l +:+ newline) ls)) = bsl ls.
Proof.
  intros Hp. induction ls as [|l ls IH]; [done|]. cbn [map]. rewrite join_cons_nil, !bs_app, IH. unfold put_line. case_decide as E; [subst; done|]. rewrite bs_app, Hp. change (bs newline) with 0. cbn [bsl]. lia.
Qed.
Lemma body_in prefix ls (P : string -> Prop) : (forall a b, P (a +:+ b) -> P a /\ P b) -> P (join "" (map (fun l => put_line prefix l +:+ newline) ls)) -> Forall (fun l => l = "" \/ P l) ls.
Proof.
  intros HP. induction ls as [|l ls IH]; [constructor|]. cbn [map]. rewrite join_cons_nil. intros [H1 H2]%HP. constructor; [|by apply IH].
  apply HP in H1 as [H1 _]. unfold put_line in H1. case_decide as E; [by left|]. right. by apply HP in H1 as [_ H1].
Qed.
Lemma comment_lines prefix desc rest : all_chars white prefix = true -> split desc newline <> [desc] ->
  read_string (q_comment prefix desc +:+ rest) = Some (desc, newline +:+ rest) ->
  all_chars source_char desc = true /\ all_chars (fun c => negb (bool_decide (c = c_return))) desc = true /\ ~ contains desc quotes3 /\
  (exists l, l ∈ split desc newline /\ blank l = false /\ indent l = 0) /\
  (exists l, head (split desc newline) = Some l /\ blank l = false) /\ (exists l, last (split desc newline) = Some l /\ blank l = false).
Proof.
  intros Hp Hs. pose proof (split_join desc newline) as Hj. assert (Hne : desc <> "") by (intros ->; by apply Hs).
  rewrite comment_eq by done. unfold description_text. rewrite decide_False by done. destruct (split desc newline) as [|a [|b ls]] eqn:E; [by apply split_ne in E| |].
  { exfalso. apply Hs. cbn in Hj. by rewrite Hj. }
  set (L := a :: b :: ls) in *. rewrite <- !app_assoc_s. change (join "" (map _ L)) with (join "" (map (fun l => put_line prefix l +:+ newline) L)).
  set (body := join "" (map (fun l => put_line prefix l +:+ newline) L)).
  unfold read_string. rewrite (skip_app _ _ Hp). change (skip_white (quotes3 +:+ ?x)) with (quotes3 +:+ x). cbn zeta. rewrite has_prefix_app.
  change (drop_str 3 (quotes3 +:+ ?x)) with x. change (newline +:+ ?x) with (String c_newline x) at 1. rewrite white_step by (by right).
  destruct (read_block _) as [[raw r]|] eqn:Eb; [|done]. cbn [before]. intros [= Hv ->].
  destruct (read_block_parts _ _ _ _ (le_n _) Eb) as (x & Hx & Hsrc & Hb & H3).
  assert (x = body +:+ prefix) as ->. { symmetry. apply (app_inj_r_s _ _ (quotes3 +:+ newline +:+ rest)). rewrite <- app_assoc_s. exact Hx. }
  assert (Hbv : bs (block_value (String c_newline "" +:+ raw)) <= bs raw).
  { etrans; [apply bs_block|]. rewrite bs_app. cbn. done. }
  rewrite Hv in Hbv. assert (Hbd : bs desc = bs (body +:+ prefix)).
  { rewrite <- Hj at 1. rewrite bs_join, bs_app, (bs_white _ Hp). unfold body. rewrite body_lines by (by apply bs_white). lia. }
  specialize (H3 ltac:(lia)). apply no3_parts in H3 as [H3 _]. rewrite all_chars_app in Hsrc. apply andb_prop in Hsrc as [Hsrc _].
  assert (HL3 : Forall no3 L). { eapply Forall_impl; [apply (body_in prefix L no3 no3_parts H3)|]. by intros l [->|]. }
  assert (HLs : Forall (fun l => all_chars source_char l = true) L).
  { eapply Forall_impl; [apply (body_in prefix L (fun l => all_chars source_char l = true)); [|exact Hsrc]|by intros l [->|]]. intros u v. rewrite all_chars_app. apply andb_prop. }
  assert (HX : exists X, X = List.rev (skip_blank (List.rev (skip_blank (map (drop_str (default 0 (common_indent (lines raw)))) (lines raw))))) /\ join newline X = desc).
  { eexists. split; [reflexivity|]. rewrite <- Hv. unfold block_value. change (lines (String c_newline "" +:+ raw)) with ("" :: lines raw). cbn [skip_blank]. done. }
  destruct HX as (X & HX & HXd). assert (HXne : X <> []) by (intros ->; by apply Hne).
  destruct (block_shape raw X HX HXne) as (Hend & Hz & Hh & Hl).
  assert (HXL : L = X).
  { rewrite <- E, <- HXd. change newline with (chr c_newline). apply split_join_chr; [done|]. eapply Forall_impl; [exact Hend|]. intros l. clear. unfold no_end. induction l as [|c l IH]; [done|].
    cbn [all_chars]. intros [[H1 _]%andb_prop H]%andb_prop. cbn. rewrite IH by done. by rewrite H1. }
  rewrite HXL. split_and!; try done.
  - rewrite <- Hj. by apply chars_join_all.
  - rewrite <- HXd. apply chars_join_all; [done|]. eapply Forall_impl; [exact Hend|]. intros l. clear. unfold no_end. induction l as [|c l IH]; [done|].
    cbn [all_chars]. intros [[_ H1]%andb_prop H]%andb_prop. by rewrite H1, IH.
  - rewrite <- Hj. by apply no3_not, no3_join.
Qed.
Lemma comment_lines_iff prefix desc rest : all_chars white prefix = true -> split desc newline <> [desc] ->
  read_string (q_comment prefix desc +:+ rest) = Some (desc, newline +:+ rest) <->
  all_chars source_char desc = true /\ all_chars (fun c => negb (bool_decide (c = c_return))) desc = true /\ ~ contains desc quotes3 /\
  (exists l, l ∈ split desc newline /\ blank l = false /\ indent l = 0) /\
  (exists l, head (split desc newline) = Some l /\ blank l = false) /\ (exists l, last (split desc newline) = Some l /\ blank l = false).
Proof. intros Hp Hs. split; [by apply comment_lines|]. intros (H1 & H2 & H3 & H4 & H5 & H6). by apply comment_block. Qed.

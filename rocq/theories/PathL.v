(** Lemmas about instance paths. *)
From stdpp Require Import strings list gmap.
From Coq Require Import ZArith Ascii Lia.
From Verif Require Import GoStr GoStrL Val Conv Instr Heap Schema Build SpecPath.

Lemma segs_app a b : segs (a ++ b) = segs a +:+ segs b.
Proof.
  induction a as [|[k| |i] a IH]; cbn [segs app]; [by rewrite sapp_nil_l| | |]; by rewrite IH, !app_assoc_s.
Qed.
Lemma path_of_app a b : path_of (a ++ b) = path_of a +:+ segs b.
Proof. unfold path_of. by rewrite segs_app, app_assoc_s. Qed.
Lemma path_of_name a k : path_of (a ++ [Nm k]) = path_of a +:+ "." +:+ k.
Proof. rewrite path_of_app. cbn. by rewrite sapp_nil_r. Qed.
Lemma path_of_star a : path_of (a ++ [Star]) = path_of a +:+ "[*]".
Proof. rewrite path_of_app. done. Qed.
Lemma path_of_ix a i : path_of (a ++ [Ix i]) = path_of a +:+ idx_str i.
Proof. rewrite path_of_app. cbn. unfold index_str, idx_str. by rewrite !sapp_nil_r. Qed.

(** ** replace_all of one character *)
Lemma ra_chr_cons c new a s :
  replace_all (String a s) (chr c) new =
  if bool_decide (c = a) then new +:+ replace_all s (chr c) new else String a (replace_all s (chr c) new).
Proof. unfold replace_all. cbn [replace_all_go]. rewrite has_prefix_chr. by destruct (bool_decide (c = a)). Qed.
Lemma ra_chr_app c new s t :
  replace_all (s +:+ t) (chr c) new = replace_all s (chr c) new +:+ replace_all t (chr c) new.
Proof.
  induction s as [|a s IH]; [done|]. rewrite sapp_cons, !ra_chr_cons, IH.
  destruct (bool_decide (c = a)); [by rewrite app_assoc_s|done].
Qed.
Lemma ra_chr_free c new s : free_of c s = true -> replace_all s (chr c) new = s.
Proof.
  induction s as [|a s IH]; intros H; [done|]. cbn [free_of] in H. apply andb_true_iff in H as [H1 H2].
  rewrite ra_chr_cons, bool_decide_false; [by rewrite IH|]. intros ->. by rewrite bool_decide_true in H1.
Qed.

Definition seg_str (s : seg) : string :=
  match s with Nm k => k | Star => "[*]" | Ix i => idx_str i end.
Lemma plain_free k : plain_name k -> free_of "."%char k = true /\ free_of "["%char k = true.
Proof.
  intros (H1 & H2 & _). rewrite !free_of_str_in. unfold chr.
  split; [by rewrite H1|by rewrite H2].
Qed.
Lemma idx_free c i : is_digit c = false -> c <> "["%char -> c <> "]"%char -> free_of c (idx_str i) = true.
Proof.
  intros Hd H1 H2. unfold idx_str. rewrite !free_of_app.
  rewrite (str_all_free is_digit c (itoa (Z.of_nat i))) by (done || apply itoa_nat_digits).
  cbn. rewrite !bool_decide_false by congruence. done.
Qed.
Lemma seg_str_free s : seg_ok s -> free_of "."%char (seg_str s) = true.
Proof.
  destruct s as [k| |i]; intros H; [by apply plain_free|done|]. by apply idx_free.
Qed.
Lemma join_dot_cons s l : join "." (s :: l) = s +:+ foldr (fun x r => "." +:+ x +:+ r) "" l.
Proof.
  revert s. induction l as [|x l IH]; intros s; cbn [foldr]; [by rewrite sapp_nil_r|].
  rewrite join_cons by done. by rewrite IH.
Qed.
Lemma ra_idx i : replace_all (idx_str i) (chr "["%char) ".[" = "." +:+ idx_str i.
Proof.
  unfold idx_str. rewrite !ra_chr_app. rewrite (ra_chr_free "["%char _ (itoa _)); [done|].
  apply (str_all_free is_digit); [done|apply itoa_nat_digits].
Qed.
Lemma path_dots l : Forall seg_ok l ->
  replace_all (path_of l) "[" ".[" = join "." ("$" :: (seg_str <$> l)).
Proof.
  intros Hl. rewrite join_dot_cons. unfold path_of. change "[" with (chr "["%char).
  rewrite ra_chr_app. f_equal.
  induction Hl as [|s l Hs Hl IH]; [done|]. destruct s as [k| |i]; cbn [segs fmap list_fmap foldr seg_str].
  - rewrite !ra_chr_app, IH. rewrite (ra_chr_free _ _ k); [done|]. by apply plain_free.
  - rewrite !ra_chr_app, IH. done.
  - change (index_str i) with (idx_str i). rewrite ra_chr_app, IH, ra_idx. by rewrite <- app_assoc_s.
Qed.
Lemma split_path_dots l : Forall seg_ok l ->
  split (replace_all (path_of l) "[" ".[") "." = "$" :: (seg_str <$> l).
Proof.
  intros Hl. rewrite path_dots by done. change "." with (chr "."%char). apply split_join_chr; [done|].
  constructor; [done|]. apply Forall_fmap. eapply Forall_impl; [exact Hl|]. apply seg_str_free.
Qed.

(** the last component of a path *)
Lemma split_path_name l k : Forall seg_ok l -> plain_name k ->
  split (path_of (l ++ [Nm k])) "." = split (path_of l) "." ++ [k].
Proof.
  intros Hl Hk. rewrite path_of_name. change ("." +:+ k) with (String "."%char k). change "." with (chr "."%char).
  rewrite split_chr_app_gen. f_equal. apply split_chr_free. by apply plain_free.
Qed.
Lemma attach_path root c l s : Forall seg_ok (l ++ [s]) -> it_path c = path_of (l ++ [s]) ->
  attach root c = insert_at (seg_str <$> l) root c.
Proof.
  intros Hl Hp. unfold attach. rewrite Hp, split_path_dots by done. cbn iota beta.
  rewrite decide_False by (by intros H; apply H).
  rewrite fmap_app. cbn [fmap list_fmap].
  destruct ((seg_str <$> l) ++ [seg_str s]) as [|x r] eqn:E; [by destruct (seg_str <$> l)|].
  rewrite <- E. by rewrite removelast_last.
Qed.
Lemma prepend_name l k : k <> "" -> prepend_path (path_of l) k = path_of (l ++ [Nm k]).
Proof.
  intros Hk. unfold prepend_path. rewrite decide_True by (split; done). rewrite path_of_name. cbn. done.
Qed.

(** ** parsing of plain paths *)
Definition seg_key (s : seg) : string :=
  match s with Nm k => k | Star => "*" | Ix i => itoa (Z.of_nat i) end.
Lemma id_start_char a : id_start a = true -> id_char a = true.
Proof. unfold id_char. intros ->. done. Qed.
Lemma id_char_sep a : id_char a = true -> a <> "."%char /\ a <> "["%char.
Proof. by split; intros ->. Qed.
Lemma parse_name cur k l : str_all id_char k = true ->
  parse_steps (PName cur) (k +:+ segs l) = cons (cur +:+ k) <$> parse_steps PSel (segs l).
Proof.
  revert cur. induction k as [|a k IH]; intros cur H.
  - rewrite sapp_nil_l, sapp_nil_r. destruct l as [|[k'| |i] l]; reflexivity.
  - cbn [str_all] in H. apply andb_true_iff in H as [H1 H2]. rewrite sapp_cons. cbn [parse_steps]. rewrite H1, IH by done.
    by rewrite <- app_assoc_s.
Qed.
Lemma digits_go_head fuel n acc : (0 < n)%N -> (n < 10 ^ N.of_nat fuel)%N ->
  exists a s, digits_go fuel n acc = String a s /\ is_digit a = true /\ a <> "0"%char.
Proof.
  revert n acc. induction fuel as [|fuel IH]; intros n acc H0 Hn.
  - cbn in Hn. lia.
  - cbn [digits_go]. destruct (N.ltb_spec n 10) as [Hlt|Hge].
    + eexists _, _. split; [done|]. rewrite N.mod_small by lia. destruct (digit_char_val n) as [Hd _]; [lia|]. split; [done|].
      intros Hz. assert (Hv : (n = 1 \/ n = 2 \/ n = 3 \/ n = 4 \/ n = 5 \/ n = 6 \/ n = 7 \/ n = 8 \/ n = 9)%N) by lia.
      destruct Hv as [->|[->|[->|[->|[->|[->|[->|[->| ->]]]]]]]]; discriminate.
    + apply IH.
      * apply N.div_str_pos. lia.
      * apply N.div_lt_upper_bound; [lia|]. rewrite Nat2N.inj_succ, N.pow_succ_r' in Hn. lia.
Qed.
Lemma idx_ok_itoa i : idx_ok (itoa (Z.of_nat i)) = true.
Proof.
  unfold itoa. destruct (Z.of_nat i) as [|p|p] eqn:E; [done| |lia].
  cbn [Z.to_N]. unfold ntoa.
  destruct (digits_go_head (S (N.size_nat (Npos p))) (Npos p) "") as (a & s & -> & H1 & H2); [lia|apply size_nat_bound|].
  assert (E2 : is_digit a && negb (bool_decide (a = "0"%char)) = true) by (by rewrite H1, bool_decide_false).
  unfold idx_ok. destruct a as [[] [] [] [] [] [] [] []]; try exact E2. by destruct s.
Qed.
Lemma parse_index cur d l : str_all is_digit d = true -> idx_ok (cur +:+ d) = true ->
  parse_steps (PIdx cur) (d +:+ "]" +:+ segs l) = cons (cur +:+ d) <$> parse_steps PSel (segs l).
Proof.
  revert cur. induction d as [|a d IH]; intros cur H Hok.
  - rewrite sapp_nil_l. rewrite sapp_nil_r in *. change ("]" +:+ segs l) with (String "]" (segs l)).
    cbn [parse_steps]. by rewrite Hok.
  - cbn [str_all] in H. apply andb_true_iff in H as [H1 H2]. rewrite sapp_cons. cbn [parse_steps]. rewrite H1.
    rewrite IH; [|done|]; by rewrite <- ?app_assoc_s.
Qed.
Lemma parse_segs l : Forall concrete l -> parse_steps PSel (segs l) = Some (seg_key <$> l).
Proof.
  induction 1 as [|s l Hs Hl IH]; [done|]. destruct s as [k| |i]; [|done|]; cbn [segs fmap list_fmap seg_key].
  - destruct k as [|a k]; [done|]. cbn in Hs. apply andb_true_iff in Hs as [H1 H2].
    change ("." +:+ String a k +:+ segs l) with (String "." (String a (k +:+ segs l))). cbn [parse_steps].
    rewrite bool_decide_true by done. change (is_letter a || bool_decide (a = "_"%char)) with (id_start a) in H1. rewrite H1.
    rewrite parse_name by exact H2. by rewrite IH.
  - unfold index_str. rewrite <- !app_assoc_s. change ("[" +:+ (itoa (Z.of_nat i) +:+ ("]" +:+ segs l))) with (String "[" (itoa (Z.of_nat i) +:+ "]" +:+ segs l)).
    cbn [parse_steps]. rewrite (bool_decide_false ("["%char = "."%char)), bool_decide_true by done.
    rewrite parse_index; [|apply itoa_nat_digits|apply idx_ok_itoa]. by rewrite IH.
Qed.
Lemma plain_path_of l : Forall concrete l -> plain_path (path_of l) = Some (seg_key <$> l).
Proof. apply parse_segs. Qed.
Lemma ident_atoi k : ident k = true -> atoi k = None.
Proof.
  destruct k as [|a k]; [done|]. cbn [ident]. intros [H _]%andb_true_iff.
  destruct a as [[] [] [] [] [] [] [] []]; try done.
Qed.

(** ** index substitution *)
Lemma apply_mod_snoc m old new p : apply_mod (path_replace old new m) p = replace1 (apply_mod m p) old new.
Proof. unfold apply_mod, path_replace. by rewrite foldl_snoc. Qed.

(** ** the parent of an instance *)
Lemma drop_str_spec n s : (n <= String.length s)%nat -> exists t, s = t +:+ drop_str n s.
Proof.
  revert s. induction n as [|n IH]; intros s Hn; [by exists ""|]. destruct s as [|a s]; cbn in Hn; [lia|].
  cbn [drop_str]. destruct (IH s) as [t Ht]; [lia|]. exists (String a t). by rewrite sapp_cons, <- Ht.
Qed.
Lemma has_suffix_spec p s : has_suffix p s = true <-> exists t, s = t +:+ p.
Proof.
  unfold has_suffix. rewrite andb_true_iff, !bool_decide_eq_true. split.
  - intros [H1 H2]. destruct (drop_str_spec (String.length s - String.length p) s) as [t Ht]; [lia|].
    rewrite H2 in Ht. eauto.
  - intros [t ->]. rewrite app_length_s. split; [lia|].
    replace (String.length t + String.length p - String.length p)%nat with (String.length t) by lia. apply drop_str_app.
Qed.
(** the piece after the last dot *)
Lemma split_app_free c s t : free_of c t = true ->
  split (s +:+ t) (chr c) = removelast (split s (chr c)) ++ [List.last (split s (chr c)) "" +:+ t].
Proof.
  intros Ht. unfold split. rewrite !decide_False by done.
  assert (forall cur, split_go (chr c) (s +:+ t) 0 cur =
     removelast (split_go (chr c) s 0 cur) ++ [List.last (split_go (chr c) s 0 cur) "" +:+ t]) as H; [|apply H].
  induction s as [|a s IH]; intros cur.
  - rewrite sapp_nil_l. cbn. apply split_go_chr_free. done.
  - rewrite sapp_cons. cbn [split_go]. rewrite !has_prefix_chr. destruct (bool_decide (c = a)); [|apply IH].
    cbn [String.length chr Nat.sub]. rewrite IH.
    pose proof (split_go_ne (chr c) s 0 "") as Hne. destruct (split_go (chr c) s 0 "") as [|x r]; [done|]. done.
Qed.
Lemma path_last_ne σ : Forall seg_ok σ -> List.last (split (path_of σ) ".") "" <> "".
Proof.
  induction σ as [|s σ IH] using rev_ind; intros Hσ; [done|].
  apply Forall_app in Hσ as [Hσ Hs]. inversion Hs as [|? ? Hs1 _]; subst.
  destruct s as [k| |i].
  - rewrite split_path_name by done. rewrite last_last. apply Hs1.
  - rewrite path_of_star. change "." with (chr "."%char). rewrite split_app_free by done. rewrite last_last.
    intros [H _]%app_inv_nil. by apply IH.
  - rewrite path_of_ix. change "." with (chr "."%char). rewrite split_app_free by (by apply idx_free). rewrite last_last.
    intros [H _]%app_inv_nil. by apply IH.
Qed.
Lemma no_star_suffix σ k : Forall seg_ok σ -> plain_name k -> has_suffix "[*]" (path_of (σ ++ [Nm k])) = false.
Proof.
  intros Hσ Hk. destruct (has_suffix _ _) eqn:E; [|done]. apply has_suffix_spec in E as [t E].
  apply (f_equal (fun s => List.last (split s ".") "")) in E. rewrite split_path_name, last_last in E by done.
  change "." with (chr "."%char) in E. rewrite split_app_free, last_last in E by done.
  destruct Hk as (_ & Hk & _). rewrite E in Hk.
  rewrite (str_in_app_r "[" _ "[*]") in Hk; done.
Qed.
Lemma no_dot_star_suffix σ : Forall seg_ok σ -> has_suffix ".[*]" (path_of (σ ++ [Star])) = false.
Proof.
  intros Hσ. destruct (has_suffix _ _) eqn:E; [|done]. apply has_suffix_spec in E as [t E].
  rewrite path_of_star in E.
  assert (E2 : path_of σ = t +:+ ".").
  { change ".[*]" with ("." +:+ "[*]") in E. rewrite app_assoc_s in E.
    apply app_eq_len in E as [E _]; [done|].
    apply (f_equal String.length) in E. rewrite !app_length_s in E. rewrite app_length_s. cbn in E |- *. lia. }
  exfalso. apply (path_last_ne σ Hσ). rewrite E2. pose proof (split_chr_app_gen "."%char t "") as Hsp.
  unfold chr in Hsp. rewrite Hsp. change (split "" ".") with [""]. by rewrite last_last.
Qed.
Lemma parent_member σ k kd : Forall seg_ok σ -> plain_name k -> parent_path (path_of (σ ++ [Nm k])) kd = path_of σ.
Proof.
  intros Hσ Hk. unfold parent_path. rewrite no_star_suffix by done. rewrite andb_false_r. cbn.
  rewrite split_path_name by done. by rewrite removelast_last, split_join.
Qed.
Lemma parent_scalar_item σ : Forall seg_ok σ -> parent_path (path_of (σ ++ [Star])) KScalar = path_of (σ ++ [Star]).
Proof.
  intros Hσ. unfold parent_path. rewrite no_dot_star_suffix by done.
  assert (E : has_suffix "[*]" (path_of (σ ++ [Star])) = true) by (apply has_suffix_spec; exists (path_of σ); apply path_of_star).
  by rewrite E.
Qed.
(** objects and arrays that are items: the object the (outermost) array is a member of *)
Lemma split_stars σ k n : Forall seg_ok σ -> plain_name k ->
  split (path_of (σ ++ Nm k :: replicate n Star)) "." = split (path_of σ) "." ++ [k +:+ segs (replicate n Star)].
Proof.
  intros Hσ Hk. rewrite path_of_app. cbn [segs]. change ("." +:+ k +:+ segs (replicate n Star)) with (String "." (k +:+ segs (replicate n Star))).
  change "." with (chr "."%char). rewrite split_chr_app_gen. f_equal. apply split_chr_free.
  rewrite free_of_app. apply andb_true_iff. split; [by apply plain_free|].
  induction n as [|n IH]; [done|]. cbn [replicate segs]. rewrite free_of_app. by rewrite IH.
Qed.
Lemma parent_nested_item σ k n kd : Forall seg_ok σ -> plain_name k -> kd <> KScalar ->
  parent_path (path_of (σ ++ Nm k :: replicate n Star)) kd = path_of σ.
Proof.
  intros Hσ Hk Hkd. unfold parent_path. destruct kd; [done| |]; cbn [is_scalar_kind andb];
    rewrite split_stars by done; by rewrite removelast_last, split_join.
Qed.
(** rebasing *)
Lemma replace_prefix1_hit old new s : replace_prefix1 old new (old +:+ s) = new +:+ s.
Proof. unfold replace_prefix1. by rewrite has_prefix_app, replace1_prefix. Qed.
Lemma replace_prefix1_miss old new s : has_prefix old s = false -> replace_prefix1 old new s = s.
Proof. unfold replace_prefix1. by intros ->. Qed.
Definition rebase1 (parent p : string) : string :=
  replace_prefix1 "@[" (parent +:+ "[") (replace_prefix1 "@." (parent +:+ ".") p).
Lemma rebase_unfold parent i : rebase parent i = Instr (rebase1 parent (i_jpath i)) (rebase1 parent (i_xpath i)) (i_ops i).
Proof. done. Qed.
Lemma rebase_dot σ r : rebase1 (path_of σ) ("@." +:+ r) = path_of σ +:+ "." +:+ r.
Proof.
  unfold rebase1. rewrite replace_prefix1_hit, <- app_assoc_s. by rewrite replace_prefix1_miss.
Qed.
Lemma rebase_bracket σ r : rebase1 (path_of σ) ("@[" +:+ r) = path_of σ +:+ "[" +:+ r.
Proof.
  unfold rebase1. rewrite (replace_prefix1_miss "@.") by done. by rewrite replace_prefix1_hit, <- app_assoc_s.
Qed.
Lemma rebase_other σ p : has_prefix "@." p = false -> has_prefix "@[" p = false -> rebase1 (path_of σ) p = p.
Proof. intros H1 H2. unfold rebase1. by rewrite (replace_prefix1_miss "@."), replace_prefix1_miss. Qed.

(** Lemmas about GoStr. No model definitions here. *)
From stdpp Require Import strings list numbers.
From Coq Require Import Ascii ZArith NArith Lia.
From Verif Require Import GoStr.

Lemma sapp_nil_l s : "" +:+ s = s.
Proof. reflexivity. Qed.
Lemma sapp_cons a s t : String a s +:+ t = String a (s +:+ t).
Proof. reflexivity. Qed.
Lemma sapp_nil_r s : s +:+ "" = s.
Proof. induction s as [|a s IH]; [done|]. by rewrite sapp_cons, IH. Qed.
Lemma app_assoc_s a b c : a +:+ (b +:+ c) = (a +:+ b) +:+ c.
Proof. induction a as [|x a IH]; [done|]. by rewrite !sapp_cons, IH. Qed.
Lemma app_length_s a b : String.length (a +:+ b) = (String.length a + String.length b)%nat.
Proof. induction a as [|x a IH]; [done|]. rewrite sapp_cons. simpl. by rewrite IH. Qed.
Lemma app_inv_nil a b : a +:+ b = "" -> a = "" /\ b = "".
Proof. destruct a; [by intros|]. rewrite sapp_cons. discriminate. Qed.
Lemma app_cancel_l a b c : a +:+ b = a +:+ c -> b = c.
Proof. induction a as [|x a IH]; [done|]. rewrite !sapp_cons. intros [= H]; auto. Qed.
Lemma app_eq_len a b c d : a +:+ b = c +:+ d -> String.length a = String.length c -> a = c /\ b = d.
Proof.
  revert c. induction a as [|x a IH]; intros [|y c]; simpl; try discriminate.
  - by rewrite !sapp_nil_l.
  - rewrite !sapp_cons. intros [= -> H] [= L]. destruct (IH c H L) as [-> ->]. done.
Qed.

Lemma has_prefix_spec p s : has_prefix p s = true <-> exists t, s = p +:+ t.
Proof.
  revert s. induction p as [|a p IH]; intros s; simpl.
  - split; [intros _; by exists s | done].
  - destruct s as [|b s]; [split; [done | intros [t H]; discriminate H]|].
    destruct (decide (a = b)) as [->|N].
    + rewrite IH. split; intros [t H]; exists t.
      * by rewrite H.
      * rewrite sapp_cons in H. by injection H.
    + split; [done|]. intros [t H]. rewrite sapp_cons in H. congruence.
Qed.
Lemma has_prefix_app p t : has_prefix p (p +:+ t) = true.
Proof. apply has_prefix_spec. by exists t. Qed.
Lemma drop_str_app p t : drop_str (String.length p) (p +:+ t) = t.
Proof. induction p as [|a p IH]; [by destruct t|]. rewrite sapp_cons. simpl. done. Qed.

Lemma str_in_spec p s : str_in p s = true <-> exists a b, s = a +:+ p +:+ b.
Proof.
  induction s as [|c s IH]; simpl.
  - rewrite orb_false_r, has_prefix_spec. split.
    + intros [t H]. exists "", t. done.
    + intros (a & b & H). symmetry in H. apply app_inv_nil in H as [-> H]. by exists b.
  - rewrite orb_true_iff, has_prefix_spec, IH. split.
    + intros [[t H]|(a & b & H)].
      * by exists "", t.
      * exists (String c a), b. by rewrite H.
    + intros (a & b & H). destruct a as [|x a].
      * left. by exists b.
      * right. rewrite sapp_cons in H. injection H as -> H. by exists a, b.
Qed.
Lemma str_in_cons_false p c s : str_in p (String c s) = false ->
  has_prefix p (String c s) = false /\ str_in p s = false.
Proof. simpl. by rewrite orb_false_iff. Qed.

(** split / join *)
Lemma join_cons sep x l : l <> [] -> join sep (x :: l) = x +:+ sep +:+ join sep l.
Proof. destruct l; [done|]. done. Qed.
Lemma split_go_ne sep s k cur : split_go sep s k cur <> [].
Proof.
  revert k cur. induction s as [|a s IH]; intros k cur; simpl; [done|].
  destruct k; [|apply IH].
  destruct (has_prefix sep (String a s)); [done|apply IH].
Qed.
Lemma split_go_join sep s k cur : sep <> "" -> (k <= String.length s)%nat ->
  join sep (split_go sep s k cur) = cur +:+ drop_str k s.
Proof.
  intros Hsep. revert k cur. induction s as [|a s IH]; intros k cur Hk.
  - simpl. assert (k = 0)%nat as -> by (simpl in Hk; lia). simpl. by rewrite sapp_nil_r.
  - simpl split_go. destruct k as [|k].
    + destruct (has_prefix sep (String a s)) eqn:Hp.
      * rewrite join_cons by apply split_go_ne.
        apply has_prefix_spec in Hp as [t Ht].
        destruct sep as [|b sep]; [done|]. rewrite sapp_cons in Ht. injection Ht as <- Ht.
        replace (String.length (String a sep) - 1)%nat with (String.length sep) by (simpl; lia).
        rewrite IH by (rewrite Ht, app_length_s; lia).
        rewrite sapp_nil_l, Ht, drop_str_app. simpl drop_str. by rewrite sapp_cons.
      * rewrite IH by lia. simpl drop_str.
        replace (drop_str 0 s) with s by by destruct s.
        by rewrite <- app_assoc_s.
    + simpl in Hk. rewrite IH by lia. done.
Qed.
Lemma explode_join s k cur : join "" (explode s k cur) = cur +:+ s.
Proof.
  revert k cur. induction s as [|a s IH]; intros k cur; cbn [explode].
  - destruct (decide (cur = "")) as [->|]; simpl; by rewrite ?sapp_nil_r.
  - generalize (utf8_width (String a s) - 1)%nat as w; intros w.
    destruct k as [|k].
    + destruct (decide (cur = "")) as [->|]; cbn [app].
      * by rewrite IH.
      * destruct (explode s w (String a "")) as [|x l] eqn:E.
        -- pose proof (IH w (String a "")) as H.
           rewrite E in H. simpl in H. done.
        -- rewrite join_cons by done. rewrite <- E, IH. by rewrite sapp_nil_l, sapp_cons.
    + rewrite IH. by rewrite <- app_assoc_s.
Qed.
Lemma split_join s sep : join sep (split s sep) = s.
Proof.
  unfold split. destruct (decide (sep = "")) as [->|N].
  - by rewrite explode_join.
  - rewrite split_go_join by (done || lia). by destruct s.
Qed.
Lemma split_ne s sep : sep <> "" -> split s sep <> [].
Proof. intros H. unfold split. rewrite decide_False by done. apply split_go_ne. Qed.

(** each piece of a split is free of the separator *)
Lemma has_prefix_mono p s t : has_prefix p s = true -> has_prefix p (s +:+ t) = true.
Proof.
  rewrite !has_prefix_spec. intros [u ->]. exists (u +:+ t). by rewrite app_assoc_s.
Qed.
Lemma str_in_app_l p s t : str_in p s = true -> str_in p (s +:+ t) = true.
Proof. rewrite !str_in_spec. intros (a & b & ->). exists a, (b +:+ t). by rewrite <- !app_assoc_s. Qed.
Lemma str_in_app_r p s t : str_in p t = true -> str_in p (s +:+ t) = true.
Proof. rewrite !str_in_spec. intros (a & b & ->). exists (s +:+ a), b. by rewrite <- !app_assoc_s. Qed.

(** no occurrence of sep starts inside cur when cur is followed by s *)
Definition nostart (sep cur s : string) : Prop :=
  forall a b, cur = a +:+ b -> b <> "" -> has_prefix sep (b +:+ s) = false.
Lemma nostart_nil sep s : nostart sep "" s.
Proof. intros a b H Hb. symmetry in H. apply app_inv_nil in H as [_ ->]. done. Qed.
Lemma snoc_split cur c a b : cur +:+ String c "" = a +:+ b -> b <> "" ->
  exists b', b = b' +:+ String c "" /\ cur = a +:+ b'.
Proof.
  revert cur. induction a as [|x a IH]; intros cur H Hb.
  - rewrite sapp_nil_l in H. exists cur. done.
  - destruct cur as [|y cur].
    + rewrite sapp_nil_l, sapp_cons in H. injection H as _ H. symmetry in H.
      apply app_inv_nil in H as [_ H]. done.
    + rewrite !sapp_cons in H. injection H as -> H. destruct (IH _ H Hb) as (b' & -> & ->).
      exists b'. done.
Qed.
Lemma nostart_snoc sep cur c s :
  has_prefix sep (String c s) = false -> nostart sep cur (String c s) ->
  nostart sep (cur +:+ String c "") s.
Proof.
  intros Hp Hn a b H Hb. destruct (snoc_split _ _ _ _ H Hb) as (b' & -> & ->).
  rewrite <- app_assoc_s, sapp_cons, sapp_nil_l.
  destruct (decide (b' = "")) as [->|Nb]; [done|]. by apply (Hn a b').
Qed.
Lemma nostart_notin sep cur s : sep <> "" -> nostart sep cur s -> str_in sep cur = false.
Proof.
  intros Hsep Hn. destruct (str_in sep cur) eqn:E; [|done].
  apply str_in_spec in E as (a & b & ->).
  assert (sep +:+ b <> "") as Hb by (intros [? _]%app_inv_nil; done).
  specialize (Hn a (sep +:+ b) eq_refl Hb).
  rewrite <- app_assoc_s, has_prefix_app in Hn. done.
Qed.
Lemma split_go_free sep s k cur : sep <> "" -> nostart sep cur (drop_str k s) -> (k = 0%nat \/ cur = "") ->
  Forall (fun p => str_in sep p = false) (split_go sep s k cur).
Proof.
  intros Hsep. revert k cur. induction s as [|a s IH]; intros k cur Hn Hk; simpl.
  - constructor; [|done]. by eapply nostart_notin.
  - destruct k as [|k].
    + destruct (has_prefix sep (String a s)) eqn:Hp.
      * constructor; [by eapply nostart_notin|]. apply IH; [apply nostart_nil|by right].
      * apply IH; [|by left]. replace (drop_str 0 s) with s by by destruct s.
        by apply nostart_snoc.
    + destruct Hk as [?| ->]; [lia|]. apply IH; [apply nostart_nil|by right].
Qed.
Lemma split_free s sep : sep <> "" -> Forall (fun p => str_in sep p = false) (split s sep).
Proof.
  intros H. unfold split. rewrite decide_False by done.
  apply split_go_free; [done|apply nostart_nil|by left].
Qed.

(** one character separators *)
Definition chr (c : ascii) : string := String c "".
Fixpoint free_of (c : ascii) (s : string) : bool :=
  match s with "" => true | String a s' => negb (bool_decide (a = c)) && free_of c s' end.
Lemma has_prefix_chr c a s : has_prefix (chr c) (String a s) = bool_decide (c = a).
Proof.
  unfold chr. cbn. destruct (decide (c = a)) as [->|N].
  - by rewrite bool_decide_true.
  - by rewrite bool_decide_false.
Qed.
Lemma free_of_str_in c s : free_of c s = negb (str_in (chr c) s).
Proof.
  induction s as [|a s IH]; [done|].
  cbn [free_of str_in]. rewrite has_prefix_chr, IH, negb_orb.
  f_equal. f_equal. apply bool_decide_ext. split; done.
Qed.
Lemma free_of_app c s t : free_of c (s +:+ t) = free_of c s && free_of c t.
Proof. induction s as [|a s IH]; [done|]. rewrite sapp_cons. cbn. by rewrite IH, andb_assoc. Qed.

Lemma split_go_chr_free c s cur : free_of c s = true -> split_go (chr c) s 0 cur = [cur +:+ s].
Proof.
  revert cur. induction s as [|a s IH]; intros cur H.
  - cbn. by rewrite sapp_nil_r.
  - cbn [free_of] in H. apply andb_true_iff in H as [H1 H2].
    cbn [split_go]. rewrite has_prefix_chr.
    rewrite bool_decide_false.
    2:{ intros ->. by rewrite bool_decide_true in H1. }
    rewrite IH by done. by rewrite <- app_assoc_s.
Qed.
Lemma split_go_chr_app c s t cur : free_of c s = true ->
  split_go (chr c) (s +:+ String c t) 0 cur = (cur +:+ s) :: split_go (chr c) t 0 "".
Proof.
  revert cur. induction s as [|a s IH]; intros cur H.
  - rewrite sapp_nil_l. cbn [split_go]. rewrite has_prefix_chr, bool_decide_true by done.
    by rewrite sapp_nil_r.
  - cbn [free_of] in H. apply andb_true_iff in H as [H1 H2].
    rewrite sapp_cons. cbn [split_go]. rewrite has_prefix_chr, bool_decide_false.
    2:{ intros ->. by rewrite bool_decide_true in H1. }
    rewrite IH by done. by rewrite <- app_assoc_s.
Qed.
Lemma chr_ne c : chr c <> "".
Proof. done. Qed.
Lemma split_chr_free c s : free_of c s = true -> split s (chr c) = [s].
Proof. intros H. unfold split. rewrite decide_False by done. by rewrite split_go_chr_free. Qed.
Lemma split_chr_app c s t : free_of c s = true ->
  split (s +:+ String c t) (chr c) = s :: split t (chr c).
Proof. intros H. unfold split. rewrite !decide_False by done. by rewrite split_go_chr_app. Qed.
Lemma split_join_chr c l : l <> [] -> Forall (fun p => free_of c p = true) l ->
  split (join (chr c) l) (chr c) = l.
Proof.
  intros Hne Hl. induction Hl as [|x l Hx Hl IH]; [done|].
  destruct (decide (l = [])) as [->|Nl].
  - cbn. by apply split_chr_free.
  - rewrite join_cons by done. unfold chr at 1. rewrite sapp_cons, sapp_nil_l.
    rewrite split_chr_app by done. by rewrite IH.
Qed.
Lemma join_app sep l1 l2 : l1 <> [] -> l2 <> [] -> join sep (l1 ++ l2) = join sep l1 +:+ sep +:+ join sep l2.
Proof.
  intros H1 H2. induction l1 as [|x l1 IH]; [done|].
  destruct (decide (l1 = [])) as [->|N].
  - simpl app. by rewrite join_cons.
  - rewrite <- app_comm_cons. rewrite join_cons by (destruct l1; done).
    rewrite join_cons by done. rewrite IH by done. by rewrite <- !app_assoc_s.
Qed.
(** splitting at a one character separator distributes over a separator *)
Lemma split_chr_app_gen c s t :
  split (s +:+ String c t) (chr c) = split s (chr c) ++ split t (chr c).
Proof.
  unfold split. rewrite !decide_False by done.
  assert (forall cur, split_go (chr c) (s +:+ String c t) 0 cur =
                      split_go (chr c) s 0 cur ++ split_go (chr c) t 0 "") as H; [|apply H].
  induction s as [|a s IH]; intros cur.
  - rewrite sapp_nil_l. cbn [split_go]. rewrite has_prefix_chr, bool_decide_true by done. done.
  - rewrite sapp_cons. cbn [split_go]. rewrite !has_prefix_chr.
    destruct (bool_decide (c = a)); [|apply IH].
    cbn [String.length chr Nat.sub]. by rewrite IH.
Qed.

(** replace1 *)
Lemma replace1_prefix p s new : replace1 (p +:+ s) p new = new +:+ s.
Proof.
  destruct (p +:+ s) as [|a r] eqn:E; cbn [replace1]; rewrite <- E, has_prefix_app, drop_str_app; done.
Qed.
Lemma replace1_absent s old new : str_in old s = false -> replace1 s old new = s.
Proof.
  induction s as [|a s IH]; intros H.
  - cbn [replace1]. cbn in H. rewrite orb_false_r in H. by rewrite H.
  - apply str_in_cons_false in H as [H1 H2]. cbn [replace1]. rewrite H1. by rewrite IH.
Qed.
Lemma replace1_skip a s old new : has_prefix old (String a s) = false ->
  replace1 (String a s) old new = String a (replace1 s old new).
Proof. intros H. cbn [replace1]. by rewrite H. Qed.

(** decimal printing and parsing *)
Lemma N_ascii_small n : (n < 256)%N -> N_of_ascii (ascii_of_N n) = n.
Proof. apply N_ascii_embedding. Qed.
Lemma digit_char_val n : (n < 10)%N -> is_digit (digit_char n) = true /\
  (Z.of_N (N_of_ascii (digit_char n)) - 48 = Z.of_N n)%Z.
Proof.
  intros H. unfold is_digit, digit_char. rewrite N_ascii_small by lia.
  split; [|lia]. apply andb_true_iff. rewrite !N.leb_le. lia.
Qed.
Lemma dec_value_digits fuel n acc : (n < 10 ^ N.of_nat fuel)%N ->
  exists k, forall a, dec_value a (digits_go fuel n acc) =
    dec_value (a * 10 ^ Z.of_nat k + Z.of_N n)%Z acc.
Proof.
  revert n acc. induction fuel as [|f IH]; intros n acc H.
  - exists 0%nat. intros a. cbn. simpl in H. assert (n = 0)%N as -> by lia. f_equal. lia.
  - cbn [digits_go].
    assert (n mod 10 < 10)%N as Hm by (apply N.mod_lt; lia).
    destruct (digit_char_val _ Hm) as [Hd Hv].
    destruct (n <? 10)%N eqn:Hlt.
    + exists 1%nat. intros a. cbn [dec_value]. rewrite Hd, Hv. f_equal.
      apply N.ltb_lt in Hlt. rewrite N.mod_small by done. lia.
    + apply N.ltb_ge in Hlt.
      destruct (IH (n / 10)%N (String (digit_char (n mod 10)) acc)) as [k Hk].
      { apply N.div_lt_upper_bound; [lia|].
        replace (N.of_nat (S f)) with (N.succ (N.of_nat f)) in H by lia.
        rewrite N.pow_succ_r' in H. lia. }
      exists (S k). intros a. rewrite Hk. cbn [dec_value]. rewrite Hd, Hv. f_equal.
      pose proof (N.div_mod n 10 ltac:(lia)) as Hdm.
      rewrite Nat2Z.inj_succ, Z.pow_succ_r by lia.
      assert (Z.of_N n = 10 * Z.of_N (n / 10) + Z.of_N (n mod 10))%Z as E by lia.
      rewrite E. ring.
Qed.
Lemma size_nat_bound n : (n < 10 ^ N.of_nat (S (N.size_nat n)))%N.
Proof.
  assert (n < 2 ^ N.size n)%N as H.
  { destruct n; [simpl; lia|]. apply N.size_gt. }
  assert (N.of_nat (N.size_nat n) = N.size n) as E.
  { clear H. destruct n as [|p]; [done|]. cbn [N.size_nat N.size]. induction p as [p IH|p IH|]; cbn [Pos.size_nat Pos.size]; rewrite ?Nat2N.inj_succ, ?IH; done. }
  rewrite Nat2N.inj_succ, E.
  eapply N.lt_le_trans; [exact H|].
  transitivity (10 ^ N.size n)%N.
  - apply N.pow_le_mono_l. lia.
  - apply N.pow_le_mono_r; lia.
Qed.
Lemma dec_value_ntoa n : dec_value 0 (ntoa n) = Some (Z.of_N n).
Proof.
  unfold ntoa. destruct (dec_value_digits _ n "" (size_nat_bound n)) as [k Hk].
  rewrite Hk. cbn. f_equal.
Qed.
Lemma digits_go_ne fuel n acc : acc <> "" -> digits_go fuel n acc <> "".
Proof. revert n acc. induction fuel as [|f IH]; intros n acc H; cbn; [done|]. case_match; [done|]. by apply IH. Qed.
Lemma ntoa_ne n : ntoa n <> "".
Proof. unfold ntoa. cbn [digits_go]. case_match; [done|]. by apply digits_go_ne. Qed.
Lemma digits_go_all fuel n acc : str_all is_digit acc = true -> str_all is_digit (digits_go fuel n acc) = true.
Proof.
  revert n acc. induction fuel as [|f IH]; intros n acc H; cbn [digits_go]; [done|].
  assert (n mod 10 < 10)%N as Hm by (apply N.mod_lt; lia).
  destruct (digit_char_val _ Hm) as [Hd _].
  case_match; [|apply IH]; cbn [str_all]; by rewrite Hd, H.
Qed.
Lemma ntoa_all n : str_all is_digit (ntoa n) = true.
Proof. by apply digits_go_all. Qed.
Lemma atoi_nosign a s : is_digit a = true -> atoi (String a s) = atoi_digits false (String a s).
Proof.
  intros H. unfold atoi.
  destruct a as [[] [] [] [] [] [] [] []]; try discriminate H; done.
Qed.
Lemma atoi_itoa z : int_range z = true -> atoi (itoa z) = Some z.
Proof.
  intros Hr. unfold itoa. destruct z as [|p|p].
  - done.
  - pose proof (ntoa_ne (Z.to_N (Z.pos p))) as Hne.
    pose proof (ntoa_all (Z.to_N (Z.pos p))) as Hall.
    pose proof (dec_value_ntoa (Z.to_N (Z.pos p))) as Hv.
    destruct (ntoa (Z.to_N (Z.pos p))) as [|a s]; [done|].
    simpl in Hall. apply andb_true_iff in Hall as [Ha _].
    rewrite atoi_nosign by done. unfold atoi_digits. rewrite Hv.
    rewrite Z2N.id by lia. by rewrite Hr.
  - rewrite sapp_cons, sapp_nil_l. cbn [atoi].
    pose proof (ntoa_ne (N.pos p)) as Hne.
    pose proof (dec_value_ntoa (N.pos p)) as Hv.
    unfold atoi_digits. destruct (ntoa (N.pos p)) as [|a s]; [done|]. rewrite Hv.
    change (- Z.of_N (N.pos p))%Z with (Z.neg p). cbv zeta. by rewrite Hr.
Qed.
Lemma str_all_free p c s : p c = false -> str_all p s = true -> free_of c s = true.
Proof.
  intros Hc. induction s as [|a s IH]; [done|]. cbn. intros [Ha Hs]%andb_true_iff.
  rewrite IH by done. rewrite andb_true_r. apply negb_true_iff, bool_decide_false. intros ->. congruence.
Qed.
Lemma itoa_nat_digits n : str_all is_digit (itoa (Z.of_nat n)) = true.
Proof. unfold itoa. destruct (Z.of_nat n) eqn:E; [done|apply ntoa_all|lia]. Qed.
Lemma itoa_ne z : itoa z <> "".
Proof.
  unfold itoa. destruct z; [apply ntoa_ne..|]. rewrite sapp_cons. done.
Qed.
Lemma itoa_inj z1 z2 : itoa z1 = itoa z2 -> z1 = z2.
Proof.
  intros H.
  assert (forall z, (if decide (z < 0)%Z then itoa z = String "-" (ntoa (Z.to_N (- z))) else itoa z = ntoa (Z.to_N z))) as HH.
  { intros z. destruct z; done. }
  assert (forall n a s, ntoa n = String a s -> a <> "-"%char) as Hd.
  { intros n a s E ->. pose proof (ntoa_all n) as Ha. rewrite E in Ha. discriminate Ha. }
  assert (forall n m, ntoa n = ntoa m -> n = m) as Hi.
  { intros n m E. pose proof (dec_value_ntoa n) as A. rewrite E, dec_value_ntoa in A. injection A. lia. }
  pose proof (HH z1) as H1. pose proof (HH z2) as H2.
  destruct (decide (z1 < 0)%Z), (decide (z2 < 0)%Z); rewrite H1, H2 in H.
  - injection H as H. apply Hi in H. lia.
  - symmetry in H. by apply Hd in H.
  - by apply Hd in H.
  - apply Hi in H. lia.
Qed.

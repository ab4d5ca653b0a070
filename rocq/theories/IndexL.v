(** replaceIndex (C55). *)
From stdpp Require Import strings list.
From Coq Require Import Ascii ZArith.
From Verif Require Import GoStr GoStrL SpecPath PathL Index.

Definition flush (p : option string) : string := match p with None => "" | Some cur => "[" +:+ cur end.
Definition pend (p : option string) : Prop := match p with None => True | Some cur => str_all is_digit cur = true end.

Lemma digit_not a : is_digit a = true -> a <> "["%char /\ a <> "]"%char /\ a <> "*"%char.
Proof. intros H. split_and!; intros ->; done. Qed.
Lemma str_all_snoc p s a : str_all p s = true -> p a = true -> str_all p (s +:+ String a "") = true.
Proof. induction s as [|b s IH]; rewrite ?sapp_nil_l, ?sapp_cons; cbn; [intros _ ->; done|]. intros [-> H]%andb_true_iff Ha. by apply IH. Qed.
Lemma go_digits d : str_all is_digit d = true -> forall cur s, index_go (Some cur) (d +:+ s) = index_go (Some (cur +:+ d)) s.
Proof.
  induction d as [|a d IH]; intros Hd cur s.
  - by rewrite sapp_nil_l, sapp_nil_r.
  - cbn in Hd. apply andb_true_iff in Hd as [Ha Hd]. rewrite sapp_cons. cbn [index_go]. rewrite Ha.
    rewrite IH by done. rewrite <- app_assoc_s. done.
Qed.
Lemma go_bracket p s : index_go p (String "[" s) = flush p +:+ index_go (Some "") s.
Proof. destruct p as [cur|]; [|done]. cbn [index_go flush]. change (is_digit "[") with false. cbv iota. rewrite decide_True by done. by rewrite <- app_assoc_s. Qed.
Lemma go_app a p b : index_go p (a +:+ String "[" b) = index_go p a +:+ index_go (Some "") b.
Proof.
  revert p. induction a as [|c a IH]; intros p.
  - rewrite sapp_nil_l, go_bracket. by destruct p.
  - rewrite sapp_cons. cbn [index_go]. destruct p as [cur|].
    + destruct (is_digit c); [apply IH|]. destruct (decide _); [by rewrite IH, !app_assoc_s|].
      destruct (decide _); rewrite IH; [done|]. by rewrite <- !app_assoc_s, sapp_cons.
    + destruct (decide _); rewrite IH; [done|by rewrite sapp_cons].
Qed.
(** the laws that determine the function *)
Lemma replace_hit a d b : str_all is_digit d = true -> d <> "" ->
  replace_index (a +:+ "[" +:+ d +:+ "]" +:+ b) = replace_index a +:+ "[*]" +:+ replace_index b.
Proof.
  intros Hd Hne. unfold replace_index. change ("[" +:+ d +:+ "]" +:+ b) with (String "[" (d +:+ String "]" b)).
  rewrite go_app, go_digits, sapp_nil_l by done. f_equal. cbn [index_go].
  change (is_digit "]") with false. cbv iota. rewrite decide_False by done. rewrite decide_True by done. done.
Qed.
Lemma go_miss s : forall p, pend p ->
  (forall a d b, str_all is_digit d = true -> d <> "" -> flush p +:+ s <> a +:+ "[" +:+ d +:+ "]" +:+ b) ->
  index_go p s = flush p +:+ s.
Proof.
  induction s as [|c s IH]; intros p Hp H.
  - rewrite sapp_nil_r. by destruct p.
  - destruct p as [cur|]; cbn [index_go].
    + destruct (is_digit c) eqn:Hc.
      * rewrite IH.
        -- cbn [flush]. by rewrite <- !app_assoc_s.
        -- by apply str_all_snoc.
        -- cbn [flush] in *. intros a d b Hd Hne He. apply (H a d b Hd Hne). rewrite <- He. by rewrite <- !app_assoc_s.
      * destruct (decide (c = "["%char)) as [->|Hb].
        { rewrite IH; [cbn [flush]; by rewrite <- !app_assoc_s|done|].
          intros a d b Hd Hne He. apply (H (flush (Some cur) +:+ a) d b Hd Hne). rewrite <- app_assoc_s, <- He. done. }
        destruct (decide _) as [[-> Hne]|Hn].
        { exfalso. cbn in Hp. apply (H "" cur s Hp Hne). cbn [flush]. by rewrite <- !app_assoc_s. }
        rewrite IH; [cbn [flush]; by rewrite <- !app_assoc_s|done|].
        intros a d b Hd Hne He. apply (H (flush (Some cur) +:+ String c a) d b Hd Hne). cbn [flush] in He. rewrite sapp_nil_l in He.
        rewrite <- app_assoc_s, sapp_cons, <- He. done.
    + cbn [flush] in H. rewrite sapp_nil_l in H. destruct (decide (c = "["%char)) as [->|Hb].
      * rewrite IH; [done|done|]. intros a d b Hd Hne He. apply (H a d b Hd Hne). by rewrite <- He.
      * rewrite IH; [done|done|]. intros a d b Hd Hne He. cbn [flush] in He. rewrite sapp_nil_l in He. apply (H (String c a) d b Hd Hne). by rewrite sapp_cons, <- He.
Qed.
Lemma replace_miss s : (forall a d b, str_all is_digit d = true -> d <> "" -> s <> a +:+ "[" +:+ d +:+ "]" +:+ b) -> replace_index s = s.
Proof. intros H. unfold replace_index. rewrite go_miss; [done|done|]. intros a d b Hd Hne. cbn [flush]. rewrite sapp_nil_l. by apply H. Qed.

(** idempotence *)
Lemma go_starts s cur : exists t, index_go (Some cur) s = String "[" t.
Proof.
  revert cur. induction s as [|c s IH]; intros cur; cbn [index_go]; [by eexists|].
  destruct (is_digit c); [apply IH|]. destruct (decide _); [by eexists|]. destruct (decide _); by eexists.
Qed.
Lemma go_idem s : forall p, pend p -> index_go None (index_go p s) = index_go p s.
Proof.
  induction s as [|c s IH]; intros p Hp.
  - destruct p as [cur|]; [|done]. cbn [index_go]. change ("[" +:+ cur) with (String "[" cur). rewrite go_bracket. 
    rewrite <- (sapp_nil_r cur) at 1. rewrite go_digits by done. done.
  - destruct p as [cur|]; cbn [index_go].
    + destruct (is_digit c) eqn:Hc; [apply IH; by apply str_all_snoc|].
      destruct (decide (c = "["%char)) as [->|Hb].
      { destruct (go_starts s "") as [t Ht]. pose proof (IH (Some "") eq_refl) as IH'. rewrite Ht in IH' |- *.
        change ("[" +:+ cur +:+ String "[" t) with (String "[" (cur +:+ String "[" t)).
        rewrite go_bracket, go_digits, go_bracket by done. cbn [flush]. rewrite go_bracket in IH'. cbn [flush] in IH'. rewrite sapp_nil_l in IH'.
        rewrite IH'. done. }
      destruct (decide _) as [[-> Hne]|Hn].
      { specialize (IH None I). set (x := index_go None s) in *.
        change ("[*]" +:+ x) with (String "[" (String "*" (String "]" x))). rewrite go_bracket. cbn [flush]. rewrite sapp_nil_l.
        cbn [index_go]. change (is_digit "*") with false. cbv iota. rewrite !decide_False by naive_solver. rewrite IH. done. }
      specialize (IH None I). set (x := index_go None s) in *.
      change ("[" +:+ cur +:+ String c x) with (String "[" (cur +:+ String c x)). rewrite go_bracket, go_digits by done.
      cbn [flush]. rewrite !sapp_nil_l. cbn [index_go]. rewrite Hc. rewrite (decide_False) by done. rewrite decide_False by done. by rewrite IH.
    + destruct (decide (c = "["%char)) as [->|Hb]; [by apply IH|]. cbn [index_go]. rewrite decide_False by done. f_equal. by apply IH.
Qed.
Lemma replace_idem s : replace_index (replace_index s) = replace_index s.
Proof. by apply go_idem. Qed.

(** on instance paths *)
Definition star_of (s : seg) : seg := match s with Ix _ => Star | _ => s end.
Lemma go_plain k s : free_of "["%char k = true -> index_go None (k +:+ s) = k +:+ index_go None s.
Proof.
  induction k as [|a k IH]; intros H; [done|]. cbn in H. apply andb_true_iff in H as [Ha H]. apply negb_true_iff, bool_decide_eq_false in Ha.
  rewrite sapp_cons. cbn [index_go]. rewrite decide_False by done. by rewrite IH.
Qed.
Lemma go_segs ρ : Forall seg_ok ρ -> index_go None (segs ρ) = segs (star_of <$> ρ).
Proof.
  induction 1 as [|x ρ Hx H IH]; [done|]. destruct x as [k| |i]; cbn [segs fmap list_fmap star_of].
  - change ("." +:+ k +:+ segs ρ) with (String "." (k +:+ segs ρ)). cbn [index_go]. rewrite decide_False by done.
    rewrite go_plain by (by apply plain_free). rewrite IH. done.
  - change ("[*]" +:+ segs ρ) with (String "[" (String "*" (String "]" (segs ρ)))). rewrite go_bracket. cbn [flush]. rewrite sapp_nil_l.
    cbn [index_go]. change (is_digit "*") with false. cbv iota. rewrite !decide_False by naive_solver. rewrite IH. done.
  - unfold index_str. rewrite <- !app_assoc_s. change ("[" +:+ itoa (Z.of_nat i) +:+ "]" +:+ segs ρ) with ("" +:+ "[" +:+ itoa (Z.of_nat i) +:+ "]" +:+ segs ρ).
    pose proof (replace_hit "" (itoa (Z.of_nat i)) (segs ρ) (itoa_nat_digits i) (itoa_ne _)) as Hh.
    unfold replace_index in Hh. rewrite Hh, IH. done.
Qed.
Lemma replace_path ρ : Forall seg_ok ρ -> replace_index (path_of ρ) = path_of (star_of <$> ρ).
Proof.
  intros H. unfold replace_index, path_of. change ("$" +:+ segs ρ) with (String "$" (segs ρ)). cbn [index_go]. rewrite decide_False by done.
  by rewrite go_segs.
Qed.
From Verif Require Import Instr Heap SpecProj ProjL.
Lemma nested_stars m σ ρ : nested m σ ρ -> Forall (fun x => forall i, x <> Ix i) σ -> star_of <$> ρ = σ.
Proof.
  induction 1 as [|m σ ρ k Hn IH|m σ ρ i Hn IH]; intros Hσ; [done|..]; apply Forall_app in Hσ as [Hσ _];
    rewrite fmap_app, IH by done; done.
Qed.
Lemma nested_ok m σ ρ : nested m σ ρ -> Forall seg_ok σ -> Forall seg_ok ρ.
Proof.
  induction 1 as [|m σ ρ k Hn IH|m σ ρ i Hn IH]; intros Hσ; [done|..]; apply Forall_app in Hσ as [Hσ Hk];
    apply Forall_app; split; auto. by repeat constructor.
Qed.
Lemma index_undoes m σ ρ : Forall seg_ok σ -> Forall (fun x => forall i, x <> Ix i) σ -> nested m σ ρ ->
  replace_index (apply_mod m (path_of σ)) = path_of σ.
Proof.
  intros Hok Hσ Hn. rewrite (nested_path _ _ _ Hn), replace_path by (by eapply nested_ok).
  f_equal. by eapply nested_stars.
Qed.

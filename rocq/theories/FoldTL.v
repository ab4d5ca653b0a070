(** Proofs about transform sections whose names are matched regardless of case. *)
From stdpp Require Import strings list gmap.
From Coq Require Import ZArith Lia.
From Verif Require Import GoStr GoStrL Val Conv Instr Schema Inst Build GoJson Fold FoldL FoldT SpecFoldT.

Section proofs.
Context (o_fold : string -> string) (W : oracles).
Notation name_for := (name_for o_fold).
Notation into := (into o_fold).

Lemma name_exact names k : k ∈ names -> name_for names k = Some k.
Proof.
  intros Hk. unfold FoldT.name_for, find_field. destruct (index_of (fun n => bool_decide (n = k)) names) as [i|] eqn:E.
  - apply index_of_some in E as (x & Hx & Hp). apply bool_decide_eq_true_1 in Hp as ->. exact Hx.
  - exfalso. rewrite index_of_none in E. specialize (E k Hk). by rewrite bool_decide_eq_false in E.
Qed.
Lemma name_foreign names k : foreign_to o_fold names k -> name_for names k = None.
Proof.
  intros Hk. unfold FoldT.name_for, find_field.
  assert (E1 : index_of (fun n => bool_decide (n = k)) names = None).
  { apply index_of_none. intros n Hn. apply bool_decide_eq_false. intros ->. by apply (Hk k). }
  assert (E2 : index_of (fun n => bool_decide (fold_name o_fold n = fold_name o_fold k)) names = None).
  { apply index_of_none. intros n Hn. apply bool_decide_eq_false. by apply Hk. }
  by rewrite E1, E2.
Qed.
Lemma into_none {A} names f (step : A -> tree -> res A) r kvs : Forall (fun kv : string * tree => kv.1 ∈ names \/ foreign_to o_fold names kv.1) kvs -> f ∉ kvs.*1 ->
  foldl (fun a (kv : string * tree) => rbind a (fun a => if decide (name_for names kv.1 = Some f) then step a kv.2 else Ok a)) r kvs = r.
Proof.
  revert r. induction kvs as [|[k v] kvs IH]; intros r HF Hn; [done|]. apply Forall_cons in HF as [Hk HF]. cbn [foldl fmap list_fmap] in *. apply not_elem_of_cons in Hn as [Hne Hn]. cbn in Hne, Hk.
  rewrite IH by done. destruct r as [a| |]; [|done..]. cbn [rbind fst snd]. rewrite decide_False; [done|]. destruct Hk as [Hk|Hk]; [rewrite (name_exact _ _ Hk)|rewrite (name_foreign _ _ Hk); done]. intros [= ->]. done.
Qed.
Lemma into_exact {A} names f (step : A -> tree -> res A) init kvs : f ∈ names -> exactly o_fold names kvs ->
  into names f step init kvs = match assoc f kvs with Some v => step init v | None => Ok init end.
Proof.
  intros Hf [Hd HF]. unfold FoldT.into. induction kvs as [|[k v] kvs IH]; [done|]. cbn [fmap list_fmap] in Hd. apply NoDup_cons in Hd as [Hni Hd]. pose proof HF as HF'. apply Forall_cons in HF' as [Hk HF'].
  cbn [foldl fst snd rbind assoc]. destruct (decide (k = f)) as [->|N].
  - rewrite (name_exact _ _ Hf), decide_True by done. by apply into_none.
  - rewrite decide_False; [by apply IH|]. cbn in Hk. destruct Hk as [Hk|Hk]; [rewrite (name_exact _ _ Hk)|rewrite (name_foreign _ _ Hk); done]. intros [= ->]. done.
Qed.
Lemma into_foreign {A} names f (step : A -> tree -> res A) init before after k v : foreign_to o_fold names k ->
  into names f step init (before ++ (k, v) :: after) = into names f step init (before ++ after).
Proof.
  intros Hk. unfold FoldT.into. rewrite !foldl_app. cbn [foldl fst snd]. rewrite (name_foreign _ _ Hk). f_equal. by destruct (foldl _ _ before).
Qed.
Lemma name_fold names k n : n ∈ names -> (forall a b, a ∈ names -> b ∈ names -> fold_name o_fold a = fold_name o_fold b -> a = b) ->
  fold_name o_fold k = fold_name o_fold n -> name_for names k = Some n.
Proof.
  intros Hn Hd Hk. unfold FoldT.name_for, find_field. destruct (index_of (fun n => bool_decide (n = k)) names) as [i|] eqn:E1.
  - apply index_of_some in E1 as (x & Hx & Hp). apply bool_decide_eq_true_1 in Hp as ->. cbn. rewrite Hx. f_equal. apply Hd; [by eapply elem_of_list_lookup_2|done|done].
  - destruct (index_of (fun n => bool_decide (fold_name o_fold n = fold_name o_fold k)) names) as [i|] eqn:E2.
    + apply index_of_some in E2 as (x & Hx & Hp). apply bool_decide_eq_true_1 in Hp. cbn. rewrite Hx. f_equal. apply Hd; [by eapply elem_of_list_lookup_2|done|congruence].
    + exfalso. rewrite index_of_none in E2. specialize (E2 n Hn). rewrite bool_decide_eq_false in E2. by apply E2.
Qed.
Lemma into_variant {A} names f (step : A -> tree -> res A) init before after k n v : n ∈ names ->
  (forall a b, a ∈ names -> b ∈ names -> fold_name o_fold a = fold_name o_fold b -> a = b) -> fold_name o_fold k = fold_name o_fold n ->
  into names f step init (before ++ (k, v) :: after) = into names f step init (before ++ (n, v) :: after).
Proof. intros Hn Hd Hk. unfold FoldT.into. rewrite !foldl_app. cbn [foldl fst snd]. by rewrite (name_fold _ _ _ Hn Hd Hk), (name_exact _ _ Hn). Qed.

Lemma str_same k kvs : (match assoc k kvs with Some v => g_str "" v | None => Ok "" end) = dec_str k (TObj kvs).
Proof. unfold dec_str, jlookup. by destruct (assoc k kvs) as [[[]| | | |]|]. Qed.
Lemma op_same t : exact_operation o_fold t -> g_op o_fold W t = dec_op W t.
Proof.
  intros He. destruct t as [[]|l|kvs|n|l]; try done. specialize (He kvs eq_refl).
  unfold g_op, dec_op. unfold operation_names. rewrite !into_exact by (done || (repeat first [left; done|right])). rewrite str_same. destruct (dec_str "type" _); try done. cbn [rbind]. unfold jlookup.
  destruct (assoc "args" kvs) as [[[]| |kvs'| |]|]; try done. cbn. destruct (dec_args kvs'); try done. cbn. by rewrite (right_id_L ∅ (∪)).
Qed.
Lemma ops_same l : Forall (exact_operation o_fold) l -> seqs (map (g_op o_fold W) l) = dec_ops W l.
Proof. induction 1 as [|t l Ht HF IH]; [done|]. cbn. rewrite op_same by done. destruct (dec_op W t); try done. cbn. by rewrite IH. Qed.
Lemma assoc_in k (v : tree) kvs : assoc k kvs = Some v -> (k, v) ∈ kvs.
Proof. induction kvs as [|[k' v'] kvs IH]; [done|]. cbn. case_decide as E; [intros [= ->]; subst; left|]. intros H. right. by apply IH. Qed.
Lemma entry_same t : exact_entry o_fold t -> g_instr o_fold W t = dec_instr W t.
Proof.
  intros He. destruct t as [[]|l|kvs|n|l]; try done. destruct (He kvs eq_refl) as [Hx Ho].
  unfold g_instr, dec_instr. unfold entry_names. rewrite !into_exact by (done || (repeat first [left; done|right])). rewrite !str_same.
  destruct (dec_str "jsonPath" _); try done. cbn [rbind]. destruct (dec_str "xmlPath" _); try done. cbn [rbind]. unfold jlookup.
  destruct (assoc "operations" kvs) as [[[]|l| | |]|] eqn:E; try done. apply assoc_in in E. cbn [g_list]. rewrite ops_same by (by apply Ho). done.
Qed.
Lemma from_same l : Forall (exact_entry o_fold) l -> seqs (map (g_instr o_fold W) l) = dec_from W l.
Proof. induction 1 as [|t l Ht HF IH]; [done|]. cbn. rewrite entry_same by done. destruct (dec_instr W t); try done. cbn. by rewrite IH. Qed.
Lemma section_same t : exact_section o_fold t -> g_tis o_fold W t = dec_tis W t.
Proof.
  intros He. destruct t as [[]|l|kvs|n|l]; try done. destruct (He kvs eq_refl) as (Hx & Hf & Ho).
  unfold g_tis, dec_tis. unfold section_names. rewrite !into_exact by (done || (repeat first [left; done|right])). rewrite !str_same. unfold jlookup.
  assert (E1 : (match assoc "from" kvs with Some v => g_list (g_instr o_fold W) [] v | None => Ok [] end) =
    match assoc "from" kvs with None | Some (TS SNil) => Ok [] | Some (TArr l) => dec_from W l | _ => Err end).
  { destruct (assoc "from" kvs) as [[[]|l| | |]|] eqn:E; try done. apply assoc_in in E. cbn [g_list]. by rewrite from_same by (by apply Hf). }
  assert (E2 : (match assoc "methodOptions" kvs with Some v => g_options o_fold "" v | None => Ok "" end) =
    match assoc "methodOptions" kvs with None | Some (TS SNil) => Ok "" | Some (TObj o) => dec_str "concatenateDelimiter" (TObj o) | _ => Err end).
  { destruct (assoc "methodOptions" kvs) as [[[]| |o| |]|] eqn:E; try done. apply assoc_in in E. cbn [g_options]. unfold options_names.
    rewrite into_exact by (first [by apply (Ho _ E)|left]). apply str_same. }
  by rewrite E1, E2.
Qed.
Lemma section_foreign before after k v : foreign_to o_fold section_names k -> g_tis o_fold W (TObj (before ++ (k, v) :: after)) = g_tis o_fold W (TObj (before ++ after)).
Proof. intros Hk. unfold g_tis. by rewrite !(into_foreign _ _ _ _ _ _ _ _ Hk). Qed.
Lemma entry_foreign before after k v : foreign_to o_fold entry_names k -> g_instr o_fold W (TObj (before ++ (k, v) :: after)) = g_instr o_fold W (TObj (before ++ after)).
Proof. intros Hk. unfold g_instr. by rewrite !(into_foreign _ _ _ _ _ _ _ _ Hk). Qed.
Lemma op_foreign before after k v : foreign_to o_fold operation_names k -> g_op o_fold W (TObj (before ++ (k, v) :: after)) = g_op o_fold W (TObj (before ++ after)).
Proof. intros Hk. unfold g_op. by rewrite !(into_foreign _ _ _ _ _ _ _ _ Hk). Qed.
Lemma distinct names : forallb (str_all is_ascii_char) names = true -> NoDup (map (str_map upper_char) names) ->
  forall a b, a ∈ names -> b ∈ names -> fold_name o_fold a = fold_name o_fold b -> a = b.
Proof.
  intros Ha Hd a b Hia Hib H. rewrite forallb_forall in Ha. unfold fold_name in H. rewrite !Ha in H by (by apply elem_of_list_In).
  apply elem_of_list_lookup in Hia as [i Hi]. apply elem_of_list_lookup in Hib as [j Hj].
  assert (i = j) as ->. { eapply (proj1 (NoDup_alt _) Hd i j (str_map upper_char a)); [|rewrite H]; change (map ?f ?l) with (f <$> l); rewrite list_lookup_fmap; [by rewrite Hi|by rewrite Hj]. }
  congruence.
Qed.
Ltac dist := apply distinct; [vm_compute; reflexivity|apply (bool_decide_eq_true_1 (NoDup _)); vm_compute; reflexivity].
Lemma section_variant before after k n v : n ∈ section_names -> fold_name o_fold k = fold_name o_fold n ->
  g_tis o_fold W (TObj (before ++ (k, v) :: after)) = g_tis o_fold W (TObj (before ++ (n, v) :: after)).
Proof. intros Hn Hk. unfold g_tis. rewrite !(into_variant section_names _ _ _ before after k n v Hn); [done|dist|done|dist|done|dist|done]. Qed.
Lemma entry_variant before after k n v : n ∈ entry_names -> fold_name o_fold k = fold_name o_fold n ->
  g_instr o_fold W (TObj (before ++ (k, v) :: after)) = g_instr o_fold W (TObj (before ++ (n, v) :: after)).
Proof. intros Hn Hk. unfold g_instr. rewrite !(into_variant entry_names _ _ _ before after k n v Hn); [done|dist|done|dist|done|dist|done]. Qed.
Lemma op_variant before after k n v : n ∈ operation_names -> fold_name o_fold k = fold_name o_fold n ->
  g_op o_fold W (TObj (before ++ (k, v) :: after)) = g_op o_fold W (TObj (before ++ (n, v) :: after)).
Proof. intros Hn Hk. unfold g_op. rewrite !(into_variant operation_names _ _ _ before after k n v Hn); [done|dist|done|dist|done]. Qed.
End proofs.

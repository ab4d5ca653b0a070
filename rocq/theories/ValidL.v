(** Proofs about validators. *)
From stdpp Require Import strings list.
From Coq Require Import Ascii NArith Sorted Lia.
From Verif Require Import GoStr GoStrL Load SortL Valid SpecValid Cache CacheP.

Lemma less_le a b : less a b <-> str_le b a = false.
Proof.
  revert b. induction a as [|x a IH]; intros [|y b]; cbn.
  - split; [by inversion 1|done].
  - split; [done|intros _; constructor].
  - split; [by inversion 1|done].
  - destruct (decide (y = x)) as [->|N].
    + rewrite <- IH. split; [inversion 1; subst; [lia|done]|by constructor].
    + rewrite N.ltb_ge. split.
      * inversion 1; subst; [lia|done].
      * intros H. apply less_char. assert (N_of_ascii x <> N_of_ascii y); [|lia]. intros E. apply N. rewrite <- (ascii_N_embedding y), <- (ascii_N_embedding x). by rewrite E.
Qed.
Lemma sorts_is sort l : sorts sort -> sort l = sort_strings l.
Proof.
  intros H. destruct (H l) as [Hp Hs]. apply sorted_unique; [|apply sort_ok|by rewrite Hp, sort_perm].
  clear -Hs. revert Hs. generalize (sort l). clear. intros k Hs. induction Hs as [|x k Hs IH Hx]; constructor; [done|]. eapply Forall_impl; [exact Hx|]. intros y Hy. cbn in Hy. unfold sle. destruct (str_le x y) eqn:E; [done|]. apply less_le in E. done.
Qed.
Lemma strings_sorts : sorts sort_strings.
Proof.
  intros l. split; [apply sort_perm|]. pose proof (sort_ok l) as H. revert H. generalize (sort_strings l). clear. intros k H. induction H as [|x l' Hs IH Hx]; constructor; [done|]. eapply Forall_impl; [exact Hx|]. intros y Hy Hl. apply less_le in Hl. unfold sle in Hy. congruence.
Qed.
Lemma same_text sort sort' lib lib' errors errors' valid valid' : sorts sort -> sorts sort' -> errors ≡ₚ errors' -> errors <> [] ->
  validate sort lib (Some (errors, valid)) = validate sort' lib' (Some (errors', valid')).
Proof.
  intros H H' Hp Hn. destruct errors as [|e errors]; [by destruct Hn|]. destruct errors' as [|e' errors']; [by apply Permutation_nil_r in Hp|].
  unfold validate. rewrite (sorts_is sort) by done. rewrite (sorts_is sort') by done. by rewrite (sort_eq _ _ Hp).
Qed.
Lemma in_joined e l : e ∈ l -> exists a b, join " " l = a +:+ e +:+ b.
Proof.
  induction l as [|x l IH]; [by intros []%elem_of_nil|]. intros [->|H]%elem_of_cons.
  - destruct l as [|y l]; [exists "", ""; cbn; by rewrite sapp_nil_r|]. exists "", (" " +:+ join " " (y :: l)). done.
  - destruct (IH H) as (a & b & E). destruct l as [|y l]; [by apply elem_of_nil in H|]. exists (x +:+ " " +:+ a), b.
    change (join " " (x :: y :: l)) with (x +:+ " " +:+ join " " (y :: l)). rewrite E. by rewrite !app_assoc_s.
Qed.
Lemma rejected sort lib errors valid : sorts sort -> errors <> [] ->
  exists text, validate sort lib (Some (errors, valid)) = (false, Some text) /\ (exists sorted, sorted ≡ₚ errors /\ StronglySorted (fun a b => ~ less b a) sorted /\ text = "invalid schema: [" +:+ join " " sorted +:+ "]") /\
    forall e, e ∈ errors -> exists a b, text = a +:+ e +:+ b.
Proof.
  intros H Hn. destruct errors as [|e errors]; [done|]. destruct (H (e :: errors)) as [Hp Hs]. eexists. split; [reflexivity|]. split; [by exists (sort (e :: errors))|].
  intros e' He. rewrite <- Hp in He. destruct (in_joined _ _ He) as (a & b & E). exists ("invalid schema: [" +:+ a), (b +:+ "]"). rewrite E. by rewrite !app_assoc_s.
Qed.
Lemma accepted sort lib result : fst (validate sort lib result) = true <-> result = Some ([], true).
Proof. destruct result as [[[|e errors] valid]|]; cbn; [|split; [done|intros [=]]..]. split; [by intros ->|by intros [= ->]]. Qed.
Lemma same_schema {V E} (tr : list (event V E)) s o_abs a b ka kb l l' v v' : exec (fun _ => []) tr s -> schema_ref o_abs a = Some ka -> schema_ref o_abs b = Some kb ->
  Ret l ka (OOk v) ∈ tr -> Ret l' kb (OOk v') ∈ tr -> (o_abs a = o_abs b -> v = v') /\ (ka = kb -> o_abs a = o_abs b).
Proof.
  intros H Ha Hb H1 H2. unfold schema_ref in *. destruct (o_abs a) as [pa|] eqn:Ea; [|done]. destruct (o_abs b) as [pb|] eqn:Eb; [|done]. injection Ha as <-. injection Hb as <-. split.
  - intros [= ->]. apply elem_of_list_split in H1 as (t1 & t2 & E1). apply elem_of_list_split in H2 as (t3 & t4 & E2).
    destruct (returned_value _ _ _ _ _ _ _ _ H E1) as [(j & Hj) Hall]. symmetry. destruct (returned_value _ _ _ _ _ _ _ _ H E2) as [(j' & Hj') _]. apply (Hall j'). rewrite E2. apply elem_of_app. by left.
  - cbn. by intros [= ->].
Qed.

(** More fuel does not change an Avro schema. *)
From stdpp Require Import strings list gmap.
From Coq Require Import Lia.
From Verif Require Import GoStr Val Conv Avro GoSrc.

Definition below {X} (o o' : option X) : Prop := forall x, o = Some x -> o' = Some x.
Lemma below_refl {X} (o : option X) : below o o.
Proof. by intros x. Qed.
Lemma obind_below {X Y} (o o' : option X) (k k' : X -> option Y) : below o o' -> (forall a, below (k a) (k' a)) -> below (obind o k) (obind o' k').
Proof. intros H Hk y. destruct o as [a|]; [|done]. cbn. rewrite (H a eq_refl). cbn. apply Hk. Qed.
Section fuel.
Context (W : oracles) (o_quote : string -> string) (E : sources).
Lemma more_fuel n : forall m, n <= m ->
  (forall ns t name b seen, below (conv_type W o_quote E n ns t name b seen) (conv_type W o_quote E m ns t name b seen)) /\
  (forall ns t name b seen, below (nested W o_quote E n ns t name b seen) (nested W o_quote E m ns t name b seen)) /\
  (forall ns excl ls seen, below (write_lists W o_quote E n ns excl ls seen) (write_lists W o_quote E m ns excl ls seen)) /\
  (forall ns excl own len i fs seen, below (write_fields W o_quote E n ns excl own len i fs seen) (write_fields W o_quote E m ns excl own len i fs seen)) /\
  (forall ns excl own f seen, below (write_field W o_quote E n ns excl own f seen) (write_field W o_quote E m ns excl own f seen)).
Proof.
  induction n as [|n IH]; intros m Hm; [done|]. destruct m as [|m]; [lia|]. destruct (IH m ltac:(lia)) as (IHc & IHn & IHl & IHs & IHf).
  split_and!.
  - intros ns t name b seen. destruct t; cbn [conv_type]; try apply below_refl; [|apply IHc| | |apply IHn].
    + destruct (prim_name _); [apply below_refl|]. destruct (src_dir E _); [apply IHn|apply below_refl].
    + apply obind_below; [apply IHc|]. intros [? ?]. apply obind_below; [apply IHc|]. intros [? ?]. apply below_refl.
    + apply obind_below; [apply IHc|]. intros [? ?]. apply below_refl.
  - intros ns t name b seen. cbn [nested]. apply obind_below; [apply IHl|]. intros [? ?]. apply below_refl.
  - intros ns excl ls seen. cbn [write_lists]. destruct ls; [apply below_refl|]. apply obind_below; [apply IHs|]. intros [? ?]. apply obind_below; [apply IHl|]. intros [? ?]. apply below_refl.
  - intros ns excl own len i fs seen. cbn [write_fields]. destruct fs; [apply below_refl|]. apply obind_below; [apply IHf|]. intros [? ?]. apply obind_below; [apply IHs|]. intros [? ?]. apply below_refl.
  - intros ns excl own f seen. cbn [write_field]. destruct (af_names f).
    + destruct (af_type f); try apply below_refl. destruct (decide _); [apply below_refl|]. apply obind_below; [apply below_refl|]. intros file. destruct (src_file E file _); [|apply below_refl].
      apply obind_below; [apply IHl|]. intros [? ?]. apply below_refl.
    + destruct (decide _); [apply below_refl|]. apply obind_below; [apply IHc|]. intros [? ?]. apply below_refl.
Qed.
Lemma file_more n m name t : n <= m -> below (avro_file W o_quote E n name t) (avro_file W o_quote E m name t).
Proof. intros H. unfold avro_file. apply obind_below; [by apply more_fuel|]. intros [? ?]. apply below_refl. Qed.
End fuel.
Lemma schema_fuel W o_quote o_unquote dir name file n m s t : avro_schema o_unquote W o_quote n dir name file = Some (Ok s) ->
  avro_schema o_unquote W o_quote m dir name file = Some (Ok t) -> s = t.
Proof.
  unfold avro_schema. destruct (struct_in_file dir file name) as [r|]; [|done]. intros H1 H2.
  destruct (avro_file W o_quote (sources_of o_unquote dir) n name (to_texpr o_unquote r)) as [a|] eqn:E1; [|done].
  destruct (avro_file W o_quote (sources_of o_unquote dir) m name (to_texpr o_unquote r)) as [b|] eqn:E2; [|done]. cbn in *. injection H1 as <-. injection H2 as <-.
  destruct (Nat.le_ge_cases n m) as [L|L].
  - rewrite (file_more _ _ _ _ _ _ _ L _ E1) in E2. by injection E2.
  - rewrite (file_more _ _ _ _ _ _ _ L _ E2) in E1. by injection E1.
Qed.

(** C07: exactly when a value that cannot be converted makes a scalar instance fail. *)
From stdpp Require Import strings list gmap.
From Coq Require Import ZArith Lia.
From Verif Require Import GoStr Val Conv Instr Heap Schema Build Api SpecOps SpecConv InstrL ConvL InstL ConvT.

Section fail.
Context (W : oracles).
Lemma bad_bool s : s ∉ true_words -> s ∉ false_words -> parse_bool s = None.
Proof. unfold true_words, false_words, parse_bool. intros H1 H2. repeat case_decide; [set_solver..|done]. Qed.
Lemma leaf_string {V} (view : V -> vw V) jt g t : gview view g = WS (SStr t) -> jt = "boolean" -> converted W jt (SStr t) None ->
  convert_leaf W view jt g = (GS (SBool false), true).
Proof.
  intros Hg -> Hc. unfold convert_leaf, convert_boolean. rewrite decide_True by done. rewrite Hg.
  remember "boolean" as jt eqn:E. remember (SStr t) as x eqn:Ex. remember None as r eqn:Er. destruct Hc; try discriminate.
  - injection Ex as ->. rewrite decide_False by done. by rewrite bad_bool.
  - subst. set_solver.
Qed.
Lemma leaf_other {V} (view : V -> vw V) jt g x nv : gview view g = WS x -> ~ (jt = "boolean" /\ exists t, x = SStr t) ->
  converted W jt x None -> convert_leaf W view jt g = (nv, true) -> is_nil view nv = true.
Proof.
  intros Hg Hn _ H. unfold convert_leaf in H.
  destruct (decide (jt = "boolean")) as [->|_].
  - unfold convert_boolean in H. rewrite Hg in H. destruct x; simplify_eq; try done. exfalso. apply Hn. split; [done|by eexists].
  - destruct (decide (jt = "number" \/ jt = "integer")); [|destruct (decide (jt = "string")); [|destruct (decide (jt = "date-time"))]].
    + unfold convert_number in H. rewrite Hg in H. repeat case_match; by simplify_eq.
    + unfold convert_string in H. rewrite Hg in H. repeat case_match; by simplify_eq.
    + unfold convert_datetime in H. rewrite Hg in H. repeat case_match; by simplify_eq.
    + done.
Qed.
Lemma fail_exactly perm q jt d ts input m s s1 g x : (0 < o_stack W)%nat ->
  run_opt_tis W FJson ts input jt m s = (s1, Ok (VS SNil)) ->
  jget W (view (hp s1)) (apply_mod m q) input = Some g -> gview (view (hp s1)) g = WS x -> jt ∈ scalar_types -> converted W jt x None ->
  (jt = "boolean" -> forall t, x = SStr t -> exec W perm FJson (IScal q jt d ts) input m s = (s1, Err)) /\
  (~ (jt = "boolean" /\ exists t, x = SStr t) -> exec W perm FJson (IScal q jt d ts) input m s = (s1, Ok d)).
Proof.
  intros Hst H Hj Hg Hjt Hc.
  assert (Hcv : convert W (view (hp s1)) jt g = if is_nil (view (hp s1)) g then Some (GS SNil, false) else Some (convert_leaf W (view (hp s1)) jt g)).
  { unfold convert. destruct (o_stack W); [lia|]. cbn [convert_go]. rewrite Hg. by destruct (is_nil (view (hp s1)) g). }
  split.
  - intros Hb t ->. assert (Hnil : is_nil (view (hp s1)) g = false) by (unfold is_nil; by rewrite Hg).
    rewrite Hnil, (leaf_string _ _ _ _ Hg Hb Hc) in Hcv. by rewrite (scal_json_present W perm _ _ _ _ _ _ _ _ _ _ _ H Hj Hcv).
  - intros Hn. destruct (is_nil (view (hp s1)) g) eqn:Hnil; [by rewrite (scal_json_present W perm _ _ _ _ _ _ _ _ _ _ _ H Hj Hcv)|].
    destruct (convert_leaf W (view (hp s1)) jt g) as [nv e] eqn:Hl.
    assert (Hx : x <> SNil). { intros ->. unfold is_nil in Hnil. by rewrite Hg in Hnil. }
    assert (He : e = true).
    { destruct (convert_scalar_thm W (view (hp s1)) jt g None Hjt) as (g' & e' & Hc' & ->).
      - destruct (o_stack W); [lia|]. cbn [shallow]. intros y l y' l' E. congruence.
      - by eapply conv_scalar.
      - rewrite Hcv in Hc'. congruence. }
    subst e. rewrite (scal_json_present W perm _ _ _ _ _ _ _ _ _ _ _ H Hj Hcv). by rewrite (leaf_other _ _ _ _ _ Hg Hn Hc Hl).
Qed.
End fail.

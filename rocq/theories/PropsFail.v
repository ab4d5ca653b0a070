(** C07: exactly when a value that cannot be converted makes Transform fail. Vocabulary: SpecConv.v. *)
From stdpp Require Import strings list gmap.
From Coq Require Import ZArith Lia.
From Verif Require Import GoStr Val Conv Instr Heap Schema Build World Cases SpecOps SpecConv FailL.

(** C07. A scalar instance whose transform yields nothing and whose own value is a scalar that cannot be converted to its type fails if it is a
    boolean and the value is a string; in all other cases it gets its default. *)
Theorem C07_exactly W perm q jt d ts input m s s1 g x : (0 < o_stack W)%nat ->
  run_opt_tis W FJson ts input jt m s = (s1, Ok (VS SNil)) ->
  jget W (view (hp s1)) (apply_mod m q) input = Some g -> gview (view (hp s1)) g = WS x -> jt ∈ scalar_types -> converted W jt x None ->
  (jt = "boolean" -> forall t, x = SStr t -> exec W perm FJson (IScal q jt d ts) input m s = (s1, Err)) /\
  (~ (jt = "boolean" /\ exists t, x = SStr t) -> exec W perm FJson (IScal q jt d ts) input m s = (s1, Ok d)).
Proof. exact (fail_exactly W perm q jt d ts input m s s1 g x). Qed.
Print Assumptions C07_exactly.
Example C07_exactly_case : (0 < o_stack W0)%nat /\ exists input s g,
  load (TObj [("x", jstr "maybe")]) st0 = (s, Ok input) /\ run_opt_tis W0 FJson None input "boolean" [] s = (s, Ok (VS SNil)) /\
  jget W0 (view (hp s)) (apply_mod [] "$.x") input = Some g /\ gview (view (hp s)) g = WS (SStr "maybe") /\
  "boolean" ∈ scalar_types /\ converted W0 "boolean" (SStr "maybe") None.
Proof.
  split; [vm_compute; lia|]. do 3 eexists. split; [vm_compute; reflexivity|]. split; [reflexivity|]. split; [vm_compute; reflexivity|]. split; [vm_compute; reflexivity|].
  split; [left|]. apply bool_bad; [done|unfold true_words; set_solver|unfold false_words; set_solver].
Qed.

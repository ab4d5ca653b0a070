(** C15 on whole documents. *)
From stdpp Require Import strings list gmap.
From Coq Require Import ZArith.
From Verif Require Import GoStr Val Conv Instr Heap World SpecPath SpecPut SaveL PutL Cases CasePut.

(** C15. Saving a non-null value in a document, at any path of members and items of (arrays of) arrays. If a member on
    the path that must be an object holds something else, saving fails; if a member that must be an array holds
    something else, it crashes. Otherwise the path reads back as the value - merged with the object that was there,
    if both are objects and the path ends at an item -, whatever can be read at a path that parts from it is as
    before, but for the nulls that fill an array, and nothing outside the document changes. *)
Theorem C15_save_partial W ρ v s l kvs F tv Fv : plain_steps ρ -> v <> VS SNil -> ok_st s ->
  owns (hp s) (VMap l) (TObj kvs) F -> owns (hp s) v tv Fv -> F ## Fv ->
  let r := save_in_tree W l (path_of (steps_path ρ)) v s in
  (stopped no_object kvs ρ -> r.2 = Err) /\
  (stopped no_array kvs ρ -> r.2 = Panic) /\
  (~ stopped no_object kvs ρ -> ~ stopped no_array kvs ρ -> r.2 = Ok tt /\
    (exists t F', owns (hp r.1) (VMap l) t F' /\
      (exists w, get t (steps_path ρ) = Some w /\
        (w = tv \/ exists new old, tv = TObj new /\ get (TObj kvs) (steps_path ρ) = Some (TObj old) /\ w = TObj (merged new old))) /\
      (forall τ, part_at (steps_path ρ) τ -> get t τ = get (TObj kvs) τ \/ (get (TObj kvs) τ = None /\ get t τ = Some null))) /\
    (forall x, x ∉ F ∪ Fv -> is_Some (hp s !! x) -> hp r.1 !! x = hp s !! x)).
Proof. exact (save_doc_thm W ρ v s l kvs F tv Fv). Qed.
Print Assumptions C15_save_partial.
Example C15_save_case : ok_st heap2 /\
  (exists F Fv, owns (hp heap2) (VMap 0) (TObj doc2) F /\ owns (hp heap2) (VMap 4) (TObj saved2) Fv /\ F ## Fv) /\
  let merge := [("a", [1%nat])] in
  (plain_steps merge /\ ~ stopped no_object doc2 merge /\ ~ stopped no_array doc2 merge) /\
  let deep := [("a", [0%nat; 3%nat]); ("b", [])] in
  (plain_steps deep /\ ~ stopped no_object doc2 deep /\ ~ stopped no_array doc2 deep) /\
  stopped no_object doc2 [("a", []); ("x", [])] /\ stopped no_array doc2 [("n", [0%nat])].
Proof.
  cbv zeta. split; [exact heap2_ok|]. split; [exact heap2_doc|]. split_and!; try done.
  all: first [by apply plain_test|by eapply (goes _ _ null); [vm_compute; reflexivity|]|by eapply (fails _ _ null); [vm_compute; reflexivity|]|by eapply (crashes _ _ null); [vm_compute; reflexivity|]|by repeat constructor].
Qed.
(** Values that are no part of the path are still lost where an item changes its kind: saving a member of an item
    that is an array (or the item of an item that is an object) replaces it. *)
Theorem C15_replaced_refuted : exists s s' l kvs t F F', owns (hp s) (VMap l) (TObj kvs) F /\
  save_in_tree W0 l (path_of (steps_path [("a", [0%nat]); ("b", [])])) (VS (SStr "v")) s = (s', Ok tt) /\ owns (hp s') (VMap l) t F' /\
  get (TObj kvs) [Nm "a"; Ix 0; Ix 0] = Some (TS (SStr "1")) /\ get t [Nm "a"; Ix 0; Ix 0] = None.
Proof. exact replaced. Qed.
Print Assumptions C15_replaced_refuted.

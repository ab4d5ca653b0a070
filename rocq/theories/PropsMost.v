(** C10: exactly when `max` picks an item with the largest value. Vocabulary: SpecOps.v. *)
From stdpp Require Import strings list gmap.
From Coq Require Import Floats.SpecFloat ZArith.
From Verif Require Import GoStr Val Conv Instr SpecOps OpsThm World Build MostL PropsOps.

(** C10. If all items have a number, `max` gives the `return` field of one of them. No item has a larger number
    exactly if some number is positive or no number is larger than that of the first item. *)
Theorem C10_exactly W V (view : V -> vw V) args p q items fs raw :
  args !! "by" = Some ("@" +:+ p) -> args !! "return" = Some ("@" +:+ q) ->
  gview view raw = WArr items -> items <> [] ->
  Forall2 (fun item f => exists b, jget_g W view ("$" +:+ p) item = Some b /\ number_value view b f) items fs ->
  exists li item chosen first, items !! li = Some item /\ fs !! li = Some chosen /\ fs !! 0%nat = Some first /\
  op_run W view (OpMax args) raw = match jget_g W view ("$" +:+ q) item with Some r => Ok r | None => Err end /\
  ((forall f, f ∈ fs -> ~ float_gt f chosen) <->
   (exists f, f ∈ fs /\ float_gt f (S754_zero false)) \/ (forall f, f ∈ fs -> ~ float_gt f first)).
Proof. intros Hb Hq. rewrite <- !(max_arg _ _ _ Hb), <- !(max_arg _ _ _ Hq). exact (most_loop W V view args items fs raw). Qed.
Print Assumptions C10_exactly.
Example C10_exactly_case : let items := [GV (item (-5) "small"); GV (item (-1) "large")] in
  max_args !! "by" = Some ("@" +:+ ".n") /\ max_args !! "return" = Some ("@" +:+ ".v") /\
  gview tview (GV (TArr [item (-5) "small"; item (-1) "large"])) = WArr items /\
  Forall2 (fun it f => exists b, jget_g W0 tview ("$" +:+ ".n") it = Some b /\ number_value tview b f) items [fl (-5); fl (-1)].
Proof.
  split; [done|]. split; [done|]. split; [done|].
  repeat constructor; eexists; (split; [vm_compute; reflexivity|left; reflexivity]).
Qed.

(** A value that is not an array has no maximum. *)
Theorem C10_not_an_array W V (view : V -> vw V) args raw : (forall items, gview view raw <> WArr items) -> op_run W view (OpMax args) raw = Err.
Proof. exact (most_array W V view args raw). Qed.
Print Assumptions C10_not_an_array.
Example C10_not_an_array_case : forall items, gview tview (GV (TS (SStr "x"))) <> WArr items.
Proof. done. Qed.

(** C10: exactly when `max` picks an item with the largest value. *)
From stdpp Require Import strings list gmap.
From Coq Require Import Floats.SpecFloat ZArith.
From Verif Require Import GoStr GoStrL Val Conv Instr InstrL ConvL SpecOps OpsThm.

Lemma most_loop W V (view : V -> vw V) args items fs raw :
  gview view raw = WArr items -> items <> [] ->
  Forall2 (fun item f => exists b, jget_g W view (replace1 (arg args "by") "@" "$") item = Some b /\ number_value view b f) items fs ->
  exists li item chosen first, items !! li = Some item /\ fs !! li = Some chosen /\ fs !! 0%nat = Some first /\
  op_run W view (OpMax args) raw =
  match jget_g W view (replace1 (arg args "return") "@" "$") item with Some r => Ok r | None => Err end /\
  ((forall f, f ∈ fs -> ~ float_gt f chosen) <->
   (exists f, f ∈ fs /\ float_gt f f_zero) \/ (forall f, f ∈ fs -> ~ float_gt f first)).
Proof.
  intros Hraw Hne HF.
  assert (Forall2 (fun item f => by_value W view (replace1 (arg args "by") "@" "$") item = Some f) items fs) as HF'.
  { eapply Forall2_impl; [exact HF|]. intros x y H. by apply number_value_by. }
  destruct items as [|it items']; [done|]. destruct fs as [|f0 fs']; [by inversion HF|].
  destruct (max_loop_inv W view _ (it :: items') (f0 :: fs') HF' [] (f0 :: fs') 0%nat f_zero 0%nat) as (lg & li' & E & Hle & Hinv);
    [done|done|done|by left|].
  rewrite drop_0 in E. cbn [op_run]. unfold op_max. rewrite Hraw, E.
  assert (forall f, f ∈ f0 :: fs' -> ~ float_gt f lg) as Hle'.
  { intros f (j & Hj)%elem_of_list_lookup. specialize (Hle _ _ Hj). unfold float_gt, f_gtb in *. congruence. }
  destruct Hinv as [[-> ->]|(Hl & Hp & Hb)].
  - exists 0%nat, it, f0, f0. do 4 (split; [done|]). split; [by right|]. intros [(f & Hf & Hg)|H]; [|done].
    by destruct (Hle' f Hf).
  - destruct (Forall2_lookup_r _ _ _ _ _ HF Hl) as (item & Hit & _).
    exists li', item, lg, f0. rewrite Hit. do 4 (split; [done|]). split; [|done].
    intros _. left. exists lg. split; [by eapply elem_of_list_lookup_2|exact Hp].
Qed.

(** Nothing but an array has a maximum. *)
Lemma most_array W V (view : V -> vw V) args raw : (forall items, gview view raw <> WArr items) -> op_run W view (OpMax args) raw = Err.
Proof. intros H. cbn [op_run]. unfold op_max. destruct (gview view raw) eqn:E; try done. by destruct (H _ eq_refl). Qed.

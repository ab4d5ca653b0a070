(** C87: the text in which rename flags are shown does not set them. Vocabulary: SpecShown.v. *)
From stdpp Require Import strings list gmap.
From Coq Require Import Ascii.
From Verif Require Import GoStr Flags SpecFlags SpecShown ReadBackL.

(** C87. For no rename flags does the text in which they are shown set the same flags, in whatever order they are shown: it is rejected, or sets
    others. *)
Theorem C87_never_read_back m ks : keys_of m ks -> set_flag ∅ (flag_string ks m) <> (m, true).
Proof. exact (never_read_back m ks). Qed.
Print Assumptions C87_never_read_back.
(** without flags it is rejected; with one it sets another *)
Example C87_never_read_back_case : keys_of ∅ [] /\ set_flag ∅ (flag_string [] ∅) = (∅, false) /\
  keys_of {["a" := "b"]} ["a"] /\ set_flag ∅ (flag_string ["a"] {["a" := "b"]}) = ({["-a" := "b"]}, true).
Proof.
  split_and!; [|vm_compute; reflexivity| |vm_compute; reflexivity].
  - split; [constructor|]. intros k. rewrite elem_of_nil, lookup_empty. split; [done|by intros [? [=]]].
  - split; [repeat constructor; set_solver|]. intros k. rewrite elem_of_list_singleton. split; [intros ->; by eexists|]. intros [v (<- & _)%lookup_singleton_Some]. done.
Qed.

(** C87: how rename flags are shown. Vocabulary: SpecShown.v, SpecFlags.v. *)
From stdpp Require Import strings list gmap.
From Coq Require Import Ascii.
From Verif Require Import GoStr Flags SpecFlags SpecShown FlagsL ShownL.

(** C87. Rename flags are shown as `-k=v -k2=v2`: each pair once and nothing else, in the order in which the map is gone through. *)
Theorem C87_shown m ks : keys_of m ks -> exists kvs, flag_string ks m = shown kvs /\ kvs.*1 = ks /\ forall k v, (k, v) ∈ kvs <-> m !! k = Some v.
Proof. exact (shown_flags m ks). Qed.
Print Assumptions C87_shown.
(** Flags without blanks, and without "=" in the keys, are known from what is shown. *)
Theorem C87_determines_partial m ks m' ks' : keys_of m ks -> keys_of m' ks' -> clear_pairs m -> clear_pairs m' -> flag_string ks m = flag_string ks' m' -> m = m'.
Proof. exact (shown_determines m ks m' ks'). Qed.
Print Assumptions C87_determines_partial.
Definition two_flags : gmap string string := {["a" := "b"; "c" := "d"]}.
Example C87_case : keys_of two_flags ["c"; "a"] /\ clear_pairs two_flags /\ flag_string ["c"; "a"] two_flags = "-c=d -a=b".
Proof.
  split; [split|split].
  - repeat constructor; set_solver.
  - intros k. unfold two_flags. rewrite <- insert_empty, !elem_of_cons, elem_of_nil. rewrite !lookup_insert_is_Some, lookup_empty. split.
    + intros [->|[->|[]]]; [right; split; [done|]|by left]. by left.
    + intros [<-|[_ [<-|[_ [? [=]]]]]]; auto.
  - intros k v. unfold two_flags. rewrite <- insert_empty. rewrite lookup_insert_Some, lookup_insert_Some, lookup_empty.
    intros [[<- <-]|[_ [[<- <-]|[_ [=]]]]]; split_and!; apply without_free; vm_compute; reflexivity.
  - vm_compute. reflexivity.
Qed.
(** With a blank in a value they are not. *)
Theorem C87_blank_refuted : exists m ks m' ks', keys_of m ks /\ keys_of m' ks' /\ flag_string ks m = flag_string ks' m' /\ m <> m'.
Proof.
  exists two_flags, ["a"; "c"], {["a" := "b -c=d"]}, ["a"]. split; [|split; [|split; [vm_compute; reflexivity|]]].
  - destruct C87_case as [[_ H] _]. split; [repeat constructor; set_solver|]. intros k. rewrite <- H. set_solver.
  - split; [repeat constructor; set_solver|]. intros k. rewrite elem_of_list_singleton. split; [intros ->; by eexists|].
    intros [v (<- & _)%lookup_singleton_Some]. done.
  - intros E. apply (f_equal (lookup "c")) in E. vm_compute in E. discriminate E.
Qed.
Print Assumptions C87_blank_refuted.
(** What is shown is not what is to be written to set the same flags: keys begin with a hyphen when it is read. *)
Theorem C87_read_back_refuted : exists m ks, keys_of m ks /\ set_flag ∅ (flag_string ks m) = ({["-a" := "b"]}, true) /\ m = {["a" := "b"]}.
Proof.
  exists {["a" := "b"]}, ["a"]. split; [|split; [vm_compute; reflexivity|done]].
  split; [repeat constructor; set_solver|]. intros k. rewrite elem_of_list_singleton. split; [intros ->; by eexists|]. intros [v (<- & _)%lookup_singleton_Some]. done.
Qed.
Print Assumptions C87_read_back_refuted.

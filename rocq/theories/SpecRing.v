(** Files that refer to each other. *)
From stdpp Require Import strings list gmap relations.
From Verif Require Import GoStr Val Load SpecRef.
From Verif Require Den.

(** The file [p] refers to the file [q]: somewhere in it, and not inside an object that is itself a reference, is a reference to a file name, or to
    a value in a file of that name, that means [q]. *)
Definition refers_to_file (F : files) (p q : string) : Prop := exists o π f τ,
  f_file F p = Some (TObj o) /\ Den.distinct_keys (TObj o) /\
  ref_at (TObj o) π (file_ref f τ) /\ file_part f /\ (τ = [] \/ simple_path τ) /\ f_rel F p f = q /\ q <> p /\
  (forall π' r', ref_at (TObj o) π' r' -> π' <> π -> ~ π' `prefix_of` π).
(** [p] is on a cycle of such references, or leads to one *)
Definition leads_to_cycle (F : files) (p : string) : Prop := exists c, rtc (refers_to_file F) p c /\ tc (refers_to_file F) c c.

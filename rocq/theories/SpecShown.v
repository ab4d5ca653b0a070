(** How rename flags are shown. *)
From stdpp Require Import strings list gmap.
From Coq Require Import Ascii.
From Verif Require Import GoStr SpecFlags.

(** `-k=v -k2=v2` *)
Definition shown (kvs : list (string * string)) : string := join " " (map (fun kv => "-" +:+ kv.1 +:+ "=" +:+ kv.2) kvs).
(** [ks] are the keys of the map, in some order *)
Definition keys_of (m : gmap string string) (ks : list string) : Prop := NoDup ks /\ forall k, k ∈ ks <-> is_Some (m !! k).
(** no blanks in keys and values, and no "=" in keys *)
Definition clear_pairs (m : gmap string string) : Prop :=
  forall k v, m !! k = Some v -> without "="%char k /\ without " "%char k /\ without " "%char v.

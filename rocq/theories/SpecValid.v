(** The order of Go strings, and sorting. *)
From stdpp Require Import strings list.
From Coq Require Import Ascii NArith Sorted.

(** a < b, byte by byte *)
Inductive less : string -> string -> Prop :=
| less_end c s : less "" (String c s)
| less_char c d s t : (N_of_ascii c < N_of_ascii d)%N -> less (String c s) (String d t)
| less_rest c s t : less s t -> less (String c s) (String c t).
(** what sort.Slice does with this order: the same texts, and none stands before a smaller one *)
Definition sorts (sort : list string -> list string) : Prop := forall l, sort l ≡ₚ l /\ StronglySorted (fun a b => ~ less b a) (sort l).

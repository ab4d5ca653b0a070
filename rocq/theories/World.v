(** A concrete choice of the library oracles, used by the examples beside the theorems and by the
    refutations. It is simple but agrees with the Go libraries on the inputs the examples use. *)
From stdpp Require Import strings list gmap.
From Coq Require Import Ascii Floats.SpecFloat ZArith.
From Verif Require Import GoStr Val Conv Instr Heap Build.

Definition W0 : oracles := {|
  o_parse_float s := if decide (s = "1.5") then Some (S754_finite false 3 (-1)) else
                     if decide (s = "NaN") then Some S754_nan else None;
  o_fmt_float f := match f with S754_finite false 3 (-1) => "1.5" | _ => "0" end;
  o_f2i _ := 0%Z;
  o_parse_time _ s := if decide (s = "2020-01-01T00:00:00Z") then Some (GTime 1577836800 0 0) else None;
  o_fmt_time _ _ := "2020-01-01T00:00:00Z";
  o_now := GTime 1577836800 0 0;
  o_lower s := s; o_upper s := s; o_title s := s;
  o_re_ok s := bool_decide (s <> "(");
  o_re_replace _ s _ := s;
  o_sanitize s := s; o_unescape s := s;
  o_jpath _ _ _ _ := None;
  o_xfind n p := if decide (p = "(") then None else
                 if decide (p = ".") then Some [n] else
                 if decide (p = ".[not(*)]" /\ n <> 0%nat) then Some [n] else
                 if decide (n = 0%nat /\ p = "//name") then Some [1%nat] else
                 if decide (n = 0%nat /\ p = "//name[not(*)]") then Some [1%nat] else
                 if decide (n = 0%nat /\ p = "//tag") then Some [2%nat; 3%nat] else
                 if decide (n = 0%nat /\ p = "//tag[not(*)]") then Some [2%nat; 3%nat] else Some [];
  o_text n := nth n ["doc"; "hello"; "one"; "two"] "";
  o_stack := 100;
  o_grow n := (2 * n)%nat |}.

(** float64 literals *)
Definition fl (z : Z) : spec_float := f_of_int z.
(** the iteration order that takes entries as listed *)
Definition id_perm (_ n : nat) : list nat := seq 0 n.
Definition rev_perm (_ n : nat) : list nat := rev (seq 0 n).

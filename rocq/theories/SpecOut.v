(** Documents that can be written as JSON. *)
From stdpp Require Import strings list gmap.
From Coq Require Import ZArith Floats.SpecFloat.
From Verif Require Import GoStr Val.

(** The Gregorian calendar: the years that have a 29th of February, and the number of days before the year [y]
    counted from the first of January of the year 0. *)
Definition leap (y : nat) : bool := (y mod 4 =? 0) && negb (y mod 100 =? 0) || (y mod 400 =? 0).
Fixpoint days_before (y : nat) : Z :=
  match y with O => 0%Z | S y' => (days_before y' + if leap y' then 366 else 365)%Z end.
(** the first second of a year, on the clock that shows 0 when the year 1970 begins *)
Definition year_start (y : nat) : Z := (86400 * (days_before y - days_before 1970))%Z.
(** the calendar year, at its own distance from UTC, of a time *)
Definition year_of (t : gtime) (y : nat) : Prop := (year_start y <= t_sec t + t_off t < year_start (S y))%Z.

(** RFC 8259 has no infinities and nothing that is not a number; RFC 3339 has four digits for a year. *)
Inductive writable : tree -> Prop :=
| w_nil : writable (TS SNil)
| w_bool b : writable (TS (SBool b))
| w_str s : writable (TS (SStr s))
| w_int z : writable (TS (SInt z))
| w_i64 z : writable (TS (SI64 z))
| w_num f : f <> S754_nan -> (forall b, f <> S754_infinity b) -> writable (TS (SF f))
| w_time t y : year_of t y -> y < 100 * 100 -> writable (TS (STime t))
| w_arr l : Forall writable l -> writable (TArr l)
| w_obj kvs : Forall (fun kv => writable kv.2) kvs -> writable (TObj kvs).

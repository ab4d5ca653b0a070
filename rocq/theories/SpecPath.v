(** Instance paths: `$` followed by member names, `[*]` for the items of an array, and indices. *)
From stdpp Require Import strings list.
From Coq Require Import ZArith Ascii.
From Verif Require Import GoStr.

Inductive seg :=
| Nm (k : string)        (* .k *)
| Star                   (* [*] *)
| Ix (i : nat).          (* [i] *)
Definition index_str (i : nat) : string := "[" +:+ itoa (Z.of_nat i) +:+ "]".
Fixpoint segs (l : list seg) : string :=
  match l with
  | [] => ""
  | Nm k :: l' => "." +:+ k +:+ segs l'
  | Star :: l' => "[*]" +:+ segs l'
  | Ix i :: l' => index_str i +:+ segs l'
  end.
Definition path_of (l : list seg) : string := "$" +:+ segs l.

(** member names free of the characters that mean something in a path *)
Definition plain_name (k : string) : Prop := str_in "." k = false /\ str_in "[" k = false /\ k <> "".
Definition seg_ok (s : seg) : Prop := match s with Nm k => plain_name k | _ => True end.
(** names the JSONPath library reads as identifiers *)
Definition ident (k : string) : bool :=
  match k with
  | "" => false
  | String a k' =>
    (is_letter a || bool_decide (a = "_"%char)) &&
    str_all (fun a => is_letter a || bool_decide (a = "_"%char) || is_digit a) k'
  end.
(** locations in documents: identifiers and indices *)
Definition concrete (s : seg) : Prop := match s with Nm k => ident k = true | Star => False | Ix _ => True end.

(** Go strings (byte strings) and the parts of packages strings and strconv used by jstransform.
    Go's `string` is modelled by Coq's `string`, read as a sequence of bytes. *)
From stdpp Require Import strings list numbers.
From Coq Require Import Ascii ZArith NArith.

(** Outcome of a Go call returning (value, error): the error text is dropped;
    a run-time panic (which /repo never recovers from) is a separate outcome. *)
Inductive res (A : Type) : Type :=
| Ok (a : A)
| Err
| Panic.
Arguments Ok {A} a.
Arguments Err {A}.
Arguments Panic {A}.

Definition rbind {A B} (r : res A) (f : A -> res B) : res B :=
  match r with Ok a => f a | Err => Err | Panic => Panic end.

(** strings.HasPrefix *)
Fixpoint has_prefix (p s : string) : bool :=
  match p, s with
  | "", _ => true
  | String _ _, "" => false
  | String a p', String b s' => if decide (a = b) then has_prefix p' s' else false
  end.

(** s[n:] *)
Fixpoint drop_str (n : nat) (s : string) : string :=
  match n, s with
  | O, _ => s
  | S _, "" => ""
  | S n', String _ s' => drop_str n' s'
  end.

(** strings.HasSuffix *)
Definition has_suffix (p s : string) : bool :=
  bool_decide (String.length p <= String.length s)%nat &&
  bool_decide (drop_str (String.length s - String.length p) s = p).

(** [str_in p s]: strings.Contains(s, p) *)
Fixpoint str_in (p s : string) : bool :=
  has_prefix p s ||
  match s with "" => false | String _ s' => str_in p s' end.

(** strings.Join *)
Fixpoint join (sep : string) (l : list string) : string :=
  match l with
  | [] => ""
  | [x] => x
  | x :: l' => x +:+ sep +:+ join sep l'
  end.

(** Width in bytes of the first UTF-8 character of a non-empty string as unicode/utf8 decodes it;
    bytes that do not start a valid sequence have width 1.  (Simplification: overlong and surrogate
    encodings count as valid.  Strings that come out of encoding/json are always valid UTF-8.) *)
Definition is_cont (a : ascii) : bool :=
  let n := N_of_ascii a in (128 <=? n)%N && (n <? 192)%N.
Definition utf8_width (s : string) : nat :=
  match s with
  | "" => 0
  | String a s1 =>
    let n := N_of_ascii a in
    if (n <? 192)%N then 1 else
    match s1 with
    | String b s2 =>
      if negb (is_cont b) then 1 else
      if (n <? 224)%N then 2 else
      match s2 with
      | String c s3 =>
        if negb (is_cont c) then 1 else
        if (n <? 240)%N then 3 else
        match s3 with
        | String d _ => if is_cont d && (n <? 248)%N then 4 else 1
        | "" => 1
        end
      | "" => 1
      end
    | "" => 1
    end
  end.

(** strings.explode: one piece per UTF-8 character. [k] bytes of the current character are left. *)
Fixpoint explode (s : string) (k : nat) (cur : string) : list string :=
  match s with
  | "" => if decide (cur = "") then [] else [cur]
  | String a s' =>
    match k with
    | S k' => explode s' k' (cur +:+ String a "")
    | O => (if decide (cur = "") then [] else [cur]) ++
           explode s' (utf8_width s - 1) (String a "")
    end
  end.

(** strings.genSplit for a non-empty separator: leftmost non-overlapping occurrences. [skip] bytes of
    a separator just found are still to be dropped, [cur] is the piece read so far. *)
Fixpoint split_go (sep s : string) (skip : nat) (cur : string) : list string :=
  match s with
  | "" => [cur]
  | String a s' =>
    match skip with
    | S k => split_go sep s' k cur
    | O => if has_prefix sep s then cur :: split_go sep s' (String.length sep - 1) ""
           else split_go sep s' 0 (cur +:+ String a "")
    end
  end.

(** strings.Split *)
Definition split (s sep : string) : list string :=
  if decide (sep = "") then explode s 0 "" else split_go sep s 0 "".

(** strings.Replace(s, old, new, 1) *)
Fixpoint replace1 (s old new : string) : string :=
  if has_prefix old s then new +:+ drop_str (String.length old) s else
  match s with
  | "" => ""
  | String a s' => String a (replace1 s' old new)
  end.

(** strings.Replace(s, old, new, -1) for non-empty old *)
Fixpoint replace_all_go (old new s : string) (skip : nat) : string :=
  match s with
  | "" => ""
  | String a s' =>
    match skip with
    | S k => replace_all_go old new s' k
    | O => if has_prefix old s then new +:+ replace_all_go old new s' (String.length old - 1)
           else String a (replace_all_go old new s' 0)
    end
  end.
Definition replace_all (s old new : string) : string := replace_all_go old new s 0.

(** ASCII classification *)
Definition is_digit (a : ascii) : bool :=
  let n := N_of_ascii a in (48 <=? n)%N && (n <=? 57)%N.
Definition is_upper (a : ascii) : bool :=
  let n := N_of_ascii a in (65 <=? n)%N && (n <=? 90)%N.
Definition is_lower (a : ascii) : bool :=
  let n := N_of_ascii a in (97 <=? n)%N && (n <=? 122)%N.
Definition is_letter (a : ascii) : bool := is_upper a || is_lower a.
Definition is_ascii_char (a : ascii) : bool := (N_of_ascii a <? 128)%N.
Fixpoint str_all (p : ascii -> bool) (s : string) : bool :=
  match s with "" => true | String a s' => p a && str_all p s' end.
Fixpoint str_map (f : ascii -> ascii) (s : string) : string :=
  match s with "" => "" | String a s' => String (f a) (str_map f s') end.
Definition lower_char (a : ascii) : ascii :=
  if is_upper a then ascii_of_N (N_of_ascii a + 32) else a.
Definition upper_char (a : ascii) : ascii :=
  if is_lower a then ascii_of_N (N_of_ascii a - 32) else a.

(** strings.Trim(s, cutset) for a one character cutset *)
Fixpoint trim_left (c : ascii) (s : string) : string :=
  match s with
  | "" => ""
  | String a s' => if decide (a = c) then trim_left c s' else s
  end.
Fixpoint trim_right (c : ascii) (s : string) : string :=
  match s with
  | "" => ""
  | String a s' =>
    match trim_right c s' with
    | "" => if decide (a = c) then "" else String a ""
    | t => String a t
    end
  end.
Definition trim (c : ascii) (s : string) : string := trim_right c (trim_left c s).

(** strconv.Itoa *)
Definition digit_char (n : N) : ascii := ascii_of_N (48 + n).
Fixpoint digits_go (fuel : nat) (n : N) (acc : string) : string :=
  match fuel with
  | O => acc
  | S f =>
    let acc' := String (digit_char (n mod 10)) acc in
    if (n <? 10)%N then acc' else digits_go f (n / 10) acc'
  end.
Definition ntoa (n : N) : string := digits_go (S (N.size_nat n)) n "".
Definition itoa (z : Z) : string :=
  match z with
  | Zneg p => "-" +:+ ntoa (Npos p)
  | _ => ntoa (Z.to_N z)
  end.

Definition int_min : Z := (- 2 ^ 63)%Z.
Definition int_max : Z := (2 ^ 63 - 1)%Z.
Definition int_range (z : Z) : bool := (int_min <=? z)%Z && (z <=? int_max)%Z.
(** two's complement wrap-around of int/int64 arithmetic *)
Definition wrap64 (z : Z) : Z := ((z + 2 ^ 63) mod 2 ^ 64 - 2 ^ 63)%Z.

(** value of a string of decimal digits *)
Fixpoint dec_value (acc : Z) (s : string) : option Z :=
  match s with
  | "" => Some acc
  | String a s' =>
    if is_digit a then dec_value (acc * 10 + (Z.of_N (N_of_ascii a) - 48))%Z s' else None
  end.

(** strconv.Atoi and strconv.ParseInt(s, 10, 64): optional sign, at least one digit, int64 range *)
Definition atoi_digits (neg : bool) (s : string) : option Z :=
  match s with
  | "" => None
  | _ =>
    match dec_value 0 s with
    | None => None
    | Some v => let z := if neg then (- v)%Z else v in if int_range z then Some z else None
    end
  end.
Definition atoi (s : string) : option Z :=
  match s with
  | String "-" s' => atoi_digits true s'
  | String "+" s' => atoi_digits false s'
  | _ => atoi_digits false s
  end.

(** strconv.ParseBool *)
Definition parse_bool (s : string) : option bool :=
  if bool_decide (s ∈ ["1"; "t"; "T"; "TRUE"; "true"; "True"]) then Some true else
  if bool_decide (s ∈ ["0"; "f"; "F"; "FALSE"; "false"; "False"]) then Some false else None.

(** strconv.FormatBool *)
Definition format_bool (b : bool) : string := if b then "true" else "false".

(** Reading the strings of a GraphQL document: the GraphQL specification (October 2021), sections 2.9.4 "String Value". *)
From stdpp Require Import strings list.
From Coq Require Import Ascii NArith.
From Verif Require Import GoStr SpecGen SpecGql.

Definition code (c : ascii) : N := N_of_ascii c.
Definition c_quote : ascii := "034"%char.
Definition c_backslash : ascii := "092"%char.
Definition c_newline : ascii := "010"%char.
Definition c_return : ascii := "013"%char.
(** tabs and spaces *)
Definition white (c : ascii) : bool := bool_decide (c = "009"%char) || bool_decide (c = " "%char).
(** what a document may have: no control characters besides tabs and line ends *)
Definition source_char (c : ascii) : bool := bool_decide (32 <= code c)%N || bool_decide (c = "009"%char) || bool_decide (c = c_newline) || bool_decide (c = c_return).
(** a character that stands for itself between quotes *)
Definition plain_char (c : ascii) : bool :=
  source_char c && negb (bool_decide (c = c_quote)) && negb (bool_decide (c = c_backslash)) && negb (bool_decide (c = c_newline)) && negb (bool_decide (c = c_return)).
Fixpoint all_chars (p : ascii -> bool) (s : string) : bool := match s with EmptyString => true | String c s' => p c && all_chars p s' end.

Definition before (x : string) (r : option (string * string)) : option (string * string) :=
  match r with Some (v, rest) => Some (x +:+ v, rest) | None => None end.
Definition escaped (c : ascii) : option ascii :=
  if decide (c = c_quote) then Some c_quote else if decide (c = c_backslash) then Some c_backslash
  else if decide (c = "/"%char) then Some "/"%char else if decide (c = "b"%char) then Some "008"%char else if decide (c = "f"%char) then Some "012"%char
  else if decide (c = "n"%char) then Some "010"%char else if decide (c = "r"%char) then Some "013"%char else if decide (c = "t"%char) then Some "009"%char else None.
Definition hex (c : ascii) : option N :=
  let n := code c in
  if decide (48 <= n <= 57)%N then Some (n - 48)%N else if decide (65 <= n <= 70)%N then Some (n - 55)%N else if decide (97 <= n <= 102)%N then Some (n - 87)%N else None.
Definition hex4 (a b c d : ascii) : option N :=
  match hex a, hex b, hex c, hex d with Some a, Some b, Some c, Some d => Some (((a * 16 + b) * 16 + c) * 16 + d)%N | _, _, _, _ => None end.
(** a code point as UTF-8 *)
Definition utf8 (n : N) : string :=
  let byte x := ascii_of_N x in
  if decide (n < 128)%N then String (byte n) "" else
  if decide (n < 2048)%N then String (byte (192 + n / 64)%N) (String (byte (128 + n mod 64)%N) "") else
  String (byte (224 + n / 4096)%N) (String (byte (128 + (n / 64) mod 64)%N) (String (byte (128 + n mod 64)%N) "")).

(** after the first quote: the value of a string, and what follows it *)
Fixpoint read_chars (s : string) : option (string * string) :=
  match s with
  | EmptyString => None
  | String c s' =>
    if decide (c = c_quote) then Some ("", s')
    else if decide (c = c_backslash) then
      match s' with
      | EmptyString => None
      | String e s2 =>
        if decide (e = "u"%char) then
          match s2 with
          | String h1 (String h2 (String h3 (String h4 s3))) => match hex4 h1 h2 h3 h4 with Some n => before (utf8 n) (read_chars s3) | None => None end
          | _ => None
          end
        else match escaped e with Some x => before (String x "") (read_chars s2) | None => None end
      end
    else if plain_char c then before (String c "") (read_chars s') else None
  end.

(** after three quotes: the characters up to the next three *)
Fixpoint read_block (s : string) : option (string * string) :=
  match s with
  | EmptyString => None
  | String c s1 =>
    if has_prefix quotes3 s then match s1 with String _ (String _ s3) => Some ("", s3) | _ => None end
    else if has_prefix (String c_backslash quotes3) s then match s1 with String _ (String _ (String _ s4)) => before quotes3 (read_block s4) | _ => None end
    else if source_char c then before (String c "") (read_block s1) else None
  end.
(** lines end with a newline, a carriage return or both *)
Definition to_first (c : ascii) (ls : list string) : list string := match ls with [] => [String c ""] | l :: ls' => String c l :: ls' end.
Fixpoint lines (s : string) : list string :=
  match s with
  | EmptyString => [""]
  | String c s' =>
    if decide (c = c_newline) then "" :: lines s'
    else if decide (c = c_return) then "" :: match s' with String c' s2 => if decide (c' = c_newline) then lines s2 else lines s' | EmptyString => [""] end
    else to_first c (lines s')
  end.
Definition blank (l : string) : bool := all_chars white l.
Fixpoint indent (l : string) : nat := match l with String c l' => if white c then S (indent l') else 0 | EmptyString => 0 end.
(** the least indentation of the lines that are not blank *)
Fixpoint common_indent (ls : list string) : option nat :=
  match ls with
  | [] => None
  | l :: ls' => if blank l then common_indent ls' else Some (match common_indent ls' with Some n => Nat.min (indent l) n | None => indent l end)
  end.
Fixpoint skip_blank (ls : list string) : list string := match ls with l :: ls' => if blank l then skip_blank ls' else ls | [] => [] end.
(** the value of a block: the first line is not indented; blank lines at either end are dropped *)
Definition block_value (raw : string) : string :=
  match lines raw with
  | [] => ""
  | l :: ls => join newline (List.rev (skip_blank (List.rev (skip_blank (l :: map (drop_str (default 0 (common_indent ls))) ls)))))
  end.
(** a string or a block, after tabs and spaces: its value, and what follows *)
Fixpoint skip_white (s : string) : string := match s with String c s' => if white c then skip_white s' else s | EmptyString => "" end.
Definition read_string (s : string) : option (string * string) :=
  let s := skip_white s in
  if has_prefix quotes3 s then match read_block (drop_str 3 s) with Some (raw, rest) => Some (block_value raw, rest) | None => None end
  else match s with String c s' => if decide (c = c_quote) then read_chars s' else None | EmptyString => None end.

(** Characters of texts in UTF-8. *)
From stdpp Require Import strings list.
From Coq Require Import Ascii NArith.

(** a byte that continues a character *)
Definition continues (a : ascii) : Prop := (128 <= N_of_ascii a < 192)%N.
(** a character: one byte, or a byte that says how many follow, and these *)
Inductive character : string -> Prop :=
| char_one a : (N_of_ascii a < 128)%N -> character (String a "")
| char_two a b : (192 <= N_of_ascii a < 224)%N -> continues b -> character (String a (String b ""))
| char_three a b c : (224 <= N_of_ascii a < 240)%N -> continues b -> continues c -> character (String a (String b (String c "")))
| char_four a b c d : (240 <= N_of_ascii a < 248)%N -> continues b -> continues c -> continues d -> character (String a (String b (String c (String d "")))).
(** [sep] occurs in [p] followed by [sep] only at the end *)
Definition first_at_end (sep p : string) : Prop := forall a b, p +:+ sep = a +:+ sep +:+ b -> b = "".

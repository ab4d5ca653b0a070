(** What conversions, operations and the entries of a transform should yield. [gview view g] is the Go value [g] seen one
    level deep; the oracles of [W] stand for the Go library. *)
From stdpp Require Import strings list gmap.
From Coq Require Import Ascii Floats.SpecFloat ZArith.
From Verif Require Import GoStr Val Conv Instr SpecOps.

(** decimal integers as strconv reads them: an optional sign and at least one digit *)
Inductive decimal : string -> Z -> Prop :=
| decimal_plain d : digits d -> d <> "" -> decimal d (number d)
| decimal_plus d : digits d -> d <> "" -> decimal ("+" +:+ d) (number d)
| decimal_minus d : digits d -> d <> "" -> decimal ("-" +:+ d) (- number d).
(** the integer part of a float *)
Definition integer_part (f : spec_float) (z : Z) : Prop :=
  match f with
  | S754_zero _ => z = 0%Z
  | S754_finite s m e => exists a : Z, z = (if s then - a else a)%Z /\ (0 <= a)%Z /\
      (a * 2 ^ Z.max 0 (- e) <= Z.pos m * 2 ^ Z.max 0 e < (a + 1) * 2 ^ Z.max 0 (- e))%Z
  | _ => False
  end.
Definition true_words : list string := ["1"; "t"; "T"; "true"; "TRUE"; "True"].
Definition false_words : list string := ["0"; "f"; "F"; "false"; "FALSE"; "False"].
Definition iso_layout : string := "2006-01-02T15:04:05Z07:00".
(** January 1, year 1, midnight *)
Definition no_time (t : gtime) : Prop := t_sec t = (-62135596800)%Z /\ t_nsec t = 0%Z.
Definition zero_float : spec_float := S754_zero false.

Section spec.
Context (W : oracles).
(** [converted jt x r]: the scalar [x] converted to the JSON type [jt] is [r]; None: that is not possible *)
Inductive converted : string -> scal -> option scal -> Prop :=
| bool_bool b : converted "boolean" (SBool b) (Some (SBool b))
| bool_empty : converted "boolean" (SStr "") (Some (SBool false))
| bool_true s : s ∈ true_words -> converted "boolean" (SStr s) (Some (SBool true))
| bool_false s : s ∈ false_words -> converted "boolean" (SStr s) (Some (SBool false))
| bool_bad s : s <> "" -> s ∉ true_words -> s ∉ false_words -> converted "boolean" (SStr s) None
| bool_int_pos z : (0 < z)%Z -> converted "boolean" (SInt z) (Some (SBool true))
| bool_int z : (z <= 0)%Z -> converted "boolean" (SInt z) (Some (SBool false))
| bool_float_pos f : float_gt f zero_float -> converted "boolean" (SF f) (Some (SBool true))
| bool_float f : ~ float_gt f zero_float -> converted "boolean" (SF f) (Some (SBool false))
| bool_null : converted "boolean" SNil (Some SNil)
| bool_long z : converted "boolean" (SI64 z) None
| bool_time t : converted "boolean" (STime t) None
| num_true jt : jt ∈ ["number"; "integer"] -> converted jt (SBool true) (Some (SInt 1))
| num_false jt : jt ∈ ["number"; "integer"] -> converted jt (SBool false) (Some (SInt 0))
| num_empty jt : jt ∈ ["number"; "integer"] -> converted jt (SStr "") (Some SNil)
| num_decimal jt s z : jt ∈ ["number"; "integer"] -> decimal s z -> fits z -> converted jt (SStr s) (Some (SInt z))
| num_float jt s f : jt ∈ ["number"; "integer"] -> s <> "" -> (forall z, decimal s z -> ~ fits z) -> o_parse_float W s = Some f ->
    converted jt (SStr s) (Some (SF f))
| num_bad jt s : jt ∈ ["number"; "integer"] -> s <> "" -> (forall z, decimal s z -> ~ fits z) -> o_parse_float W s = None ->
    converted jt (SStr s) None
| num_int jt z : jt ∈ ["number"; "integer"] -> converted jt (SInt z) (Some (SInt z))
| num_num jt f : jt ∈ ["number"; "integer"] -> converted jt (SF f) (Some (SF f))
| num_null jt : jt ∈ ["number"; "integer"] -> converted jt SNil None
| num_long jt z : jt ∈ ["number"; "integer"] -> converted jt (SI64 z) None
| num_time jt t : jt ∈ ["number"; "integer"] -> converted jt (STime t) None
| str_true : converted "string" (SBool true) (Some (SStr "true"))
| str_false : converted "string" (SBool false) (Some (SStr "false"))
| str_str s : converted "string" (SStr s) (Some (SStr s))
| str_int z : converted "string" (SInt z) (Some (SStr (itoa z)))
| str_float f : converted "string" (SF f) (Some (SStr (o_fmt_float W f)))
| str_null : converted "string" SNil (Some SNil)
| str_long z : converted "string" (SI64 z) None
| str_time t : converted "string" (STime t) None
| time_empty : converted "date-time" (SStr "") (Some SNil)
| time_str s t : s <> "" -> o_parse_time W iso_layout s = Some t -> ~ no_time t -> converted "date-time" (SStr s) (Some (STime t))
| time_none s t : s <> "" -> o_parse_time W iso_layout s = Some t -> no_time t -> converted "date-time" (SStr s) (Some SNil)
| time_bad s : s <> "" -> o_parse_time W iso_layout s = None -> converted "date-time" (SStr s) None
| time_int z : converted "date-time" (SInt z) (Some (STime (GTime z 0 0)))
| time_float f z : integer_part f z -> fits z -> converted "date-time" (SF f) (Some (STime (GTime z 0 0)))
| time_float_large f : (forall z, integer_part f z -> ~ fits z) -> converted "date-time" (SF f) (Some (STime (GTime (o_f2i W f) 0 0)))
| time_bool b : converted "date-time" (SBool b) None
| time_null : converted "date-time" SNil None
| time_long z : converted "date-time" (SI64 z) None
| time_time t : converted "date-time" (STime t) None.

Context {V : Type} (view : V -> vw V).
(** neither a scalar nor a filled array *)
Definition other_value (g : gval V) : Prop := (forall s, gview view g <> WS s) /\ (forall x l, gview view g <> WArr (x :: l)).
(** [converts jt g r]: what a value converts to, for a scalar type. Of arrays the first item counts. *)
Inductive converts (jt : string) : gval V -> option scal -> Prop :=
| conv_null g : gview view g = WS SNil -> converts jt g (Some SNil)
| conv_scalar g s r : gview view g = WS s -> s <> SNil -> converted jt s r -> converts jt g r
| conv_empty g : gview view g = WArr [] -> converts jt g (Some SNil)
| conv_item g x l s r : gview view g = WArr (x :: l) -> gview view x = WS s -> converted jt s r -> converts jt g r
| conv_item_other g x l : gview view g = WArr (x :: l) -> other_value x -> converts jt g None
| conv_nested g x l y l' r : gview view g = WArr (x :: l) -> gview view x = WArr (y :: l') -> converts jt y r -> converts jt g r
| conv_other g : other_value g -> gview view g <> WArr [] -> converts jt g None.
(** [taken g h]: what is taken of a value for an array or object, None if that is null; an array with
    several items is taken as it is for an array *)
Inductive taken (jt : string) : gval V -> option (gval V) -> Prop :=
| taken_null g : gview view g = WS SNil -> taken jt g None
| taken_empty g : gview view g = WArr [] -> taken jt g None
| taken_plain g : gview view g <> WS SNil -> (forall l, gview view g <> WArr l) -> taken jt g (Some g)
| taken_whole g l : gview view g = WArr l -> 2 <= length l -> jt = "array" -> taken jt g (Some g)
| taken_item g x l : gview view g = WArr (x :: l) -> l = [] \/ jt <> "array" -> (forall y l', gview view x <> WArr (y :: l')) -> taken jt g (Some x)
| taken_nested g x l y l' h : gview view g = WArr (x :: l) -> l = [] \/ jt <> "array" -> gview view x = WArr (y :: l') -> taken jt y h -> taken jt g h.
(** arrays are not nested too deep for the stack *)
Fixpoint shallow (n : nat) (g : gval V) : Prop :=
  match n with
  | O => False
  | S n' => forall x l y l', gview view g = WArr (x :: l) -> gview view x = WArr (y :: l') -> shallow n' y
  end.
Definition scalar_types : list string := ["boolean"; "number"; "integer"; "string"; "date-time"].

(** ** operations *)
(** character by character *)
Inductive each_char (R : ascii -> ascii -> Prop) : string -> string -> Prop :=
| each_nil : each_char R "" ""
| each_cons a b s t : R a b -> each_char R s t -> each_char R (String a s) (String b t).
Definition ascii_string (s : string) : Prop := each_char (fun a b => a = b /\ nat_of_ascii a < 128) s s.
(** a capital letter and its small one *)
Definition letters (A a : ascii) : Prop := 65 <= nat_of_ascii A <= 90 /\ nat_of_ascii a = nat_of_ascii A + 32.
Definition in_lower (a b : ascii) : Prop := letters a b \/ (a = b /\ ~ 65 <= nat_of_ascii a <= 90).
Definition in_upper (a b : ascii) : Prop := letters b a \/ (a = b /\ ~ 97 <= nat_of_ascii a <= 122).
(** letters, digits and underscores make words *)
Definition word_char (a : ascii) : Prop :=
  let n := nat_of_ascii a in 65 <= n <= 90 \/ 97 <= n <= 122 \/ 48 <= n <= 57 \/ n = 95.
(** the first character of every word in upper case; the flag says that a word is going on *)
Inductive titled : bool -> string -> string -> Prop :=
| titled_nil w : titled w "" ""
| titled_inside a s t w : (w = true <-> word_char a) -> titled w s t -> titled true (String a s) (String a t)
| titled_start a b s t w : in_upper a b -> (w = true <-> word_char a) -> titled w s t -> titled false (String a s) (String b t).

(** ASCII white space: tab, newline, vertical tab, form feed, carriage return, space *)
Definition white (a : ascii) : Prop := 9 <= nat_of_ascii a <= 13 \/ nat_of_ascii a = 32.
Definition all_white (s : string) : Prop := each_char (fun a b => a = b /\ white a) s s.
(** without white space at the ends *)
Definition trimmed (s t : string) : Prop := exists l r, s = l +:+ t +:+ r /\ all_white l /\ all_white r /\
  (forall a t', t = String a t' -> ~ white a) /\ (forall a t', t = t' +:+ String a "" -> ~ white a).
(** from left to right, every two spaces become one *)
Inductive halved : string -> string -> Prop :=
| halved_nil : halved "" ""
| halved_two s t : halved s t -> halved (String " " (String " " s)) (String " " t)
| halved_other a s t : (a <> " "%char \/ forall s', s <> String " " s') -> halved s t -> halved (String a s) (String a t).

(** ** entries *)
(** the operations one after the other, as long as they succeed *)
Inductive applied (run : op -> gval V -> res (gval V)) : list op -> gval V -> res (gval V) -> Prop :=
| applied_nil g : applied run [] g (Ok g)
| applied_cons o os g h r : run o g = Ok h -> applied run os h r -> applied run (o :: os) g r
| applied_err o os g : run o g = Err -> applied run (o :: os) g Err
| applied_panic o os g : run o g = Panic -> applied run (o :: os) g Panic.
End spec.

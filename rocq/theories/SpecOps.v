(** Vocabulary of the statements about transform instructions, conversions and operations. Nothing here
    mentions the functions of the model; [gview view g] is the Go value [g] seen one level deep. *)
From stdpp Require Import strings list gmap.
From Coq Require Import Ascii Floats.SpecFloat ZArith.
From Verif Require Import GoStr Val Conv Instr.

Section spec.
Context {V : Type} (view : V -> vw V).

(** the nil interface *)
Definition null (g : gval V) : Prop := gview view g = WS SNil.
Definition is_value (g : gval V) : bool := match gview view g with WS SNil => false | _ => true end.
(** an entry that yields no value *)
Definition yields_null (r : res (gval V)) : Prop := exists g, r = Ok g /\ null g.
(** the value is the string [s] *)
Definition holds_string (g : gval V) (s : string) : Prop := gview view g = WS (SStr s).

(** the Go types that marshal to a scalar JSON type *)
Definition has_json_type (jt : string) (g : gval V) : Prop :=
  (jt = "boolean" -> exists b, gview view g = WS (SBool b)) /\
  (jt = "number" \/ jt = "integer" ->
     (exists z, gview view g = WS (SInt z)) \/ (exists f, gview view g = WS (SF f))) /\
  (jt = "string" -> exists s, gview view g = WS (SStr s)) /\
  (jt = "date-time" -> exists t, gview view g = WS (STime t)).
End spec.

(** strings of decimal digits *)
Inductive digits : string -> Prop :=
| digits_nil : digits ""
| digits_cons a s : (48 <= nat_of_ascii a <= 57)%nat -> digits s -> digits (String a s).
(** the number a string of digits denotes *)
Fixpoint number_from (acc : Z) (s : string) : Z :=
  match s with
  | "" => acc
  | String a s' => number_from (10 * acc + (Z.of_nat (nat_of_ascii a) - 48)) s'
  end.
Definition number (s : string) : Z := number_from 0 s.
(** "m:s" and "h:m:s"; the first has no hour group *)
Inductive clock : string -> string -> string -> string -> Prop :=
| clock_ms m sec : digits m -> digits sec -> clock (m +:+ ":" +:+ sec) "" m sec
| clock_hms h m sec : digits h -> digits m -> digits sec ->
    clock (h +:+ ":" +:+ m +:+ ":" +:+ sec) h m sec.
(** what a Go int can hold, and two's complement reduction to it *)
Definition fits (z : Z) : Prop := (- 2 ^ 63 <= z < 2 ^ 63)%Z.
Definition is_wrap (z w : Z) : Prop := fits w /\ exists k, (z = w + k * 2 ^ 64)%Z.

(** the number in a value: float64, or int rounded to float64 *)
Definition number_value {V} (view : V -> vw V) (g : gval V) (f : spec_float) : Prop :=
  gview view g = WS (SF f) \/ exists z, gview view g = WS (SInt z) /\ f = binary_normalize 53 1024 z 0 false.
Definition float_gt (a b : spec_float) : Prop := SFltb b a = true.
Definition not_nan (a : spec_float) : Prop := a <> S754_nan.

(** The documented operations and their argument keys; None: arguments are ignored. *)
Definition documented : list (string * option (list string)) :=
  [("changeCase", Some ["to"]); ("currentTime", Some ["format"]); ("duration", None); ("inverse", None);
   ("max", Some ["by"; "return"]); ("replace", Some ["regex"; "new"]); ("split", Some ["on"]);
   ("timeParse", Some ["format"; "layout"]); ("toCamelCase", Some ["delimiter"]); ("removeHTML", None);
   ("convertToFloat64", None); ("convertToInt64", None); ("convertToBool", None); ("valueExists", None)].
Definition well_formed_op (re_ok : string -> bool) (name : string) (args : gmap string string) : Prop :=
  exists keys, (name, keys) ∈ documented /\
  (forall ks, keys = Some ks -> forall k, is_Some (args !! k) <-> k ∈ ks) /\
  (name = "changeCase" -> args !! "to" = Some "lower" \/ args !! "to" = Some "upper") /\
  (name = "replace" -> forall r, args !! "regex" = Some r -> re_ok r = true).

(** The JSON text of a transform section: entries with paths and operations, a method and a delimiter *)
Record entry := Entry { e_jpath : string; e_xpath : string; e_ops : list (string * list (string * string)) }.
Definition str_json (s : string) : tree := TS (SStr s).
Definition op_json (o : string * list (string * string)) : tree :=
  TObj [("type", str_json o.1); ("args", TObj ((fun kv => (kv.1, str_json kv.2)) <$> o.2))].
Definition entry_json (e : entry) : tree :=
  TObj [("jsonPath", str_json (e_jpath e)); ("xmlPath", str_json (e_xpath e)); ("operations", TArr (op_json <$> e_ops e))].
Definition tis_json (entries : list entry) (method delim : string) : tree :=
  TObj [("from", TArr (entry_json <$> entries)); ("method", str_json method);
        ("methodOptions", TObj [("concatenateDelimiter", str_json delim)])].

(** the method names *)
Definition method_named (s : string) (me : meth) : Prop :=
  match me with MFirst => s = "" \/ s = "first" | MLast => s = "last" | MConcat => s = "concatenate" end.

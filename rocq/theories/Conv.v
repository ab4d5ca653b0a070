(** utils.go: concat, convert*; the plain JSONPath fragment; operations.go. *)
From stdpp Require Import strings list gmap.
From Coq Require Import Ascii Floats.SpecFloat ZArith.
From Verif Require Import GoStr Val.

Section conv.
Context (W : oracles).

(** float64(int) : round to nearest even *)
Definition f_of_int (z : Z) : spec_float := binary_normalize 53 1024 z 0 false.
(** float comparison f > g, f != 0 (Go: comparisons with NaN are false, != is true) *)
Definition f_gtb (f g : spec_float) : bool := SFltb g f.
Definition f_zero : spec_float := S754_zero false.
Definition f_nez (f : spec_float) : bool := negb (SFeqb f f_zero).

(** truncation of a finite float toward zero *)
Definition f_trunc (f : spec_float) : option Z :=
  match f with
  | S754_zero _ => Some 0%Z
  | S754_finite s m e =>
    let a := if (0 <=? e)%Z then (Z.pos m * 2 ^ e)%Z else (Z.pos m / 2 ^ (- e))%Z in
    Some (if s then (- a)%Z else a)
  | _ => None
  end.
(** int64(f) *)
Definition f2i (f : spec_float) : Z :=
  match f_trunc f with
  | Some z => if int_range z then z else o_f2i W f
  | None => o_f2i W f
  end.

Definition go_lower (s : string) : string :=
  if str_all is_ascii_char s then str_map lower_char s else o_lower W s.
Definition go_upper (s : string) : string :=
  if str_all is_ascii_char s then str_map upper_char s else o_upper W s.
(** strings.Title: upper case the first letter of every word; ASCII letters, digits and '_' are word
    characters *)
Definition is_word (a : ascii) : bool := is_letter a || is_digit a || bool_decide (a = "_"%char).
Fixpoint title_go (prev_word : bool) (s : string) : string :=
  match s with
  | "" => ""
  | String a s' => String (if prev_word then a else upper_char a) (title_go (is_word a) s')
  end.
Definition go_title (s : string) : string :=
  if str_all is_ascii_char s then title_go false s else o_title W s.

Definition rfc3339 : string := "2006-01-02T15:04:05Z07:00".
(** Time.IsZero: January 1, year 1, 00:00:00 UTC *)
Definition t_zero (t : gtime) : bool :=
  bool_decide (t_sec t = (-62135596800)%Z) && bool_decide (t_nsec t = 0%Z).

(** ** Plain JSONPath expressions: `$` followed by `.identifier` and `[index]` selectors. *)
Definition id_start (a : ascii) : bool := is_letter a || bool_decide (a = "_"%char).
Definition id_char (a : ascii) : bool := id_start a || is_digit a.
Inductive pst := PSel | PDot | PName (cur : string) | PIdx (cur : string).
Definition idx_ok (s : string) : bool :=
  match s with
  | "" => false
  | "0" => true
  | String a _ => is_digit a && negb (bool_decide (a = "0"%char))
  end.
Fixpoint parse_steps (st : pst) (s : string) : option (list string) :=
  match s with
  | "" =>
    match st with
    | PSel => Some []
    | PName cur => Some [cur]
    | _ => None
    end
  | String a s' =>
    match st with
    | PSel =>
      if bool_decide (a = "."%char) then parse_steps PDot s' else
      if bool_decide (a = "["%char) then parse_steps (PIdx "") s' else None
    | PDot => if id_start a then parse_steps (PName (String a "")) s' else None
    | PName cur =>
      if id_char a then parse_steps (PName (cur +:+ String a "")) s' else
      if bool_decide (a = "."%char) then (cons cur) <$> parse_steps PDot s' else
      if bool_decide (a = "["%char) then (cons cur) <$> parse_steps (PIdx "") s' else None
    | PIdx cur =>
      if is_digit a then parse_steps (PIdx (cur +:+ String a "")) s' else
      if bool_decide (a = "]"%char) && idx_ok cur then (cons cur) <$> parse_steps PSel s' else None
    end
  end.
Definition plain_path (p : string) : option (list string) :=
  match p with
  | String "$" s => parse_steps PSel s
  | _ => None
  end.

Section view.
Context {V : Type} (view : V -> vw V).

(** one selector of the jsonpath library: map key, or slice index; anything else is an error *)
Definition select (k : string) (v : V) : option V :=
  match view v with
  | WMap m => m !! k
  | WArr l => i ← atoi k; if (0 <=? i)%Z then l !! Z.to_nat i else None
  | _ => None
  end.
Fixpoint select_path (ks : list string) (v : V) : option V :=
  match ks with
  | [] => Some v
  | k :: ks' => v' ← select k v; select_path ks' v'
  end.
(** jsonpath.Get(path, v); None = error *)
Definition jget (path : string) (v : V) : option (gval V) :=
  match plain_path path with
  | Some ks => GV <$> select_path ks v
  | None => o_jpath W V view path v
  end.
End view.

Section ops.
Context {V : Type} (view : V -> vw V).
Notation G := (gval V).
Notation gv := (gview view).

(** jsonpath.Get applied to a value in flight *)
Definition jget_g (path : string) (g : G) : option G := gjoin <$> jget gv path g.

Definition is_nil (g : G) : bool :=
  match gv g with WS SNil => true | _ => false end.

(** utils.go 18-43 concat. nil results are the nil interface. *)
Definition concat (a b : G) (delim : string) : res G :=
  match is_nil a, is_nil b with
  | true, true => Ok (GS SNil)
  | true, false => Ok b
  | false, true => Ok a
  | false, false =>
    match gv a, gv b with
    | WS (SStr x), WS (SStr y) =>
      if bool_decide (delim <> "") && bool_decide (x <> "") && bool_decide (y <> "")
      then Ok (GS (SStr (x +:+ delim +:+ y)))
      else Ok (GS (SStr (x +:+ y)))
    | _, _ => Err
    end
  end.

(** utils.go 77-97. The value returned next to the error matters to one caller, so the result is a
    pair (value, is error); a failed strconv.ParseBool returns the value false, not nil. *)
Definition convert_boolean (raw : G) : G * bool :=
  match gv raw with
  | WS (SBool b) => (raw, false)
  | WS (SStr s) =>
    if decide (s = "") then (GS (SBool false), false) else
    match parse_bool s with
    | Some b => (GS (SBool b), false)
    | None => (GS (SBool false), true)
    end
  | WS (SInt z) => (GS (SBool (0 <? z)%Z), false)
  | WS (SF f) => (GS (SBool (f_gtb f f_zero)), false)
  | WS SNil => (GS SNil, false)
  | _ => (GS SNil, true)
  end.

(** utils.go 99-122 *)
Definition convert_number (raw : G) : G * bool :=
  match gv raw with
  | WS (SBool b) => (GS (SInt (if b then 1 else 0)%Z), false)
  | WS (SStr s) =>
    if decide (s = "") then (GS SNil, false) else
    match atoi s with
    | Some z => (GS (SInt z), false)
    | None =>
      match o_parse_float W s with
      | Some f => (GS (SF f), false)
      | None => (GS SNil, true)
      end
    end
  | WS (SInt _) => (raw, false)
  | WS (SF _) => (raw, false)
  | _ => (GS SNil, true)
  end.

(** utils.go 124-148 *)
Definition convert_datetime (raw : G) : G * bool :=
  match gv raw with
  | WS (SStr s) =>
    if decide (s = "") then (GS SNil, false) else
    match o_parse_time W rfc3339 s with
    | None => (GS SNil, true)
    | Some t => if t_zero t then (GS SNil, false) else (GS (STime t), false)
    end
  | WS (SInt z) => (GS (STime (GTime z 0 0)), false)
  | WS (SF f) => (GS (STime (GTime (f2i f) 0 0)), false)
  | _ => (GS SNil, true)
  end.

(** utils.go 150-170 *)
Definition convert_string (raw : G) : G * bool :=
  match gv raw with
  | WS (SBool b) => (GS (SStr (format_bool b)), false)
  | WS (SStr _) => (raw, false)
  | WS (SInt z) => (GS (SStr (itoa z)), false)
  | WS (SF f) => (GS (SStr (o_fmt_float W f)), false)
  | WS SNil => (GS SNil, false)
  | _ => (GS SNil, true)
  end.

(** the switch at utils.go 64-74 *)
Definition convert_leaf (jt : string) (raw : G) : G * bool :=
  if decide (jt = "boolean") then convert_boolean raw else
  if decide (jt = "number" \/ jt = "integer") then convert_number raw else
  if decide (jt = "string") then convert_string raw else
  if decide (jt = "date-time") then convert_datetime raw else
  (raw, false).

(** utils.go 48-75 convert. None = the recursion exceeds the stack. *)
Fixpoint convert_go (fuel : nat) (jt : string) (raw : G) : option (G * bool) :=
  match fuel with
  | O => None
  | S n =>
    if is_nil raw then Some (GS SNil, false) else
    match gv raw with
    | WArr l =>
      match l with
      | [] => Some (GS SNil, false)
      | x :: l' =>
        if bool_decide (l' = []) || bool_decide (jt <> "array") then
          match gv x with
          | WArr (y :: _) => convert_go n jt y
          | _ => Some (convert_leaf jt x)
          end
        else Some (convert_leaf jt raw)
      end
    | _ => Some (convert_leaf jt raw)
    end
  end.
Definition convert (jt : string) (raw : G) : option (G * bool) := convert_go (o_stack W) jt raw.

(** ** operations.go *)

(** operations.go 25-455, transform.go 62-96: the operations with the arguments their init stores *)
Inductive op :=
| OpDuration
| OpChangeCase (args : gmap string string)
| OpValueExists
| OpInverse
| OpMax (args : gmap string string)
| OpReplace (args : gmap string string)
| OpSplit (args : gmap string string)
| OpTimeParse (args : gmap string string)
| OpCurrentTime (args : gmap string string)
| OpToCamelCase (args : gmap string string)
| OpRemoveHTML
| OpConvertToFloat64
| OpConvertToInt64
| OpConvertToBool.

(** operations.go 459-469. The order of the checks does not matter as only success is observed. *)
Definition required_args (required : list string) (args : gmap string string) : bool :=
  bool_decide (size args = length required) &&
  forallb (fun a => match args !! a with Some _ => true | None => false end) required.

(** transform.go 62-101: the operation named [name], initialised with [args]; None = error. *)
Definition op_init (name : string) (args : gmap string string) : option op :=
  if decide (name = "changeCase") then
    if required_args ["to"] args &&
       (bool_decide (args !! "to" = Some "lower") || bool_decide (args !! "to" = Some "upper"))
    then Some (OpChangeCase args) else None
  else if decide (name = "currentTime") then
    if required_args ["format"] args then Some (OpCurrentTime args) else None
  else if decide (name = "duration") then Some OpDuration
  else if decide (name = "inverse") then Some OpInverse
  else if decide (name = "max") then
    if required_args ["by"; "return"] args then Some (OpMax args) else None
  else if decide (name = "replace") then
    if required_args ["regex"; "new"] args && o_re_ok W (default "" (args !! "regex"))
    then Some (OpReplace args) else None
  else if decide (name = "split") then
    if required_args ["on"] args then Some (OpSplit args) else None
  else if decide (name = "timeParse") then
    if required_args ["format"; "layout"] args then Some (OpTimeParse args) else None
  else if decide (name = "toCamelCase") then
    if required_args ["delimiter"] args then Some (OpToCamelCase args) else None
  else if decide (name = "removeHTML") then Some OpRemoveHTML
  else if decide (name = "convertToFloat64") then Some OpConvertToFloat64
  else if decide (name = "convertToInt64") then Some OpConvertToInt64
  else if decide (name = "convertToBool") then Some OpConvertToBool
  else if decide (name = "valueExists") then Some OpValueExists
  else None.

Definition arg (args : gmap string string) (k : string) : string := default "" (args !! k).

(** The regular expression of operations.go 17 (start, group 1: digits lazily, optional colon, group 2:
    digits, colon, group 3: digits, end) as a backtracking matcher
    with Go's leftmost-first preference: the lazy group 1 takes as few digits as possible, then the
    colon is tried before its absence, group 2 and 3 take as many digits as possible. *)
Fixpoint span_digits (s : string) : string * string :=
  match s with
  | String a s' => if is_digit a then let '(d, r) := span_digits s' in (String a d, r) else ("", s)
  | "" => ("", "")
  end.
(** the part after the optional colon; giving back digits of the greedy group never helps as `:` is no digit *)
Definition dur_tail (s : string) : option (string * string) :=
  let '(g2, r) := span_digits s in
  match r with
  | String ":" r' =>
    let '(g3, r'') := span_digits r' in
    if decide (r'' = "") then Some (g2, g3) else None
  | _ => None
  end.
Fixpoint dur_match (g1 s : string) : option (string * string * string) :=
  let with_colon :=
    match s with
    | String ":" s' => dur_tail s'
    | _ => None
    end in
  match with_colon with
  | Some (g2, g3) => Some (g1, g2, g3)
  | None =>
    match dur_tail s with
    | Some (g2, g3) => Some (g1, g2, g3)
    | None =>
      match s with
      | String a s' => if is_digit a then dur_match (g1 +:+ String a "") s' else None
      | "" => None
      end
    end
  end.

(** strconv.Atoi with the error ignored for the empty string (operations.go 47-58) *)
Definition atoi_group (s : string) : option Z :=
  if decide (s = "") then Some 0%Z else atoi s.

(** operations.go 30-64 *)
Definition duration_str (s : string) : res G :=
  match dur_match "" s with
  | None => Err
  | Some (g1, g2, g3) =>
    match atoi_group g1, atoi_group g2, atoi_group g3 with
    | Some h, Some m, Some sec =>
      let minutes := wrap64 (m + wrap64 (60 * h)) in
      Ok (GS (SInt (wrap64 (sec + wrap64 (60 * minutes)))))
    | _, _, _ => Err
    end
  end.
Definition op_duration (raw0 : G) : res G :=
  let raw := match gv raw0 with WArr [x] => x | _ => raw0 end in
  match gv raw with
  | WS SNil => Ok (GS (SInt 0))
  | WS (SStr s) => duration_str s
  | _ => Err
  end.

(** operations.go 84-97 *)
Definition op_change_case (args : gmap string string) (raw : G) : res G :=
  match gv raw with
  | WS (SStr s) =>
    if decide (arg args "to" = "lower") then Ok (GS (SStr (go_lower s))) else
    if decide (arg args "to" = "upper") then Ok (GS (SStr (go_upper s))) else Err
  | _ => Err
  end.

(** operations.go 108-123 *)
Definition op_value_exists (raw : G) : res G :=
  match gv raw with
  | WS (SStr s) => Ok (GS (SBool (bool_decide (s <> ""))))
  | WNodes l => Ok (GS (SBool (bool_decide (l <> []))))
  | _ => Err
  end.

(** operations.go 134-140 *)
Definition op_inverse (raw : G) : res G :=
  match gv raw with
  | WS (SBool b) => Ok (GS (SBool (negb b)))
  | _ => Err
  end.

(** operations.go 157-192: the loop over the items; (largest, largestIndex) *)
Fixpoint max_loop (by_arg : string) (i : nat) (items : list G) (largest : spec_float) (li : nat)
  : res (spec_float * nat) :=
  match items with
  | [] => Ok (largest, li)
  | item :: rest =>
    match jget_g by_arg item with
    | None => Err
    | Some b =>
      let continue (f : spec_float) :=
        if f_gtb f largest then max_loop by_arg (S i) rest f i
        else max_loop by_arg (S i) rest largest li in
      match gv b with
      | WS (SF f) => continue f
      | WS (SInt z) => continue (f_of_int z)
      | _ => Err
      end
    end
  end.
Definition op_max (args : gmap string string) (raw : G) : res G :=
  match gv raw with
  | WArr l =>
    let by_arg := replace1 (arg args "by") "@" "$" in
    let ret_arg := replace1 (arg args "return") "@" "$" in
    match max_loop by_arg 0 l f_zero 0 with
    | Ok (_, li) =>
      match l !! li with
      | None => Panic                       (* inArray[0] on an empty slice *)
      | Some item =>
        match jget_g ret_arg item with
        | None => Err
        | Some r => Ok r
        end
      end
    | Err => Err
    | Panic => Panic
    end
  | _ => Err
  end.

(** operations.go 215-225 *)
Definition op_replace (args : gmap string string) (raw : G) : res G :=
  match gv raw with
  | WS (SStr s) => Ok (GS (SStr (o_re_replace W (arg args "regex") s (arg args "new"))))
  | _ => Err
  end.

(** operations.go 241-262. (A non-empty string split on "" could only give the nil slice if it had no
    characters, so the slice is never nil.) *)
Definition op_split (args : gmap string string) (raw : G) : res G :=
  match gv raw with
  | WS (SStr s) =>
    if decide (s = "") then Ok (GL []) else
    Ok (GL ((fun p => GS (SStr p)) <$> split s (arg args "on")))
  | _ => Err
  end.

(** operations.go 278-288 *)
Definition op_time_parse (args : gmap string string) (raw : G) : res G :=
  match gv raw with
  | WS (SStr s) =>
    match o_parse_time W (arg args "format") s with
    | None => Err
    | Some t => Ok (GS (SStr (o_fmt_time W (arg args "layout") t)))
    end
  | _ => Err
  end.

(** operations.go 304-311 *)
Definition op_current_time (args : gmap string string) : res G :=
  let f := arg args "format" in
  let f' := if decide (f = "RFC3339") then rfc3339 else f in
  Ok (GS (SStr (o_fmt_time W f' (o_now W)))).

(** operations.go 326-343 *)
Definition op_to_camel (args : gmap string string) (raw : G) : res G :=
  match gv raw with
  | WS (SStr s) =>
    let arr := split s (arg args "delimiter") in
    let arr' := match arr with [] => [] | x :: r => go_lower x :: (go_title <$> r) end in
    Ok (GS (SStr (join "" arr')))
  | _ => Err
  end.

(** strings.TrimSpace (ASCII white space) *)
Definition is_space_char (a : ascii) : bool :=
  let n := N_of_ascii a in ((9 <=? n)%N && (n <=? 13)%N) || (n =? 32)%N.
Fixpoint trim_l (s : string) : string :=
  match s with "" => "" | String a s' => if is_space_char a then trim_l s' else s end.
Fixpoint trim_r (s : string) : string :=
  match s with
  | "" => ""
  | String a s' =>
    match trim_r s' with
    | "" => if is_space_char a then "" else String a ""
    | t => String a t
    end
  end.
(** operations.go 354-365 *)
Definition op_remove_html (raw : G) : res G :=
  match gv raw with
  | WS (SStr s) =>
    Ok (GS (SStr (o_unescape W (replace_all (trim_r (trim_l (o_sanitize W s))) "  " " "))))
  | _ => Err
  end.

(** operations.go 376-387 *)
Definition op_to_float (raw : G) : res G :=
  match gv raw with
  | WS (SStr s) => match o_parse_float W s with Some f => Ok (GS (SF f)) | None => Err end
  | WS (SInt z) => Ok (GS (SF (f_of_int z)))
  | WS (SF f) => Ok (GS (SF f))
  | _ => Err
  end.

(** operations.go 398-419 *)
Definition op_to_int64 (raw : G) : res G :=
  match gv raw with
  | WS (SStr s) => match atoi s with Some z => Ok (GS (SI64 z)) | None => Err end
  | WS (SF f) => Ok (GS (SI64 (f2i f)))
  | WS (SInt z) => Ok (GS (SI64 z))
  | WS (SI64 z) => Ok (GS (SI64 z))
  | _ => Err
  end.

(** operations.go 430-455 *)
Definition op_to_bool (raw : G) : res G :=
  match gv raw with
  | WS (SBool b) => Ok (GS (SBool b))
  | WS (SStr s) => match parse_bool s with Some b => Ok (GS (SBool b)) | None => Err end
  | WArr l => Ok (GS (SBool (bool_decide (l <> []))))
  | WS (SF f) => Ok (GS (SBool (f_nez f)))
  | WS (SInt z) => Ok (GS (SBool (negb (z =? 0)%Z)))
  | WS (SI64 z) => Ok (GS (SBool (negb (z =? 0)%Z)))
  | _ => Err
  end.

(** transformOperation.transform, by dynamic dispatch (transform.go 23-26) *)
Definition op_run (o : op) (raw : G) : res G :=
  match o with
  | OpDuration => op_duration raw
  | OpChangeCase a => op_change_case a raw
  | OpValueExists => op_value_exists raw
  | OpInverse => op_inverse raw
  | OpMax a => op_max a raw
  | OpReplace a => op_replace a raw
  | OpSplit a => op_split a raw
  | OpTimeParse a => op_time_parse a raw
  | OpCurrentTime a => op_current_time a
  | OpToCamelCase a => op_to_camel a raw
  | OpRemoveHTML => op_remove_html raw
  | OpConvertToFloat64 => op_to_float raw
  | OpConvertToInt64 => op_to_int64 raw
  | OpConvertToBool => op_to_bool raw
  end.

(** the loops transform.go 157-163 and 188-194 *)
Fixpoint ops_run (ops : list op) (value : G) : res G :=
  match ops with
  | [] => Ok value
  | o :: ops' => rbind (op_run o value) (ops_run ops')
  end.
End ops.
End conv.

(** Package encoding/json (standard library, Go 1.25) on the Go types that struct files are made of: how a document is read into a
    generated struct and written again. Documents are taken after scanning: numbers by their text, strings as valid UTF-8. Not modelled:
    embedded structs, tags that are not raw strings, the option "string", element types other than those generated. *)
From stdpp Require Import strings list gmap.
From Coq Require Import Ascii ZArith Floats.SpecFloat.
From Verif Require Import GoStr Val Conv Schema Inst Load Avro GoSrc.

Inductive json := JNull | JBool (b : bool) | JNum (lit : string) | JStr (s : string) | JArr (l : list json) | JObj (kvs : list (string * json)).

(** ** Go types as encoding/json sees them: a struct has fields with a JSON name, and the options omitempty and omitzero *)
Inductive jt :=
| YBool | YFloat | YInt | YString | YTime | YMap       (* bool, float64, int64, string, time.Time, map[string]string *)
| YPtr (t : jt) | YSlice (t : jt) | YStruct (fs : list jf)
with jf := JF (name : string) (oe oz : bool) (t : jt).
Definition jf_name (f : jf) : string := let 'JF n _ _ _ := f in n.
Definition jf_type (f : jf) : jt := let 'JF _ _ _ t := f in t.

(** encode.go isValidTag. Characters that are not ASCII are taken to be letters. *)
Definition tag_chars : list ascii :=
  ["!"; "#"; "$"; "%"; "&"; "("; ")"; "*"; "+"; "-"; "."; "/"; ":"; ";"; "<"; "="; ">"; "?"; "@"; "["; "]"; "^"; "_"; "{"; "|"; "}"; "~"; " "]%char.
Definition valid_tag (s : string) : bool :=
  negb (bool_decide (s = "")) && str_all (fun a => bool_decide (a ∈ tag_chars) || is_letter a || is_digit a || negb (is_ascii_char a)) s.
(** token.IsExported, for ASCII names *)
Definition exported_name (s : string) : bool := match s with String a _ => is_upper a | "" => false end.

Section types.
Context (o_unquote : string -> option string).
(** encode.go typeFields: the JSON name and options of a field with a Go name *)
Definition tag_text_of (tag : option string) : string := match tag with Some lit => tag_get o_unquote (trim "`" lit) "json" | None => "" end.
Definition json_field (go : string) (tag : option string) (t : jt) : list jf :=
  let tag := tag_text_of tag in
  if negb (exported_name go) || bool_decide (tag = "-") then [] else
  let parts := split tag "," in
  let name := hd "" parts in
  [JF (if valid_tag name then name else go) (bool_decide ("omitempty" ∈ tail parts)) (bool_decide ("omitzero" ∈ tail parts)) t].
(** several fields with one name are all ignored (the rule that one with a tag wins over those without is left out) *)
Definition count_name (n : string) (fs : list jf) : nat := length (filter (fun f => jf_name f = n) fs).
Definition distinct_fields (fs : list jf) : list jf := filter (fun f => count_name (jf_name f) fs = 1) fs.
(** the type that a type expression of a file stands for; None: [fuel] does not suffice, or it is not modelled *)
Fixpoint json_type (fuel : nat) (f : rfile) (t : rtype) : option jt :=
  match fuel with
  | O => None
  | S n =>
    match t with
    | RIdent w =>
      match assocd w (rf_types f) with
      | Some t' => json_type n f t'
      | None => if decide (w = "bool") then Some YBool else if decide (w = "float64") then Some YFloat else if decide (w = "int64") then Some YInt
                else if decide (w = "string") then Some YString else None
      end
    | RSel x w => if decide (x = "time" /\ w = "Time" /\ "time" ∈ rf_imports f) then Some YTime else None
    | RStar t => YPtr <$> json_type n f t
    | RArray t => YSlice <$> json_type n f t
    | RMap (RIdent "string") (RIdent "string") => Some YMap
    | RMap _ _ => None
    | RStruct fs =>
      (fun l => YStruct (distinct_fields (List.concat l))) <$> mapM (fun g : rfield =>
        let 'RField names ty tag := g in
        match names with
        | [] => None
        | _ => (fun y => List.concat (map (fun go => json_field go tag y) names)) <$> json_type n f ty
        end) fs
    end
  end.
End types.

(** ** values *)
Inductive gv :=
| VBool (b : bool) | VFloat (f : spec_float) | VInt (z : Z) | VStr (s : string) | VTime (t : gtime)
| VMap (o : option (list (string * string)))            (* by key *)
| VPtr (o : option gv) | VSlice (o : option (list gv)) | VStruct (vs : list gv).
(** time.Time's zero value: the first of January of the year 1 *)
Definition zero_time : gtime := GTime (-62135596800) 0 0.
Fixpoint zero (t : jt) : gv :=
  match t with
  | YBool => VBool false | YFloat => VFloat (S754_zero false) | YInt => VInt 0 | YString => VStr "" | YTime => VTime zero_time
  | YMap => VMap None | YPtr _ => VPtr None | YSlice _ => VSlice None
  | YStruct fs => VStruct (map (fun f => match f with JF _ _ _ t => zero t end) fs)
  end.
Definition is_fzero (f : spec_float) : bool := match f with S754_zero _ => true | _ => false end.
(** reflect.Value.IsZero. A time with a zone of offset 0 counts as one in UTC. *)
Fixpoint is_zero (v : gv) : bool :=
  match v with
  | VBool b => negb b
  | VFloat f => is_fzero f
  | VInt z => bool_decide (z = 0%Z)
  | VStr s => bool_decide (s = "")
  | VTime t => bool_decide (t_sec t = t_sec zero_time /\ t_nsec t = 0%Z /\ t_off t = 0%Z)
  | VMap o => bool_decide (o = None)
  | VPtr o => match o with None => true | Some _ => false end
  | VSlice o => match o with None => true | Some _ => false end
  | VStruct vs => forallb is_zero vs
  end.
(** encode.go isEmptyValue *)
Definition is_empty (v : gv) : bool :=
  match v with
  | VBool b => negb b
  | VFloat f => is_fzero f
  | VInt z => bool_decide (z = 0%Z)
  | VStr s => bool_decide (s = "")
  | VMap o => match o with None | Some [] => true | _ => false end
  | VPtr o => match o with None => true | Some _ => false end
  | VSlice o => match o with None | Some [] => true | _ => false end
  | VTime _ | VStruct _ => false
  end.

Section json.
Context (W : oracles).
(** [o_json_num]: how a number is written; [o_fold]: the folded form of names that are not ASCII *)
Context (o_json_num : spec_float -> string) (o_fold : string -> string).
Definition rfc3339 : string := "2006-01-02T15:04:05Z07:00".
Definition rfc3339_nano : string := "2006-01-02T15:04:05.999999999Z07:00".

(** fold.go foldName *)
Definition fold_name (s : string) : string := if str_all is_ascii_char s then str_map upper_char s else o_fold s.
(** decode.go object: the field for a member, by its exact name or else the first whose name differs in case *)
Fixpoint index_of (p : string -> bool) (l : list string) : option nat :=
  match l with [] => None | x :: l' => if p x then Some O else S <$> index_of p l' end.
Definition find_field (names : list string) (k : string) : option nat :=
  match index_of (fun n => bool_decide (n = k)) names with
  | Some i => Some i
  | None => index_of (fun n => bool_decide (fold_name n = fold_name k)) names
  end.
(** a map with a key set, kept by key *)
Fixpoint set_key (k v : string) (l : list (string * string)) : list (string * string) :=
  match l with
  | [] => [(k, v)]
  | (k', v') :: l' => if decide (k = k') then (k, v) :: l' else if str_le k k' then (k, v) :: l else (k', v') :: set_key k v l'
  end.
(** decode.go object for map[string]string *)
Fixpoint set_keys (kvs : list (string * json)) (l : list (string * string)) : option (list (string * string)) :=
  match kvs with
  | [] => Some l
  | (k, d) :: r =>
    match d with
    | JStr s => set_keys r (set_key k s l)
    | JNull => set_keys r (set_key k "" l)
    | _ => None
    end
  end.
(** decode.go object for structs: members without a field are skipped. [decs]: names and decoders of the fields *)
Fixpoint set_members (decs : list (string * (gv -> json -> option gv))) (kvs : list (string * json)) (vs : list gv) : option (list gv) :=
  match kvs with
  | [] => Some vs
  | (k, d) :: r =>
    match find_field (map fst decs) k with
    | None => set_members decs r vs
    | Some i =>
      match decs !! i, vs !! i with
      | Some (_, f), Some c => match f c d with Some v => set_members decs r (<[i := v]> vs) | None => None end
      | _, _ => None
      end
    end
  end.
(** decode.go value, array, object, literalStore; time.Time's UnmarshalJSON: a document is read into a variable with the value [cur].
    None: an error (values that fit are still stored, but Unmarshal returns the error). A second array for the same variable starts anew. *)
Fixpoint decode (t : jt) (cur : gv) (d : json) {struct t} : option gv :=
  match t with
  | YPtr t' =>
    match d with
    | JNull => Some (VPtr None)
    | _ => (fun v => VPtr (Some v)) <$> decode t' (match cur with VPtr (Some c) => c | _ => zero t' end) d
    end
  | YSlice t' =>
    match d with
    | JNull => Some (VSlice None)
    | JArr l => (fun vs => VSlice (Some vs)) <$> mapM (fun x => decode t' (zero t') x) l
    | _ => None
    end
  | YMap =>
    match d with
    | JNull => Some (VMap None)
    | JObj kvs => (fun l => VMap (Some l)) <$> set_keys kvs (match cur with VMap (Some l) => l | _ => [] end)
    | _ => None
    end
  | YStruct fs =>
    match d, cur with
    | JNull, _ => Some cur
    | JObj kvs, VStruct vs =>
      VStruct <$> set_members (map (fun f => match f with JF n _ _ t' => (n, fun c x => decode t' c x) end) fs) kvs vs
    | _, _ => None
    end
  | YBool => match d with JNull => Some cur | JBool b => Some (VBool b) | _ => None end
  | YFloat => match d with JNull => Some cur | JNum lit => VFloat <$> o_parse_float W lit | _ => None end
  | YInt => match d with JNull => Some cur | JNum lit => VInt <$> atoi lit | _ => None end
  | YString => match d with JNull => Some cur | JStr s => Some (VStr s) | _ => None end
  | YTime => match d with JNull => Some cur | JStr s => VTime <$> o_parse_time W rfc3339 s | _ => None end
  end.
(** json.Unmarshal into a new variable *)
Definition unmarshal (t : jt) (d : json) : option gv := decode t (zero t) d.
(** encode.go. Times of years outside 0 to 9999 are errors in Go, but do not come from documents. None: not a value of the type. *)
Fixpoint marshal (t : jt) (v : gv) {struct t} : option json :=
  match t, v with
  | YBool, VBool b => Some (JBool b)
  | YFloat, VFloat f => Some (JNum (o_json_num f))
  | YInt, VInt z => Some (JNum (itoa z))
  | YString, VStr s => Some (JStr s)
  | YTime, VTime t => Some (JStr (o_fmt_time W rfc3339_nano t))
  | YMap, VMap None | YPtr _, VPtr None | YSlice _, VSlice None => Some JNull
  | YMap, VMap (Some l) => Some (JObj (map (fun kv => (kv.1, JStr kv.2)) l))
  | YPtr t, VPtr (Some v) => marshal t v
  | YSlice t, VSlice (Some vs) => JArr <$> mapM (fun x => marshal t x) vs
  | YStruct fs, VStruct vs =>
    JObj <$> (fix go (fs : list jf) (vs : list gv) : option (list (string * json)) :=
      match fs, vs with
      | [], [] => Some []
      | JF n oe oz t :: fs', v :: vs' =>
        match go fs' vs' with
        | None => None
        | Some r => if (oe && is_empty v) || (oz && is_zero v) then Some r
                    else match marshal t v with Some e => Some ((n, e) :: r) | None => None end
        end
      | _, _ => None
      end) fs vs
  | _, _ => None
  end.
End json.

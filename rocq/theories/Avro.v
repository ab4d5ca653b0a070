(** Generating Avro schemas from Go structs: generate/avro.go, and mapFields of generate/avro_helpers.go. *)
From stdpp Require Import strings list gmap.
From Coq Require Import Ascii ZArith.
From Verif Require Import GoStr Val Conv.

(** go/ast type expressions and struct fields, as far as the code distinguishes them. A field has its names (none
    if it is embedded), its type, and the values of the keys json and description of its tag (simplification:
    reflect.StructTag.Get is not modelled). *)
Inductive texpr :=
| EIdent (n : string)
| EStar (t : texpr)
| EMap (k v : texpr)
| EArray (t : texpr)
| EStruct (fs : list afield)
| ESel (x sel : string)
| EOther (desc : string)
with afield := AField (names : list string) (ty : texpr) (json desc : string).
Definition af_names (f : afield) : list string := let 'AField n _ _ _ := f in n.
Definition af_type (f : afield) : texpr := let 'AField _ t _ _ := f in t.
Definition af_json (f : afield) : string := let 'AField _ _ j _ := f in j.
Definition af_desc (f : afield) : string := let 'AField _ _ _ d := f in d.

(** ** strconv.Quote, which is what %q prints, for ASCII strings; others are left to an oracle *)
Definition hex (n : N) : ascii := ascii_of_N (if (n <? 10)%N then 48 + n else 87 + n).
Definition backslash : ascii := "092".
Definition dquote : ascii := "034".
Definition esc (c : ascii) : string := String backslash (String c "").
Definition quote_char (a : ascii) : string :=
  let n := N_of_ascii a in
  if decide (a = dquote) then esc dquote else if decide (a = backslash) then esc backslash
  else if ((32 <=? n) && (n <? 127))%N then String a ""
  else if (n =? 7)%N then esc "a" else if (n =? 8)%N then esc "b" else if (n =? 9)%N then esc "t" else if (n =? 10)%N then esc "n"
  else if (n =? 11)%N then esc "v" else if (n =? 12)%N then esc "f" else if (n =? 13)%N then esc "r"
  else esc "x" +:+ String (hex (n / 16)) (String (hex (n mod 16)) "").
Fixpoint quote_str (s : string) : string :=
  match s with "" => "" | String a s' => quote_char a +:+ quote_str s' end.

(** the Go source files: the type parsed for a name from a file of the directory, or from the directory
    (avro.go 151-237); None is an error *)
Record sources := Sources { src_file : string -> string -> option texpr; src_dir : string -> option texpr }.

Section avro.
Context (W : oracles) (o_quote : string -> string) (E : sources).
Definition q (s : string) : string := if str_all is_ascii_char s then String dquote (quote_str s +:+ String dquote "") else o_quote s.

(** avro_helpers.go 605-609: the first character (of the Go string, as strings.Split sees it) in lower case *)
Definition struct_to_filename (name : string) : option string :=
  match split name "" with
  | [] => None                      (* s[0] panics *)
  | c :: rest => Some (join "" (go_lower W c :: rest) +:+ ".go")
  end.

(** avro.go 239-258: the name and whether omitempty is among the options *)
Definition tag_name (f : afield) : string := hd "" (split (af_json f) ",").
Definition tag_omit (f : afield) : bool := existsb (fun s => bool_decide (go_lower W s = "omitempty")) (tl (split (af_json f) ",")).

(** avro.go 385-399 *)
Definition prim_name (id : string) : option string :=
  if decide (id = "bool") then Some "boolean"
  else if decide (id ∈ ["int"; "uint"; "int64"; "uint64"]) then Some "long"
  else if decide (id ∈ ["int8"; "int16"; "int32"; "uint8"; "uint16"; "uint32"]) then Some "int"
  else if decide (id = "float32") then Some "float"
  else if decide (id = "float64") then Some "double"
  else if decide (id = "byte") then Some "bytes"
  else if decide (id = "string") then Some "string" else None.
(** avro.go 408-415 *)
Definition prim_text (p : string) (nullable : bool) : string :=
  if nullable then
    if decide (p = "boolean") then q p +:+ ",""default"":false" else "[""null""," +:+ q p +:+ "]"
  else q p.
(** avro.go 432-439 *)
Definition time_text (nullable : bool) : string :=
  if nullable then "[""null"",{""type"":""long"",""logicalType"":""timestamp-millis""}]"
  else "{""type"":""long"",""logicalType"":""timestamp-millis""}".

(** The field lists astutil.Apply finds in a type, in order, without looking into them (avro.go 283-286, 364-371) *)
Fixpoint field_lists (t : texpr) : list (list afield) :=
  match t with
  | EStruct fs => [fs]
  | EStar x | EArray x => field_lists x
  | EMap k v => field_lists k ++ field_lists v
  | _ => []
  end.
(** ast.FieldList.NumFields *)
Definition num_fields (fs : list afield) : nat := list_sum (map (fun f => match af_names f with [] => 1 | l => length l end) fs).
(** avro.go 343-347 *)
Definition field_map (fs : list afield) : list string := omap (fun f => head (af_names f)) fs.

Definition ns_text (ns : list string) : string := match ns with [] => "" | _ => """namespace"":" +:+ q (join "." ns) +:+ "," end.
(** avro.go 264-272 *)
Definition header (ns : list string) (name defaults : string) : string :=
  """name"":" +:+ q name +:+ "," +:+ ns_text ns +:+ """type"":""record"",""fields"":[" +:+ defaults.
(** avro.go 324-332 *)
Definition field_text (ns : list string) (name desc ty : string) : string :=
  "{" +:+ """name"":" +:+ q name +:+ (match ns with [] => "" | _ => ",""namespace"":" +:+ q (join "." ns) end) +:+
  (if decide (desc = "") then "" else ",""doc"":" +:+ q desc) +:+ "," +:+ """type"":" +:+ ty +:+ "}".

(** The functions below return the text written and cfg.excludeNamespace, which is shared and grows ([seen]).
    None: the recursion is deeper than [fuel] (recursive Go types overflow the stack). *)
Notation out := (option (string * list string)).
Definition obind {A B} (o : option A) (k : A -> option B) : option B := match o with Some a => k a | None => None end.
(** avro.go 378-444 *)
Fixpoint conv_type (fuel : nat) (ns : list string) (t : texpr) (name : string) (nullable : bool) (seen : list string) : out :=
  match fuel with
  | O => None
  | S n =>
    match t with
    | EStar x => conv_type n ns x name nullable seen
    | EIdent id =>
      match prim_name id with
      | Some p => Some (prim_text p nullable, seen)
      | None =>
        match src_dir E id with
        | None => Some ("unknown", seen)
        | Some d => nested n ns d name nullable seen
        end
      end
    | EMap k v =>
      obind (conv_type n ns k name false seen) (fun '(_, seen1) =>
      obind (conv_type n ns v name false seen1) (fun '(vt, seen2) =>
      Some ("{""type"": ""map"", ""values"": " +:+ vt +:+ "}", seen2)))
    | EArray x =>
      obind (conv_type n ns x name false seen) (fun '(it, seen1) =>
      Some (if has_prefix "{" it then "{""type"":""array"",""items"":" +:+ it +:+ "}"
            else "{""type"":""array"",""items"":{""type"": " +:+ it +:+ "}}", seen1))
    | EStruct _ => nested n ns t name nullable seen
    | ESel _ sel => Some (if decide (sel = "Time") then time_text nullable else "unsupported type " +:+ q sel, seen)
    | EOther d => Some ("unsupported type " +:+ q d, seen)
    end
  end
(** avro.go 449-461, 262-290 *)
with nested (fuel : nat) (ns : list string) (t : texpr) (name : string) (nullable : bool) (seen : list string) : out :=
  match fuel with
  | O => None
  | S n =>
    let ns' := ns ++ [name] in
    obind (write_lists n ns' [] (field_lists t) seen) (fun '(txt, seen1) =>
    let body := header ns' (name +:+ "_record") "" +:+ txt in
    Some (if nullable then "[""null"",{" +:+ body +:+ "]}]" else "{" +:+ body +:+ "]}", seen1))
  end
(** the field lists found one after the other *)
with write_lists (fuel : nat) (ns excl : list string) (ls : list (list afield)) (seen : list string) : out :=
  match fuel with
  | O => None
  | S n =>
    match ls with
    | [] => Some ("", seen)
    | fs :: ls' =>
      obind (write_fields n ns excl (field_map fs) (num_fields fs) 0 fs seen) (fun '(t1, seen1) =>
      obind (write_lists n ns excl ls' seen1) (fun '(t2, seen2) => Some (t1 +:+ t2, seen2)))
    end
  end
(** avro.go 338-354, from the field number [i] on; [own] is fieldMap, [len] the number of fields *)
with write_fields (fuel : nat) (ns excl own : list string) (len i : nat) (fs : list afield) (seen : list string) : out :=
  match fuel with
  | O => None
  | S n =>
    match fs with
    | [] => Some ("", seen)
    | f :: fs' =>
      obind (write_field n ns excl own f seen) (fun '(r, seen1) =>
      obind (write_fields n ns excl own len (S i) fs' seen1) (fun '(t2, seen2) =>
      Some (match r with Some t1 => t1 +:+ (if decide (S i = len) then "" else ",") +:+ t2 | None => t2 end, seen2)))
    end
  end
(** avro.go 295-334; the text is None if the field is not processed. 356-375: an embedded struct. *)
with write_field (fuel : nat) (ns excl own : list string) (f : afield) (seen : list string) : option (option string * list string) :=
  match fuel with
  | O => None
  | S n =>
    match af_names f with
    | [] =>
      match af_type f with
      | EIdent e =>
        if decide (e ∈ seen) then Some (None, seen) else
        obind (struct_to_filename e) (fun file =>
        match src_file E file e with
        | None => Some (Some "{""type"":""embedded struct not found""}", seen)
        | Some t => obind (write_lists n (ns ++ [e]) own (field_lists t) seen) (fun '(txt, seen1) => Some (Some txt, e :: seen1))
        end)
      | _ => Some (None, seen)
      end
    | go :: _ =>
      if decide (go ∈ excl) then Some (None, seen) else
      let name := if decide (tag_name f = "") then go else tag_name f in
      obind (conv_type n ns (af_type f) name (tag_omit f) seen) (fun '(ty, seen1) =>
      Some (Some (field_text ns name (af_desc f) ty), seen1))
    end
  end.

(** avro.go 25 *)
Definition metadata : string :=
  "{""name"":""AvroWriteTime"",""doc"":""The timestamp when this avro data is written. Useful for identifying the newest row of data sharing keys."",""type"":""long"",""logicalType"":""timestamp-millis""},{""name"":""AvroDeleted"",""doc"":""This is set to true when the Avro data is recording a delete in the source data."",""default"":false,""type"":""boolean""},".
(** avro.go 130-132, for the type parsed for [name] *)
Definition avro_file (fuel : nat) (name : string) (t : texpr) : option string :=
  obind (write_lists fuel [] [] (field_lists t) []) (fun '(txt, _) => Some ("{" +:+ header [] name metadata +:+ txt +:+ "]}")).

(** ** avro_helpers.go 500-538 mapFields *)
(** avro_helpers.go 22-42 *)
Definition invalid_names : list string :=
  ["Schema"; "Serialize"; "SchemaName"; "MarshalJSON"; "UnmarshalJSON"; "AvroCRC64Fingerprint"; "SetBoolean"; "SetInt"; "SetLong";
   "SetFloat"; "SetDouble"; "SetBytes"; "SetString"; "Get"; "SetDefault"; "AppendMap"; "AppendArray"; "NullField"; "Finalize"].
Definition field_key (n : string) : string := if decide (n ∈ invalid_names) then "Field_" +:+ n else n.
(** avro_helpers.go 465-481: the field list found last *)
Definition find_fields (t : texpr) : option (list afield) := last (field_lists t).
(** None: too deep; Some None: an error *)
Fixpoint map_fields (fuel : nat) (fs : list afield) : option (option (gmap string afield)) :=
  match fuel with
  | O => None
  | S n =>
    (fix loop (fs : list afield) (m : gmap string afield) : option (option (gmap string afield)) :=
       match fs with
       | [] => Some (Some m)
       | f :: fs' =>
         match af_names f with
         | go :: _ => loop fs' (<[field_key go := f]> m)
         | [] =>
           match af_type f with
           | EIdent e =>
             obind (struct_to_filename e) (fun file =>
             match (t ← src_file E file e; find_fields t) with
             | None => Some None
             | Some gs =>
               match map_fields n gs with
               | None => None
               | Some None => Some None
               | Some (Some me) => loop fs' (m ∪ me)
               end
             end)
           | _ => loop fs' m
           end
         end
       end) fs ∅
  end.
End avro.

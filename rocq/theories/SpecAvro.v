(** The Avro schema a Go struct stands for, and JSON text. *)
From stdpp Require Import strings list gmap.
From Coq Require Import Ascii.
From Verif Require Import GoStr Avro.

(** ** JSON documents and their text *)
Inductive doc := DStr (s : string) | DFalse | DArr (l : list doc) | DObj (ms : list (string * doc)).

(** characters of a JSON string: as they are, or escaped *)
Inductive chars : string -> string -> Prop :=
| chars_nil : chars "" ""
| chars_plain a s t : 32 <= nat_of_ascii a < 127 -> a <> dquote -> a <> backslash -> chars s t -> chars (String a s) (String a t)
| chars_quote s t : chars s t -> chars (String dquote s) (esc dquote +:+ t)
| chars_backslash s t : chars s t -> chars (String backslash s) (esc backslash +:+ t)
| chars_b s t : chars s t -> chars (String "008" s) (esc "b" +:+ t)
| chars_t s t : chars s t -> chars (String "009" s) (esc "t" +:+ t)
| chars_n s t : chars s t -> chars (String "010" s) (esc "n" +:+ t)
| chars_f s t : chars s t -> chars (String "012" s) (esc "f" +:+ t)
| chars_r s t : chars s t -> chars (String "013" s) (esc "r" +:+ t).
Definition string_text (s t : string) : Prop := exists u, chars s u /\ t = String dquote (u +:+ String dquote "").

Inductive text : doc -> string -> Prop :=
| text_str s t : string_text s t -> text (DStr s) t
| text_false : text DFalse "false"
| text_arr ds ts : texts ds ts -> text (DArr ds) ("[" +:+ join "," ts +:+ "]")
| text_obj ms ts : members ms ts -> text (DObj ms) ("{" +:+ join "," ts +:+ "}")
| text_blank d t : text d t -> text d (" " +:+ t)
with texts : list doc -> list string -> Prop :=
| texts_nil : texts [] []
| texts_cons d t ds ts : text d t -> texts ds ts -> texts (d :: ds) (t :: ts)
with members : list (string * doc) -> list string -> Prop :=
| members_nil : members [] []
| members_cons k kt d t ms ts : string_text k kt -> text d t -> members ms ts -> members ((k, d) :: ms) ((kt +:+ ":" +:+ t) :: ts)
| members_blank m ms t ts : members (m :: ms) (t :: ts) -> members (m :: ms) ((" " +:+ t) :: ts).

(** the characters that strconv.Quote and JSON write in the same way *)
Definition same_char (a : ascii) : Prop := 32 <= nat_of_ascii a < 127 \/ nat_of_ascii a ∈ [8; 9; 10; 12; 13].
Inductive plain_text : string -> Prop :=
| plain_nil : plain_text ""
| plain_cons a s : same_char a -> plain_text s -> plain_text (String a s).

(** ** Avro types *)
Inductive avro_prim : string -> string -> Prop :=
| prim_bool : avro_prim "bool" "boolean"
| prim_long id : id ∈ ["int"; "uint"; "int64"; "uint64"] -> avro_prim id "long"
| prim_int id : id ∈ ["int8"; "int16"; "int32"; "uint8"; "uint16"; "uint32"] -> avro_prim id "int"
| prim_float : avro_prim "float32" "float"
| prim_double : avro_prim "float64" "double"
| prim_bytes : avro_prim "byte" "bytes"
| prim_string : avro_prim "string" "string".
Definition go_prims : list string :=
  ["bool"; "int"; "uint"; "int64"; "uint64"; "int8"; "int16"; "int32"; "uint8"; "uint16"; "uint32"; "float32"; "float64"; "byte"; "string"].
Definition timestamp : doc := DObj [("type", DStr "long"); ("logicalType", DStr "timestamp-millis")].
(** items of an array: anything but an object is put into one *)
Definition item_doc (d : doc) : doc := match d with DObj _ => d | _ => DObj [("type", d)] end.
Definition in_ns (ns : list string) : list (string * doc) := match ns with [] => [] | _ => [("namespace", DStr (join "." ns))] end.
Definition record_doc (ns : list string) (name : string) (fields : list doc) : doc :=
  DObj ([("name", DStr name)] ++ in_ns ns ++ [("type", DStr "record"); ("fields", DArr fields)]).
(** a union with null for all that can be: pointers do not matter, arrays and maps are never null, nor are booleans *)
Fixpoint may_union (t : texpr) : bool :=
  match t with
  | EStar t => may_union t
  | EMap _ _ | EArray _ => false
  | EIdent id => bool_decide (id <> "bool")
  | _ => true
  end.
Fixpoint is_bool (t : texpr) : bool := match t with EStar t => is_bool t | EIdent id => bool_decide (id = "bool") | _ => false end.
Definition or_null (d : doc) : doc := DArr [DStr "null"; d].
(** a field: name, namespace, description, type, default *)
Definition field_doc (ns : list string) (name desc : string) (ty : doc) (default : bool) : doc :=
  DObj ([("name", DStr name)] ++ in_ns ns ++ (if decide (desc = "") then [] else [("doc", DStr desc)]) ++ [("type", ty)] ++
        (if default then [("default", DFalse)] else [])).

Section spec.
Context (lower : string -> string) (E : sources).
(** the name of a field in the schema: that of its json tag, or else the Go name; whether it may be left out *)
Definition json_name (f : afield) : string := hd "" (split (af_json f) ",").
Definition avro_name (f : afield) (go : string) : string := if decide (json_name f = "") then go else json_name f.
Definition optional (f : afield) : bool := existsb (fun s => bool_decide (lower s = "omitempty")) (tl (split (af_json f) ",")).
(** the file a struct is declared in, by its name *)
Definition declared_in (name : string) (t : texpr) : Prop :=
  exists c rest, split name "" = c :: rest /\ src_file E (join "" (lower c :: rest) +:+ ".go") name = Some t.
(** the Go names that fields of a struct have, embedded ones not counted *)
Definition go_names (fs : list afield) : list string := omap (fun f => head (af_names f)) fs.

(** [stands ns name t d es]: the type [t] of a field [name] stands for the Avro type [d];
    [es]: the structs embedded in it, in the order they are completed *)
Inductive stands : list string -> string -> texpr -> doc -> list string -> Prop :=
| stands_prim ns name id p : avro_prim id p -> stands ns name (EIdent id) (DStr p) []
| stands_time ns name x : stands ns name (ESel x "Time") timestamp []
| stands_pointer ns name t d es : stands ns name t d es -> stands ns name (EStar t) d es
| stands_map ns name v d es : stands ns name v d es -> stands ns name (EMap (EIdent "string") v) (DObj [("type", DStr "map"); ("values", d)]) es
| stands_array ns name t d es : stands ns name t d es -> stands ns name (EArray t) (DObj [("type", DStr "array"); ("items", item_doc d)]) es
| stands_struct ns name fs ds es : plain_text name -> plain_text (join "." (ns ++ [name])) -> fields (ns ++ [name]) [] (go_names fs) fs ds es ->
    stands ns name (EStruct fs) (record_doc (ns ++ [name]) (name +:+ "_record") ds) es
| stands_named ns name id fs d es : id ∉ go_prims -> src_dir E id = Some (EStruct fs) -> stands ns name (EStruct fs) d es -> stands ns name (EIdent id) d es
(** [fields ns excl own fs ds es]: the fields [fs] stand for the Avro fields [ds]. Fields named in [excl] are left out. The Go names of
    the struct are [own]; these are left out of the structs it embeds. *)
with fields : list string -> list string -> list string -> list afield -> list doc -> list string -> Prop :=
| fields_nil ns excl own : fields ns excl own [] [] []
| fields_left_out ns excl own go ty json desc fs ds es : go ∈ excl -> fs <> [] -> fields ns excl own fs ds es ->
    fields ns excl own (AField [go] ty json desc :: fs) ds es
| fields_own ns excl own go ty json desc fs d ds es1 es2 (f := AField [go] ty json desc) (name := avro_name f go) : go ∉ excl ->
    plain_text name -> plain_text desc -> plain_text (join "." ns) ->
    stands ns name ty d es1 -> fields ns excl own fs ds es2 ->
    fields ns excl own (f :: fs)
      (field_doc ns name desc (if optional f && may_union ty then or_null d else d) (optional f && is_bool ty) :: ds) (es1 ++ es2)
| fields_embedded ns excl own e json desc gs fs ds1 ds2 es1 es2 : declared_in e (EStruct gs) ->
    fields (ns ++ [e]) own (go_names gs) gs ds1 es1 -> ds1 <> [] -> fields ns excl own fs ds2 es2 ->
    fields ns excl own (AField [] (EIdent e) json desc :: fs) (ds1 ++ ds2) (es1 ++ e :: es2).

(** the fields every schema has *)
Definition write_time : doc := DObj [("name", DStr "AvroWriteTime");
  ("doc", DStr "The timestamp when this avro data is written. Useful for identifying the newest row of data sharing keys.");
  ("type", DStr "long"); ("logicalType", DStr "timestamp-millis")].
Definition deleted : doc := DObj [("name", DStr "AvroDeleted");
  ("doc", DStr "This is set to true when the Avro data is recording a delete in the source data."); ("default", DFalse); ("type", DStr "boolean")].

(** ** which field of a struct has a Go name
    [finds fs k f]: it is [f]: the field the struct declares itself, or else the one of the first embedded struct that has it.
    Names that clash with methods get a prefix. *)
Definition method_names : list string :=
  ["Schema"; "Serialize"; "SchemaName"; "MarshalJSON"; "UnmarshalJSON"; "AvroCRC64Fingerprint"; "SetBoolean"; "SetInt"; "SetLong";
   "SetFloat"; "SetDouble"; "SetBytes"; "SetString"; "Get"; "SetDefault"; "AppendMap"; "AppendArray"; "NullField"; "Finalize"].
Definition declares_name (f : afield) (k : string) : Prop :=
  exists go rest, af_names f = go :: rest /\ ((go ∈ method_names /\ k = "Field_" +:+ go) \/ (go ∉ method_names /\ k = go)).
Inductive finds : list afield -> string -> afield -> Prop :=
| finds_own fs1 f fs2 k : declares_name f k -> Forall (fun g => ~ declares_name g k) fs2 -> finds (fs1 ++ f :: fs2) k f
| finds_embedded fs1 e json desc fs2 k gs f : Forall (fun g => ~ declares_name g k) (fs1 ++ fs2) ->
    embeds_lack fs1 k -> declared_in e (EStruct gs) -> finds gs k f -> finds (fs1 ++ AField [] (EIdent e) json desc :: fs2) k f
with embeds_lack : list afield -> string -> Prop :=
| lack_nil k : embeds_lack [] k
| lack_named f fs k : af_names f <> [] \/ (forall e, af_type f <> EIdent e) -> embeds_lack fs k -> embeds_lack (f :: fs) k
| lack_embedded e json desc fs k gs : declared_in e (EStruct gs) -> Forall (fun g => ~ declares_name g k) gs -> embeds_lack gs k ->
    embeds_lack fs k -> embeds_lack (AField [] (EIdent e) json desc :: fs) k.
End spec.

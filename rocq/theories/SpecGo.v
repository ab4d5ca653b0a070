(** The Go source that declarations are written as, what is read from it, and the Avro types that declarations stand for. *)
From stdpp Require Import strings list gmap.
From Coq Require Import Ascii.
From Verif Require Import GoStr Conv SpecGen SpecNamed Avro GoSrc SpecAvro.

(** ** characters and words *)
Definition without (cs : list ascii) (s : string) : bool := str_all (fun a => negb (bool_decide (a ∈ cs))) s.
Definition word_start (a : ascii) : bool := is_letter a || bool_decide (a = "_"%char).
Definition go_keywords : list string :=
  ["break"; "default"; "func"; "interface"; "select"; "case"; "defer"; "go"; "map"; "struct"; "chan"; "else"; "goto"; "package"; "switch";
   "const"; "fallthrough"; "if"; "range"; "type"; "continue"; "for"; "import"; "return"; "var"].
(** an identifier of Go, in ASCII *)
Definition identifier (s : string) : bool :=
  match s with
  | "" => false
  | String a s' => word_start a && str_all (fun c => word_start c || is_digit c) s' && bool_decide (s ∉ go_keywords)
  end.
Definition first_line (s : string) : string := hd "" (split s newline).
(** text that a raw string keeps as it is, and text that can be between double quotes in it *)
Definition raw_text (s : string) : bool := without ["`"; "000"; "013"]%char s.
Definition quotable (s : string) : bool := without ["`"; "000"; "013"; "010"; """"; "092"]%char s.
(** A declaration can be written if the names are identifiers, nothing in the tag ends it, and there is no null character. *)
Definition desc_ok (desc_tag : bool) (desc : string) : bool := if desc_tag then raw_text (first_line desc) else without ["000"%char] desc.
Fixpoint writable (desc_tag : bool) (d : gdecl) : bool :=
  let 'GDecl desc go json _ oty := d in
  desc_ok desc_tag desc &&
  match oty with
  | None => true
  | Some ty => identifier go && raw_text json && writable_type desc_tag ty
  end
with writable_type (desc_tag : bool) (t : gtype) : bool :=
  match t with
  | TPtr t | TSlice t => writable_type desc_tag t
  | TStruct ds => forallb (writable desc_tag) ds
  | TNamed n => identifier n
  | _ => true
  end.

(** ** what is declared *)
(** the tag of a field *)
Definition tag_of (desc_tag : bool) (desc json : string) (req : bool) (ty : gtype) : string :=
  json_tag json req ty +:+ (if desc_tag && bool_decide (desc <> "") then " description:" +:+ in_quotes (first_line desc) else "").
Fixpoint src_type (desc_tag : bool) (t : gtype) : rtype :=
  match t with
  | TBool => RIdent "bool" | TFloat => RIdent "float64" | TInt => RIdent "int64" | TString => RIdent "string"
  | TTime => RSel "time" "Time" | TMap => RMap (RIdent "string") (RIdent "string")
  | TPtr t => RStar (src_type desc_tag t) | TSlice t => RArray (src_type desc_tag t)
  | TStruct ds => RStruct (flat_map (src_field desc_tag) ds)
  | TNamed n => RIdent n
  end
with src_field (desc_tag : bool) (d : gdecl) : list rfield :=
  let 'GDecl desc go json req oty := d in
  match oty with
  | None => []
  | Some ty => [RField [go] (src_type desc_tag ty) (Some ("`" +:+ tag_of desc_tag desc json req ty +:+ "`"))]
  end.
Definition src_embed (e : string) : rfield := RField [] (RIdent e) None.
Definition src_struct (desc_tag : bool) (embeds : list string) (ds : list gdecl) : rtype :=
  RStruct (map src_embed embeds ++ flat_map (src_field desc_tag) ds).
Definition imports (time : bool) : list string := if time then ["time"] else [].
(** the types of a file: a struct without fields is not declared *)
Definition src_types (desc_tag : bool) (l : list (string * (list string * list gdecl))) : list (string * rtype) :=
  flat_map (fun s => match s.2.2 with [] => [] | _ => [(s.1, src_struct desc_tag s.2.1 s.2.2)] end) l.

(** ** what encoding/json and other readers of tags see: the name of the property with an option, and the first line of the description *)
Definition json_option (req : bool) (ty : gtype) : string :=
  if req then "" else match ty with TStruct _ | TNamed _ => ",omitzero" | _ => ",omitempty" end.
(** what package reflect yields for the tag [lit], a raw string: [json] for "json", [desc] for "description" *)
Definition reads_back (o_unquote : string -> option string) (lit json desc : string) : Prop :=
  tag_get o_unquote (trim "`" lit) "json" = json /\ tag_get o_unquote (trim "`" lit) "description" = desc.
Definition read_desc (desc_tag : bool) (desc : string) : string := if desc_tag then first_line desc else "".

(** ** Avro types of declarations; [Ss] are the other structs of the file *)
(** properties that may be left out are unions with null, except arrays, maps, booleans, and structs unless they are pointers *)
Fixpoint base_of (t : gtype) : gtype := match t with TPtr t => base_of t | _ => t end.
Definition null_union (req : bool) (ty : gtype) : bool :=
  negb req && match ty with TStruct _ | TNamed _ => false | _ => match base_of ty with TBool | TMap | TSlice _ => false | _ => true end end.
Definition false_default (req : bool) (ty : gtype) : bool := negb req && match base_of ty with TBool => true | _ => false end.
Section avro.
Context (desc_tag : bool) (Ss : gstructs).
Inductive avro_type : list string -> string -> gtype -> doc -> Prop :=
| avro_bool ns name : avro_type ns name TBool (DStr "boolean")
| avro_double ns name : avro_type ns name TFloat (DStr "double")
| avro_long ns name : avro_type ns name TInt (DStr "long")
| avro_string ns name : avro_type ns name TString (DStr "string")
| avro_time ns name : avro_type ns name TTime timestamp
| avro_map ns name : avro_type ns name TMap (DObj [("type", DStr "map"); ("values", DStr "string")])
| avro_ptr ns name t d : avro_type ns name t d -> avro_type ns name (TPtr t) d
| avro_array ns name t d : avro_type ns name t d -> avro_type ns name (TSlice t) (DObj [("type", DStr "array"); ("items", item_doc d)])
| avro_struct ns name ds docs : avro_fields (ns ++ [name]) ds docs -> avro_type ns name (TStruct ds) (record_doc (ns ++ [name]) (name +:+ "_record") docs)
| avro_named ns name n ds docs : (n, ds) ∈ Ss -> ds <> [] -> avro_fields (ns ++ [name]) ds docs ->
    avro_type ns name (TNamed n) (record_doc (ns ++ [name]) (name +:+ "_record") docs)
with avro_fields : list string -> list gdecl -> list doc -> Prop :=
| avro_nil ns : avro_fields ns [] []
| avro_none ns desc go json req ds docs : avro_fields ns ds docs -> avro_fields ns (GDecl desc go json req None :: ds) docs
| avro_field ns desc go json req ty d ds docs : avro_type ns json ty d -> avro_fields ns ds docs ->
    avro_fields ns (GDecl desc go json req (Some ty) :: ds)
      (field_doc ns json (read_desc desc_tag desc) (if null_union req ty then or_null d else d) (false_default req ty) :: docs).
End avro.
(** names and descriptions that are read back from tags, and have the same text in Go and JSON *)
Definition ascii_text (s : string) : bool := str_all (fun a => bool_decide (same_char a)) s.
Definition avro_ok_name (s : string) : bool := quotable s && ascii_text s && without [","%char] s && negb (bool_decide (s = "")).
Fixpoint avro_ok (desc_tag : bool) (d : gdecl) : bool :=
  let 'GDecl desc go json _ oty := d in
  match oty with
  | None => true
  | Some ty => avro_ok_name json && (if desc_tag then quotable (first_line desc) && ascii_text (first_line desc) else true) && avro_ok_type desc_tag ty
  end
with avro_ok_type (desc_tag : bool) (t : gtype) : bool :=
  match t with TPtr t | TSlice t => avro_ok_type desc_tag t | TStruct ds => forallb (avro_ok desc_tag) ds | _ => true end.
(** the Go names of the fields of a struct, also of the structs in it *)
Definition go_fields (ds : list gdecl) : list string := flat_map (fun d => let 'GDecl _ go _ _ oty := d in match oty with Some _ => [go] | None => [] end) ds.
(** ** where a generated file is
    [among dir file pkg text names]: the directory has a Go file of that name whose declarations are those of [text]; its other Go files
    are of the same package and do not declare the [names] *)
Definition among (dir : list (string * string)) (file pkg text : string) (names : list string) : Prop :=
  exists d1 text' d2, dir = d1 ++ (file, text') :: d2 /\ has_suffix ".go" file = true /\ file ∉ d1.*1 /\ parse_go text' = parse_go text /\
    Forall (fun f : string * string => has_suffix ".go" f.1 = true ->
      exists r, parse_go f.2 = Some r /\ rf_package r = pkg /\ Forall (fun n => n ∉ (rf_types r).*1) names) (d1 ++ d2).
(** the types that the Go files of a directory declare under a name; None: a file is not Go *)
Definition go_files (dir : list (string * string)) : list string := map snd (filter (fun f => has_suffix ".go" f.1 = true) dir).
Definition declared (f : rfile) (name : string) : list rtype := map snd (filter (fun d => d.1 = name) (rf_types f)).
(** [only_in dir name f t]: all Go files are of one package, and one of them, [f], declares the name, once, as [t] *)
Definition only_in (dir : list (string * string)) (name : string) (f : rfile) (t : rtype) : Prop :=
  exists fs1 fs2 pkg, Forall2 (fun s f => parse_go s = Some f) (go_files dir) (fs1 ++ f :: fs2) /\ Forall (fun g => rf_package g = pkg) (fs1 ++ f :: fs2) /\
    declared f name = [t] /\ Forall (fun g => declared g name = []) (fs1 ++ fs2).
(** no struct of a file has a field of that name or embeds it, and no declaration is another name for it *)
Fixpoint mentions (name : string) (t : rtype) : bool :=
  match t with
  | RIdent n => bool_decide (n = name)
  | RArray t => mentions name t
  | RMap k v => mentions name k || mentions name v
  | RStruct fs => existsb (fun f => let 'RField names ty _ := f in
      match names with [] => bool_decide (embedded_name ty = Some name) | _ => bool_decide (name ∈ names) end) fs
  | _ => false
  end.

(** The Go declarations a schema stands for, and how they are written. *)
From stdpp Require Import strings list gmap.
From Coq Require Import Ascii.
From Verif Require Import GoStr Val Conv Schema Inst Load SpecPath SpecLoad.

(** ** Go declarations *)
Inductive gtype :=
| TBool | TFloat | TInt | TString | TTime | TMap    (* bool, float64, int64, string, time.Time, map[string]string *)
| TPtr (t : gtype) | TSlice (t : gtype)
| TStruct (ds : list gdecl)
| TNamed (name : string)                            (* a struct declared elsewhere in the file *)
(** a field: description, Go name, JSON name, required; without a type there is only its comment *)
with gdecl := GDecl (desc go json : string) (req : bool) (ty : option gtype).
Definition d_go (d : gdecl) : string := let 'GDecl _ go _ _ _ := d in go.
Definition d_json (d : gdecl) : string := let 'GDecl _ _ json _ _ := d in json.

Definition newline : string := String "010" "".
Definition tabulator : string := String "009" "".
Definition in_quotes (s : string) : string := """" +:+ s +:+ """".
Fixpoint type_text (t : gtype) : string :=
  match t with
  | TBool => "bool" | TFloat => "float64" | TInt => "int64" | TString => "string" | TTime => "time.Time" | TMap => "map[string]string"
  | TPtr t => "*" +:+ type_text t
  | TSlice t => "[]" +:+ type_text t
  | TStruct _ => "struct"
  | TNamed n => n
  end.
(** `json:"name"`, with an option to omit zero values if the property is not required *)
Definition json_tag (json : string) (req : bool) (ty : gtype) : string :=
  "json:" +:+ in_quotes (json +:+ (if req then "" else match ty with TStruct _ | TNamed _ => ",omitzero" | _ => ",omitempty" end)).
(** the description as part of the tag, or as comment lines before the field *)
Definition tag_text (desc_tag : bool) (desc json : string) (req : bool) (ty : gtype) : string :=
  "`" +:+ json_tag json req ty +:+
  (if desc_tag && bool_decide (desc <> "") then " description:" +:+ in_quotes (hd "" (split desc newline)) else "") +:+ "`" +:+ newline.
Definition comment_text (desc_tag : bool) (desc : string) : string :=
  if negb desc_tag && bool_decide (desc <> "") then join "" (map (fun line => "// " +:+ line +:+ newline) (split desc newline)) else "".
Fixpoint show (desc_tag : bool) (prefix : string) (d : gdecl) : string :=
  let 'GDecl desc go json req oty := d in
  comment_text desc_tag desc +:+
  match oty with
  | None => ""
  | Some ty =>
    let tag := tag_text desc_tag desc json req ty in
    (fix body (t : gtype) : string :=
      match t with
      | TPtr t' | TSlice t' => body t'
      | TStruct ds => prefix +:+ go +:+ tabulator +:+ type_text ty +:+ " {" +:+ newline +:+
                      join "" (map (show desc_tag (prefix +:+ tabulator)) ds) +:+ prefix +:+ tabulator +:+ "}" +:+ tabulator +:+ tag
      | _ => prefix +:+ go +:+ tabulator +:+ type_text ty +:+ tabulator +:+ tag
      end) ty
  end.
(** does a declaration mention time.Time *)
Fixpoint uses_time (d : gdecl) : bool :=
  let 'GDecl _ _ _ _ oty := d in
  match oty with
  | None => false
  | Some ty =>
    (fix body (t : gtype) : bool :=
      match t with
      | TPtr t' | TSlice t' => body t'
      | TStruct ds => existsb uses_time ds
      | TTime => true
      | _ => false
      end) ty
  end.
(** ordered by Go name *)
Fixpoint insert_decl (d : gdecl) (l : list gdecl) : list gdecl :=
  match l with
  | [] => [d]
  | x :: l' => if str_le (d_go d) (d_go x) then d :: l else x :: insert_decl d l'
  end.
Definition by_name (l : list gdecl) : list gdecl := foldr insert_decl [] l.
Definition show_struct (desc_tag : bool) (name : string) (embeds : list string) (ds : list gdecl) : string :=
  "type " +:+ name +:+ " struct {" +:+ newline +:+
  (if decide (join newline embeds = "") then "" else join newline embeds +:+ newline +:+ newline) +:+
  join "" (map (show desc_tag tabulator) ds) +:+ "}".
(** a file with one struct *)
Definition show_file (desc_tag : bool) (pkg name : string) (embeds : list string) (ds : list gdecl) : string :=
  "package " +:+ pkg +:+ newline +:+ newline +:+
  "// Code generated by github.com/GannettDigital/jstransform; DO NOT EDIT." +:+ newline +:+ newline +:+
  (if existsb uses_time ds then "import " +:+ in_quotes "time" +:+ newline else "") +:+
  (if decide (length ds = 0) then "" else newline +:+ newline +:+ show_struct desc_tag name embeds ds).

(** the Go type of a JSON value that is neither an object nor an array *)
Definition go_scalar (t format : string) : option string :=
  if decide (t = "boolean") then Some "bool" else if decide (t = "number") then Some "float64" else if decide (t = "integer") then Some "int64"
  else if decide (t = "string") then Some (if decide (format = "date-time") then "time.Time" else "string") else None.

(** ** embedding allOf members
    A struct is embedded for each member, by the base name of the file it came from without extension: renamed, or else with a capital letter. *)
Definition embeds_as (title : string -> string) (rename : string -> option string) (embed : bool) (ms : list instance) (es : list string) : Prop :=
  if embed then Forall2 (fun m e => exists t, (t <> "" /\ t <> "/") /\ file_name (n_fromRef m) t /\ e = default (title t) (rename t)) ms es
  else es = [].

(** ** what a property declares *)
Section spec.
Context (title : string -> string) (rename : string -> option string) (pointers : bool).
Definition types (i : instance) : list string := default [] (n_type i).
(** the only type besides null *)
Definition one_type (i : instance) (t : string) : Prop := filter (fun x => x <> "null") (types i) = [t] /\ t <> "".
Definition nullable (i : instance) : bool := bool_decide ("null" ∈ types i).
Definition hydrated (i : instance) : Prop := "graphql-hydration" ∈ types i.
(** hydrated, with nothing below it *)
Definition hydrated_leaf (i : instance) : Prop := hydrated i /\ "object" ∉ types i /\ "array" ∉ types i.
(** the name of a property unless it is hydrated *)
Definition own_name (kp : string * tree) : option string :=
  match d_inst false kp.2 with
  | Ok i => if decide ("graphql-hydration" ∈ types i) then None else Some kp.1
  | _ => None
  end.
Definition ptr (b : bool) (t : gtype) : gtype := if b then TPtr t else t.
Definition base_type (t : string) (date : bool) : option gtype :=
  if decide (t = "boolean") then Some TBool else if decide (t = "number") then Some TFloat else if decide (t = "integer") then Some TInt
  else if decide (t = "string") then (if date then None else Some TString) else None.
(** names without a dot or bracket *)
Definition field_name (k : string) : Prop := plain_name k /\ k <> "$".
Definition declare (i : instance) (k : string) (req : bool) (ty : option gtype) : gdecl :=
  GDecl (n_desc i) (title (default k (rename k))) k req ty.

(** [holds req null r ty]: a field holding a value of the schema [r], which is not an array, has type [ty];
    [null]: the property may be null *)
Inductive holds : bool -> bool -> tree -> gtype -> Prop :=
| holds_base req null r i t b : d_inst false r = Ok i -> one_type i t -> base_type t (bool_decide (n_format i = "date-time")) = Some b ->
    holds req null r (ptr null b)
| holds_time req null r i : d_inst false r = Ok i -> one_type i "string" -> n_format i = "date-time" ->
    holds req null r (ptr ((pointers && negb req) || null) TTime)
| holds_object req null r i ps ds : d_inst false r = Ok i -> one_type i "object" -> n_props i = Some ps ->
    declares_all (n_required i) ps ds -> NoDup (map d_go ds) -> NoDup ps.*1 ->
    holds req null r (ptr null (if decide (length ds = 0) then TMap else TStruct (by_name ds)))
(** [declares req k r d]: the property [k] with schema [r] declares the field [d] *)
with declares : bool -> string -> tree -> gdecl -> Prop :=
| declares_value req k r i ty : d_inst false r = Ok i -> field_name k ->
    holds req (nullable i) r ty -> declares req k r (declare i k req (Some ty))
| declares_array req k r i x ty : d_inst false r = Ok i -> one_type i "array" -> field_name k -> n_items i = Some x ->
    holds req (nullable i) x ty -> declares req k r (declare i k req (Some (TSlice ty)))
(** an array of things only GraphQL knows *)
| declares_none req k r i x j : d_inst false r = Ok i -> one_type i "array" -> field_name k ->
    n_items i = Some x -> d_inst false x = Ok j -> hydrated_leaf j ->
    declares req k r (declare i k req None)
(** the properties [ps], of which those named in [reqs] are required, declare the fields [ds] *)
with declares_all : list string -> list (string * tree) -> list gdecl -> Prop :=
| all_nil reqs : declares_all reqs [] []
| all_hydrated reqs k r i ps ds : d_inst false r = Ok i -> hydrated_leaf i -> field_name k -> declares_all reqs ps ds ->
    declares_all reqs ((k, r) :: ps) ds
| all_cons reqs k r d ps ds : declares (bool_decide (k ∈ reqs)) k r d -> declares_all reqs ps ds -> declares_all reqs ((k, r) :: ps) (d :: ds).
End spec.

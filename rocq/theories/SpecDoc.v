(** The GraphQL document for a schema: an interface for the members of allOf, and a type for each member of oneOf. *)
From stdpp Require Import strings list gmap.
From Coq Require Import Ascii.
From Verif Require Import GoStr Val Conv Schema Inst Load SpecPath SpecWalk SpecLoad SpecGen SpecGql.

(** what a schema contributes: fields, the names of those that are required, further types *)
Record part := Part { p_ds : list qdecl; p_req : list string; p_S : list qstruct }.
Definition all_ds (cs : list part) : list qdecl := cs ≫= p_ds.
Definition reqs_of (cs : list part) : list string := cs ≫= p_req.
Definition all_S (cs : list part) : list qstruct := cs ≫= p_S.

(** the name of a schema file *)
Definition file_of (m : instance) : string := sub_name (n_fromRef m).
Definition first_file (schema : instance) : string := match n_allOf schema with m :: _ => file_of m | [] => "" end.
Definition has_all (schema : instance) : bool := match n_allOf schema with [] => false | _ => true end.
Definition kind_of (schema : instance) : string := match n_oneOf schema with [] => "type" | _ => "interface" end.
(** the name of the file for the member [one] of the schema [name] *)
Definition member_file (name one : string) : string := if has_prefix name one then one +:+ ".graphqls" else name +:+ "_" +:+ one +:+ ".graphqls".
Definition header : string := "# // Code generated by github.com/GannettDigital/jstransform; DO NOT EDIT." +:+ newline.

Section spec.
(** names with a capital letter, and in lower case; the renamed structs, fields and types; the option Pointers; quoting, trimming; the import path *)
Context (title lower : string -> string) (structs_map rename types_map : string -> option string) (pointers : bool) (quote trim : string -> string) (import : string).
Notation show_types := (show_types title quote trim import).

(** the Go struct and the GraphQL type for the schema file [name]; [impl]: the type implements an interface *)
Definition go_struct (name : string) : string := default (title name) (structs_map name).
Definition gql_type (impl : bool) (name : string) : string :=
  match types_map name with Some n => n | None => if impl then lower name else title (go_struct name) end.
(** the properties of a schema declare fields and types, with names that are all different *)
Definition schema_declares (P G : string) (schema : instance) (ds : list qdecl) (Ss : list qstruct) : Prop :=
  n_items schema = None /\ NoDup (default [] (n_props schema)).*1 /\
  qdeclares_all title rename types_map pointers trim P G false (n_required schema) (default [] (n_props schema)) ds Ss /\
  NoDup (map qd_json ds) /\ NoDup (map qd_go ds) /\ NoDup (P :: map qs_key Ss).
Definition declares_part (impl : bool) (name : string) (m : instance) (c : part) : Prop :=
  schema_declares (title (go_struct name)) (title (gql_type impl name)) m (p_ds c) (p_S c) /\ p_req c = n_required m.
Definition distinct_fields (ds : list qdecl) : Prop := NoDup (map qd_json ds) /\ NoDup (map qd_go ds).

(** [doc_parts file schema cs os own]: the members of allOf declare [cs], those of oneOf [os]; if there are neither, the schema, which
    is in the file [file], declares [own]. No field is declared twice. *)
Definition doc_parts (file : string) (schema : instance) (cs os : list part) (own : part) : Prop :=
  Forall2 (declares_part false (first_file schema)) (n_allOf schema) cs /\
  distinct_fields (all_ds cs) /\ NoDup (map qs_key (all_S cs)) /\
  Forall2 (fun m c => declares_part (has_all schema) (file_of m) m c /\ distinct_fields (all_ds cs ++ p_ds c)) (n_oneOf schema) os /\
  (n_allOf schema = [] -> n_oneOf schema = [] -> declares_part false file schema own).

(** the type with the fields of all members of allOf *)
Definition common_type (pkg : string) (schema : instance) (cs : list part) : qstruct :=
  QStruct (match n_oneOf schema with [] => go_struct (first_file schema) | _ => default (title pkg) (types_map pkg) end)
    (match n_oneOf schema with [] => title pkg | _ => default (title pkg) (types_map pkg) end) "" false (reqs_of cs) (fields_by_name (all_ds cs)).
(** the type for a member of oneOf, which has these fields as well *)
Definition member_type (impl : bool) (cs : list part) (m : instance) (c : part) : qstruct :=
  QStruct (go_struct (file_of m)) (gql_type impl (file_of m)) (n_desc m) false (reqs_of cs ++ p_req c) (fields_by_name (all_ds cs ++ p_ds c)).
Definition own_type (file : string) (schema : instance) (own : part) : qstruct :=
  QStruct (go_struct file) (gql_type false file) (n_desc schema) false (n_required schema) (fields_by_name (p_ds own)).
Definition implemented (name : string) (schema : instance) : string := if has_all schema then default (title name) (types_map name) else "".

Definition common_text (pkg : string) (schema : instance) (cs : list part) : string :=
  if has_all schema then show_types (kind_of schema) "" (common_type pkg schema cs) (types_by_name (all_S cs)) else "".
Definition member_text (name : string) (schema : instance) (cs : list part) (m : instance) (c : part) : string :=
  show_types (kind_of m) (implemented name schema) (member_type (has_all schema) cs m c) (types_by_name (p_S c)).
Definition own_text (file : string) (schema : instance) (own : part) : string :=
  match n_allOf schema, n_oneOf schema with
  | [], [] => show_types "type" "" (own_type file schema own) (types_by_name (p_S own))
  | _, _ => ""
  end.
(** the files and what is in them. [any]: the scalar Any is declared; [files]: there is a file for each member of oneOf *)
Definition document (any files : bool) (file name pkg : string) (schema : instance) (cs os : list part) (own : part) : list (string * string) :=
  let head := header +:+ (if any then newline +:+ "scalar Any" +:+ newline else "") in
  let members := zip_with (fun m c => (file_of m, member_text name schema cs m c)) (n_oneOf schema) os in
  if files
  then (name +:+ ".graphqls", head +:+ common_text pkg schema cs +:+ own_text file schema own) ::
       map (fun nt : string * string => (member_file name nt.1, header +:+ nt.2)) members
  else [(name +:+ ".graphqls", head +:+ common_text pkg schema cs +:+ join "" members.*2 +:+ own_text file schema own)].
(** ** the types of a document *)
(** those that are written, with the word for their kind and the interface that they implement *)
Definition doc_types (name pkg file : string) (schema : instance) (cs os : list part) (own : part) : list (string * string * qstruct) :=
  let live (Ss : list qstruct) := map (fun s => ("type", "", s)) (filter (fun s => qs_dead s = false) Ss) in
  (if has_all schema then (kind_of schema, "", common_type pkg schema cs) :: live (types_by_name (all_S cs)) else []) ++
  mjoin (zip_with (fun m c => (kind_of m, implemented name schema, member_type (has_all schema) cs m c) :: live (types_by_name (p_S c))) (n_oneOf schema) os) ++
  match n_allOf schema, n_oneOf schema with [], [] => ("type", "", own_type file schema own) :: live (types_by_name (p_S own)) | _, _ => [] end.
End spec.

(** ** fields as a reader of the document sees them *)
(** a type; [nn]: the value is never null *)
Inductive ftype := FName (name : string) (nn : bool) | FList (t : ftype) (nn : bool) | FText (text : string).
Definition settled (nn : non_null) (required : bool) : bool := match nn with NNever => false | NRequired => required | NAlways => true end.
Fixpoint field_type (required : bool) (t : qtype) : ftype :=
  match t with
  | QName n nn => FName n (settled nn required)
  | QList t nn => FList (field_type required t) (settled nn required)
  | QText s => FText s
  end.
Definition bang (nn : bool) : string := if nn then "!" else "".
Fixpoint ftype_text (t : ftype) : string :=
  match t with FName n nn => n +:+ bang nn | FList t nn => "[" +:+ ftype_text t +:+ "]" +:+ bang nn | FText s => s end.
(** a field of type [t] may implement a field of type [u] of an interface *)
Fixpoint serves_as (t u : ftype) : Prop :=
  match t, u with
  | FName n a, FName m b => n = m /\ (b = true -> a = true)
  | FList t a, FList u b => serves_as t u /\ (b = true -> a = true)
  | FText a, FText b => a = b
  | _, _ => False
  end.
Definition type_in (s : qstruct) (d : qdecl) : ftype := field_type (bool_decide (qd_json d ∈ qs_req s)) (qd_type d).
(** [J] has the fields of the interface [I] *)
Definition conforms (J I : qstruct) : Prop :=
  forall d, d ∈ qs_fields I -> exists d', d' ∈ qs_fields J /\ qd_json d' = qd_json d /\ qd_args d' = qd_args d /\ serves_as (type_in J d') (type_in I d).
Definition contains (text x : string) : Prop := exists a b, text = a +:+ x +:+ b.
(** [x] is in one of the files *)
Definition written (files : list (string * string)) (x : string) : Prop := exists f text, (f, text) ∈ files /\ contains text x.

(** the type that a field refers to *)
Fixpoint refers_to (t : qtype) : option string := match t with QName n _ => Some n | QList t _ => refers_to t | QText _ => None end.
(** scalars; DateTime is declared elsewhere, and Any too if the option ScalarAny is not used *)
Definition given_types : list string := ["Boolean"; "Float"; "Int"; "String"; "DateTime"; "Any"].
(** types that a schema names, for the properties [ps] or below *)
Definition target_in (ps : list (string * tree)) (n : string) : Prop := exists σ r i, swinst ps None σ r /\ d_inst false r = Ok i /\ n_target i = n.
(** not the length of a list *)
Definition is_total (title : string -> string) (rename : string -> option string) (trim : string -> string) (d : qdecl) : Prop :=
  exists i k, d = total_of title rename trim i k.

(** ** properties anywhere in a schema *)
(** the property [k] of schema [r] of the object at [σ] (the schema itself at []); [req]: it is required *)
Inductive prop_at (schema : instance) : list seg -> string -> tree -> bool -> Prop :=
| prop_root k r : (k, r) ∈ default [] (n_props schema) -> prop_at schema [] k r (bool_decide (k ∈ n_required schema))
| prop_below σ x i ps k r : swinst (default [] (n_props schema)) None σ x -> d_inst false x = Ok i -> one_type i "object" -> n_props i = Some ps -> (k, r) ∈ ps ->
    prop_at schema σ k r (bool_decide (k ∈ n_required i)).
(** no property names a type of its own *)
Definition no_targets (schema : instance) : Prop := forall n, target_in (default [] (n_props schema)) n -> n = "".
(** what follows the type of a field *)
Definition deprecated_mark (quote trim : string -> string) (desc : string) : string :=
  match deprecation trim desc with Some (reason, _) => " @deprecated(reason: " +:+ quote reason +:+ ")" | None => "" end.
(** the line for a field, of a list or not, of type [ty] *)
Definition plain_line (quote trim : string -> string) (k ty desc : string) : string := newline +:+ "  " +:+ k +:+ ": " +:+ ty +:+ deprecated_mark quote trim desc +:+ newline.
Definition list_line (quote trim : string -> string) (k ty desc : string) : string :=
  newline +:+ "  " +:+ k +:+ list_args +:+ ": " +:+ ty +:+ " @goField(forceResolver: true)" +:+ deprecated_mark quote trim desc +:+ newline.
(** non-null unless the option Pointers is used and the property is not required *)
Definition pointer_mark (pointers req : bool) : string := if pointers && negb req then "" else "!".
(** [x] is the text of the type [T] *)
Definition type_start (T : string) (x : string) : Prop := exists desc rest, x = newline +:+ description_text "" desc +:+ "type " +:+ T +:+ " " +:+ rest.

(** ** the Go structs that the types are for *)
Definition d_type (d : gdecl) : option gtype := let 'GDecl _ _ _ _ ty := d in ty.
(** the values of the Go type [ty] are those of the GraphQL type [t]; pointers aside. [Ss]: the types made for objects *)
Fixpoint stands_for (Ss : list qstruct) (t : qtype) (ty : gtype) : Prop :=
  match ty with
  | TBool => exists nn, t = QName "Boolean" nn
  | TFloat => exists nn, t = QName "Float" nn
  | TInt => exists nn, t = QName "Int" nn
  | TString => exists nn, t = QName "String" nn
  | TTime => exists nn, t = QName "DateTime" nn
  | TMap => exists n nn, t = QName n nn /\ (n = "Any" \/ exists s, s ∈ Ss /\ qs_name s = n)
  | TPtr ty' => stands_for Ss t ty'
  | TSlice ty' => exists t' nn, t = QList t' nn /\ stands_for Ss t' ty'
  | TNamed K => exists s nn, s ∈ Ss /\ qs_key s = K /\ t = QName (qs_name s) nn
  | TStruct _ => False
  end.
(** each field that is stored, and is not the length of a list, has a Go field with the same names and its type; [T]: types named in the schema *)
Definition go_fields (total : qdecl -> Prop) (T : string -> Prop) (Ss : list qstruct) (ds : list qdecl) (gs : list gdecl) : Prop :=
  forall d, d ∈ ds -> is_virtual d = false -> ~ total d -> exists g ty, g ∈ gs /\ d_json g = qd_json d /\ d_go g = qd_go d /\ d_type g = Some ty /\
    (stands_for Ss (qd_type d) ty \/ exists n, refers_to (qd_type d) = Some n /\ n <> "" /\ T n).

(** ** a schema on its own *)
(** it declares [own], is not made of other schemas, and names no types *)
Definition one_schema (title lower : string -> string) (structs_map rename types_map : string -> option string) (pointers : bool) (trim : string -> string)
    (file : string) (schema : instance) (own : part) : Prop :=
  n_allOf schema = [] /\ n_oneOf schema = [] /\ declares_part title lower structs_map rename types_map pointers trim false file schema own /\ no_targets schema.

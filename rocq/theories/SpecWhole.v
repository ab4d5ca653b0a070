(** The files a whole run of the generator may write, and what it should write. *)
From stdpp Require Import strings list gmap.
From Verif Require Import GoStr Val Schema Inst Load SpecPath SpecWalk SpecLoad SpecGen SpecNamed SpecFiles Avro GoSrc SpecAvro SpecGo SpecEmbed.

Section spec.
(** names with a capital letter and in lower case; renamed structs *)
Context (title lower : string -> string) (rename_struct : string -> option string).
(** [member i own ref name]: the schema [i] of the file [own] has a struct [name] for the file [ref]: a member of allOf, the file itself, a member of oneOf *)
Inductive member (i : instance) (own ref : string) : string -> Prop :=
| member_all : ref ∈ map n_ref (n_allOf i) -> member i own ref (default (title (sub_name ref)) (rename_struct (sub_name ref)))
| member_own : has_own i -> ref = own -> member i own ref (default (title (sub_name ref)) (rename_struct (sub_name ref)))
| member_one : ref ∈ map n_ref (n_oneOf i) -> member i own ref (default (sub_name ref) (rename_struct (sub_name ref))).
(** the name of a struct in the names of its files for Avro, and these *)
Definition low (name : string) : string := lower (title name).
Definition avro_names (name : string) : list string := [low name +:+ ".avsc"; low name +:+ "_avro.go"; low name +:+ "_avro_test.go"].
(** the files for a struct [name] whose schema is in the file [path] *)
Definition names_for (avro : bool) (path name : string) : list string := (sub_name path +:+ ".go") :: (if avro then avro_names name else []).
(** the names of the files for GraphQL: they begin with the name of the schema *)
Definition gql_name (schema_path f : string) : Prop := exists rest, f = sub_name schema_path +:+ rest +:+ ".graphqls".

(** ** the Avro schemas
    [struct_for embeds schema es ds]: the struct that is generated for the schema embeds the structs [es] and has the fields [ds] *)
Context (rename_field : string -> option string) (descTag pointers embed : bool).
Definition struct_for (embeds : list string) (schema : instance) (es : list string) (ds : list gdecl) : Prop :=
  n_items schema = None /\ NoDup (default [] (n_props schema)).*1 /\
  declares_all title rename_field pointers (n_required schema) (default [] (n_props schema)) ds /\ NoDup (map d_go ds) /\
  (exists es', embeds_as title rename_struct embed (n_allOf schema) es' /\ es = embeds ++ es').
(** structs that can be in an Avro schema: names that are identifiers in ASCII, descriptions and tags that can be written *)
Definition avro_struct_ok (name : string) (es : list string) (ds : list gdecl) : bool :=
  identifier name && ascii_text name && forallb identifier es && forallb (writable descTag) ds && forallb (avro_ok descTag) ds && negb (bool_decide (ds = [])).
(** the name of the file in which an embedded struct is looked for: the first letter is in lower case *)
Definition struct_file (name : string) : string := match split name "" with c :: rest => join "" (lower c :: rest) +:+ ".go" | [] => "" end.
(** The structs of the files [before]: those that are found in their files, with the structs they embed, [es_of], and their fields, [ds_of] *)
Context (es_of : wanted -> list string) (ds_of : wanted -> list gdecl).
Definition embeddable (w : wanted) : bool :=
  bool_decide (title (w_name w) = w_name w) && bool_decide (split (w_name w) "" <> []) && bool_decide (struct_file (w_name w) = w_file w) && avro_struct_ok (w_name w) (es_of w) (ds_of w).
Definition structs_in (before : list wanted) (e : string) : option (list string * list gdecl) :=
  (fun w => (es_of w, by_name (ds_of w))) <$> head (filter (fun w => embeddable w = true /\ w_name w = e) before).
(** [made_as w]: the text of the file [w] is that of the struct of its schema *)
Context (pkg : string) (formatted : string -> string -> Prop) (loaded : string -> string -> instance -> Prop).
Definition made_as (w : wanted) : Prop := exists schema, loaded (w_path w) (w_name w) schema /\ struct_for (w_embeds w) schema (es_of w) (ds_of w) /\
  formatted (show_file descTag pkg (title (w_name w)) (es_of w) (by_name (ds_of w))) (w_text w).
End spec.

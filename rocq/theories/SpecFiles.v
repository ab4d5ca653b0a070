(** The Go files that should be made from a schema. *)
From stdpp Require Import strings list gmap.
From Verif Require Import GoStr Val Schema Inst SpecPath SpecWalk SpecLoad SpecGen SpecNamed.

Section spec.
(** names with a capital letter; renamed structs and fields; the options *)
Context (title : string -> string) (rename_struct rename_field : string -> option string) (descTag noNested pointers embed : bool) (pkg : string).

(** [go_text name embeds schema text]: [text] is the Go file for the schema: a struct with a field for each property, or a struct for each object in it *)
Inductive go_text (name : string) (embeds : list string) (schema : instance) : string -> Prop :=
| text_nested ds es : noNested = false -> n_items schema = None -> NoDup (default [] (n_props schema)).*1 ->
    declares_all title rename_field pointers (n_required schema) (default [] (n_props schema)) ds -> NoDup (map d_go ds) ->
    embeds_as title rename_struct embed (n_allOf schema) es ->
    go_text name embeds schema (show_file descTag pkg (title name) (embeds ++ es) (by_name ds))
| text_not_nested ds Ss es : noNested = true -> n_items schema = None -> NoDup (default [] (n_props schema)).*1 ->
    ndeclares_all title rename_field pointers (title name) (n_required schema) (default [] (n_props schema)) ds Ss -> NoDup (map d_go ds) ->
    capital (title name) ->
    (forall σ τ, object_in (default [] (n_props schema)) σ -> object_in (default [] (n_props schema)) τ ->
       type_name title (title name) σ = type_name title (title name) τ -> σ = τ) ->
    (forall σ, object_in (default [] (n_props schema)) σ -> type_name title (title name) σ <> title name) ->
    embeds_as title rename_struct embed (n_allOf schema) es ->
    go_text name embeds schema (show_structs title descTag pkg name (embeds ++ es) (by_name ds) (structs_by_name Ss)).

(** A file to be made: where its schema is, the name of the schema, the name of its struct, the structs it embeds, its text *)
Record wanted := Wanted { w_path : string; w_base : string; w_name : string; w_embeds : list string; w_text : string }.
Definition w_file (w : wanted) : string := w_base w +:+ ".go".
(** [place] finds the file for a reference, [formatted] formats Go text, [loaded] loads the schema in a file for the members of a name *)
Context (place : string -> string) (formatted : string -> string -> Prop) (loaded : string -> string -> instance -> Prop).
(** the reference, and the file it refers to, is named [b] *)
Definition named_by (ref path b : string) : Prop := (b <> "" /\ b <> "/") /\ file_name ref b /\ file_name path b.
Definition has_text (w : wanted) : Prop :=
  exists schema text, loaded (w_path w) (w_name w) schema /\ go_text (w_name w) (w_embeds w) schema text /\ formatted text (w_text w).
Definition from_allOf (ref : string) (w : wanted) : Prop :=
  w_path w = place ref /\ named_by ref (w_path w) (w_base w) /\ w_name w = default (title (w_base w)) (rename_struct (w_base w)) /\ w_embeds w = [] /\ has_text w.
Definition from_oneOf (all : list wanted) (ref : string) (w : wanted) : Prop :=
  w_path w = place ref /\ named_by ref (w_path w) (w_base w) /\ w_name w = default (w_base w) (rename_struct (w_base w)) /\ w_embeds w = map w_name all /\ has_text w.
(** The schema [i] of the file [own] has a file for each member of allOf, for itself if it has properties or neither allOf nor oneOf, and for each
    member of oneOf, whose structs embed those of all the others. *)
Definition has_own (i : instance) : Prop := default [] (n_props i) <> [] \/ (n_allOf i = [] /\ n_oneOf i = []).
Inductive files_of (i : instance) (own : string) : list wanted -> Prop :=
| files_own all ones : has_own i -> Forall2 from_allOf (map n_ref (n_allOf i) ++ [own]) all -> Forall2 (from_oneOf all) (map n_ref (n_oneOf i)) ones ->
    files_of i own (all ++ ones)
| files_none all ones : ~ has_own i -> Forall2 from_allOf (map n_ref (n_allOf i)) all -> Forall2 (from_oneOf all) (map n_ref (n_oneOf i)) ones ->
    files_of i own (all ++ ones).
End spec.

(** The GraphQL types a schema stands for, and how they are written. *)
From stdpp Require Import strings list gmap.
From Coq Require Import Ascii.
From Verif Require Import GoStr Val Conv Schema Inst Load SpecPath SpecWalk SpecLoad SpecGen.

(** ** GraphQL declarations *)
(** when a type is followed by an exclamation mark, which says that the value is never null *)
Inductive non_null := NNever | NRequired | NAlways.
Inductive qtype :=
| QName (name : string) (nn : non_null)
| QList (t : qtype) (nn : non_null)
| QText (text : string).                      (* taken from the schema as it is *)
(** a field: description, Go name, GraphQL name, arguments given in the schema, type *)
Record qdecl := QDecl { qd_desc : string; qd_go : string; qd_json : string; qd_args : list string; qd_type : qtype }.
(** a type: the Go struct, the GraphQL name, description, whether it is left out, names of the required fields, the fields *)
Record qstruct := QStruct { qs_key : string; qs_name : string; qs_desc : string; qs_dead : bool; qs_req : list string; qs_fields : list qdecl }.

Definition is_list (t : qtype) : bool := match t with QList _ _ => true | _ => false end.
(** not stored, looked up by a resolver *)
Definition is_virtual (d : qdecl) : bool := match qd_type d with QText _ => true | _ => false end.
Definition mark (nn : non_null) (required : bool) : string :=
  match nn with NNever => "" | NRequired => if required then "!" else "" | NAlways => "!" end.
Fixpoint qtype_text (required : bool) (t : qtype) : string :=
  match t with
  | QName n nn => n +:+ mark nn required
  | QList t nn => "[" +:+ qtype_text required t +:+ "]" +:+ mark nn required
  | QText s => s
  end.
Definition quotes3 : string := """""""".
(** a description: a string in quotes, or a block of lines *)
Definition description_text (prefix desc : string) : string :=
  if decide (desc = "") then "" else
  match split desc newline with
  | [_] => prefix +:+ in_quotes desc +:+ newline
  | lines => prefix +:+ quotes3 +:+ newline +:+
      join "" (map (fun line => (if decide (line = "") then "" else prefix +:+ line) +:+ newline) lines) +:+ prefix +:+ quotes3 +:+ newline
  end.
(** the arguments every list has *)
Definition list_args : string :=
  "(" +:+ newline +:+
  "    ""A List Filter expression such as '{Field: \""position\"", Operation: \""<=\"", Argument: {Value: 10}}'""" +:+ newline +:+
  "    filter: ListFilter" +:+ newline +:+ newline +:+
  "    ""Sort the list, ie '{Field: \""position\"", Order: \""ASC\""}'""" +:+ newline +:+
  "    sort: ListSortParams" +:+ newline +:+ "  )".
Definition args_text (d : qdecl) : string :=
  match qd_type d with
  | QList _ _ => list_args
  | QText _ => match qd_args d with
               | [] => ""
               | args => "(" +:+ newline +:+ join "" (map (fun a => (if decide (a = "") then "" else "    " +:+ a) +:+ newline) args) +:+ "  )"
               end
  | QName _ _ => ""
  end.

(** ordered by Go name, and by the name of the Go struct *)
Fixpoint insert_qdecl (d : qdecl) (l : list qdecl) : list qdecl :=
  match l with [] => [d] | x :: l' => if str_le (qd_go d) (qd_go x) then d :: l else x :: insert_qdecl d l' end.
Definition fields_by_name (l : list qdecl) : list qdecl := foldr insert_qdecl [] l.
Fixpoint insert_qstruct (s : qstruct) (l : list qstruct) : list qstruct :=
  match l with [] => [s] | x :: l' => if str_le (qs_key s) (qs_key x) then s :: l else x :: insert_qstruct s l' end.
Definition types_by_name (l : list qstruct) : list qstruct := foldr insert_qstruct [] l.

(** types of the schema that have a meaning of their own *)
Definition reserved : list string := ["null"; ""; "array"; "object"; "boolean"; "number"; "integer"; "string"; "date-time"; "Any"; "graphql-hydration"].
Definition scalar_name (t : string) (date : bool) : option string :=
  if decide (t = "boolean") then Some "Boolean" else if decide (t = "number") then Some "Float" else if decide (t = "integer") then Some "Int"
  else if decide (t = "string") then (if date then None else Some "String") else None.

Section spec.
(** names with a capital letter, the renamed fields and types, the option Pointers; strings in quotes, strings without white space at either end *)
Context (title : string -> string) (rename types_map : string -> option string) (pointers : bool) (quote trim : string -> string).
(** a description that starts with DEPRECATED: has the reason on its first line *)
Definition deprecation (desc : string) : option (string * string) :=
  if has_prefix "DEPRECATED:" desc
  then Some (trim (drop_str 11 (hd "" (split desc newline))), trim (join newline (tl (split desc newline))))
  else None.
Definition show_field (required : bool) (d : qdecl) : string :=
  description_text "  " (match deprecation (qd_desc d) with Some (_, rest) => rest | None => qd_desc d end) +:+
  "  " +:+ qd_json d +:+ args_text d +:+ ": " +:+ qtype_text required (qd_type d) +:+
  (if is_list (qd_type d) then " @goField(forceResolver: true)" else "") +:+
  (match deprecation (qd_desc d) with Some (reason, _) => " @deprecated(reason: " +:+ quote reason +:+ ")" | None => "" end) +:+ newline.
(** [kind] is type or interface *)
Definition show_type (import kind impl : string) (s : qstruct) : string :=
  description_text "" (qs_desc s) +:+ kind +:+ " " +:+ qs_name s +:+ (if decide (impl = "") then "" else " implements " +:+ impl) +:+ " " +:+
  (if existsb (fun d => negb (is_virtual d)) (qs_fields s) then "@goModel(model: " +:+ quote (import +:+ "." +:+ title (qs_key s)) +:+ ") " else "") +:+
  "{" +:+ newline +:+ join newline (map (fun d => show_field (bool_decide (qd_json d ∈ qs_req s)) d) (qs_fields s)) +:+ "}" +:+ newline.
Definition show_types (import kind impl : string) (root : qstruct) (Ss : list qstruct) : string :=
  newline +:+ show_type import kind impl root +:+
  join "" (map (fun s => if qs_dead s then "" else newline +:+ show_type import "type" "" s) Ss).

(** ** what a property declares *)
Definition go_name (k : string) : string := title (default k (rename k)).
(** the name of the type for the property [k] of the type [G] *)
Definition sub_type (G k : string) : string := default (G +:+ title k) (types_map (G +:+ title k)).
(** non-null unless the option says that what is not required may be missing *)
Definition if_pointers : non_null := if pointers then NRequired else NAlways.
(** a type that is not a scalar of the schema *)
Definition named_type (n : string) : qtype := QName n (if decide (n = "DateTime") then NNever else if_pointers).
Definition or_target (target : string) (t : qtype) : qtype := if decide (target = "") then t else named_type target.

Definition total_of (i : instance) (k : string) : qdecl :=
  QDecl ((match deprecation (n_desc i) with Some _ => hd "" (split (n_desc i) newline) +:+ newline | None => "" end) +:+
         "The total length of the " +:+ default k (rename k) +:+ " list at this same level in the data, this number is unaffected by filtering.")
    (title ("total" +:+ go_name k)) ("total" +:+ go_name k) [] (QName "Int" NAlways).

(** [qholds P G dead k target null r t Ss]: the property [k] of the type [G] of the Go struct [P] holds values, not arrays, of the schema [r]. They have
    type [t], and for the objects in them there are the types [Ss]. [target]: the type that the schema names for the property;
    [null]: the property may be null; [dead]: the type [G] is left out. *)
Inductive qholds : string -> string -> bool -> string -> string -> bool -> tree -> qtype -> list qstruct -> Prop :=
| qholds_scalar P G dead k target null r i t b : d_inst false r = Ok i -> one_type i t -> scalar_name t (bool_decide (n_format i = "date-time")) = Some b ->
    qholds P G dead k target null r (or_target target (QName b (if null then if_pointers else NAlways))) []
| qholds_time P G dead k target null r i : d_inst false r = Ok i -> one_type i "string" -> n_format i = "date-time" ->
    qholds P G dead k target null r (or_target target (QName "DateTime" NNever)) []
| qholds_object P G dead k target null r i kp ps ds Ss : d_inst false r = Ok i -> one_type i "object" -> n_props i = Some (kp :: ps) ->
    sub_type G k ∉ reserved ->
    qdeclares_all (P +:+ title k) (sub_type G k) (dead || bool_decide (n_target i <> "")) (n_required i) (kp :: ps) ds Ss ->
    NoDup (kp :: ps).*1 -> NoDup (map qd_json ds) -> NoDup (map qd_go ds) ->
    qholds P G dead k target null r (or_target target (named_type (sub_type G k)))
      (QStruct (P +:+ title k) (sub_type G k) (n_desc i) (dead || bool_decide (n_target i <> "")) (n_required i) (fields_by_name ds) :: Ss)
(** an object whose properties are not known *)
| qholds_any P G dead k target null r i : d_inst false r = Ok i -> one_type i "object" -> n_props i = Some [] ->
    qholds P G dead k target null r (QName (if decide (target = "") then "Any" else target) NNever)
      [QStruct (P +:+ title k) (sub_type G k) (n_desc i) true (n_required i) []]
(** [qdeclares P G dead req k r ds Ss]: the property [k] of schema [r] declares the fields [ds] of the type [G]; [req]: it is required *)
with qdeclares : string -> string -> bool -> bool -> string -> tree -> list qdecl -> list qstruct -> Prop :=
| qdeclares_value P G dead req k r i t Ss : d_inst false r = Ok i -> field_name k -> qholds P G dead k (n_target i) (nullable i) r t Ss ->
    qdeclares P G dead req k r [QDecl (n_desc i) (go_name k) k (n_gargs i) t] Ss
| qdeclares_virtual P G dead req k r i : d_inst false r = Ok i -> field_name k -> one_type i "graphql-hydration" ->
    qdeclares P G dead req k r [QDecl (n_desc i) (go_name k) k (n_gargs i) (QText (n_target i))] []
(** for a list there is also a field with its length *)
| qdeclares_list P G dead req k r i x j t Ss : d_inst false r = Ok i -> field_name k -> one_type i "array" -> n_items i = Some x -> d_inst false x = Ok j ->
    (n_target i = "" -> n_target j = "") -> qholds P G dead k (n_target i) false x t Ss ->
    qdeclares P G dead req k r [total_of i k; QDecl (n_desc i) (go_name k) k (n_gargs i) (QList t if_pointers)] Ss
| qdeclares_list_virtual P G dead req k r i x j : d_inst false r = Ok i -> field_name k -> one_type i "array" -> n_items i = Some x -> d_inst false x = Ok j ->
    one_type j "graphql-hydration" ->
    qdeclares P G dead req k r [total_of i k; QDecl (n_desc i) (go_name k) k (n_gargs i)
      (QText (if decide (n_target i = "") then if decide (n_target j = "") then "" else "[" +:+ n_target j +:+ "]" +:+ mark if_pointers req else n_target i))] []
with qdeclares_all : string -> string -> bool -> list string -> list (string * tree) -> list qdecl -> list qstruct -> Prop :=
| qall_nil P G dead reqs : qdeclares_all P G dead reqs [] [] []
| qall_cons P G dead reqs k r ds Ss ps ds' Ss' : qdeclares P G dead (bool_decide (k ∈ reqs)) k r ds Ss -> qdeclares_all P G dead reqs ps ds' Ss' ->
    qdeclares_all P G dead reqs ((k, r) :: ps) (ds ++ ds') (Ss ++ Ss').
End spec.

(** The definitions that are in generated GraphQL files, as a reader of GraphQL sees them. *)
From stdpp Require Import strings list.
From Coq Require Import Ascii NArith.
From Verif Require Import GoStr Val Conv Schema Inst Load SpecGen SpecGql SpecDesc SpecSdl SpecDoc.

(** ** texts that are read back as they are *)
(** letters, digits, punctuation and spaces *)
Definition printable (c : ascii) : bool := bool_decide (32 <= code c <= 126)%N.
(** a description: of one line, without quotes and backslashes; or of several, as in C51 *)
Definition clear_text (desc : string) : bool :=
  bool_decide (desc = "") ||
  match split desc newline with
  | [_] => all_chars plain_char desc
  | ls =>
    all_chars source_char desc && all_chars (fun c => negb (bool_decide (c = c_return))) desc && negb (str_in quotes3 desc) &&
    existsb (fun l => negb (blank l) && bool_decide (indent l = 0)) ls && negb (blank (hd "" ls)) && negb (blank (List.last ls ""))
  end.
Definition said (desc : string) : option string := if decide (desc = "") then None else Some desc.
(** a type as it is usually written *)
Fixpoint typ_text (t : typ) : string :=
  match t with TyName n nn => n +:+ bang nn | TyList t nn => "[" +:+ typ_text t +:+ "]" +:+ bang nn end.
Fixpoint typ_names (t : typ) : list string := match t with TyName n _ => [n] | TyList t _ => typ_names t end.

(** ** the parts of a definition; None: the schema has something there that is not GraphQL *)
(** a type that is given as text *)
Definition typ_given (s : string) : option typ :=
  match lex_all s with
  | Some ts => match p_typ (S (length ts)) ts with Some (t, []) => if decide (typ_text t = s /\ Forall (fun n => gql_name n = true) (typ_names t)) then Some t else None | _ => None end
  | None => None
  end.
Fixpoint typ_of (required : bool) (t : qtype) : option typ :=
  match t with
  | QName n nn => if gql_name n then Some (TyName n (settled nn required)) else None
  | QList t nn => match typ_of required t with Some t => Some (TyList t (settled nn required)) | None => None end
  | QText s => typ_given s
  end.
(** the arguments of every list *)
Definition list_inputs : list input :=
  [Input (Some "A List Filter expression such as '{Field: ""position"", Operation: ""<="", Argument: {Value: 10}}'") "filter" (TyName "ListFilter" false) None [];
   Input (Some "Sort the list, ie '{Field: ""position"", Order: ""ASC""}'") "sort" (TyName "ListSortParams" false) None []].
(** the arguments that are given in the schema, which are lines of GraphQL; they are indented *)
Definition inputs_given (args : list string) : option (list input) :=
  match args with
  | [] => Some []
  | _ =>
    match lex_all (join "" (map (fun a => (if decide (a = "") then "" else "    " +:+ a) +:+ newline) args)) with
    | Some ts => match many1 (S (length ts)) (p_input (S (length ts))) ")" (ts ++ [LPunct ")"]) with Some (l, []) => Some l | _ => None end
    | None => None
    end
  end.
Definition inputs_of (d : qdecl) : option (list input) :=
  match qd_type d with QList _ _ => Some list_inputs | QText _ => inputs_given (qd_args d) | QName _ _ => Some [] end.

Section spec.
Context (title trim : string -> string) (import : string).
Definition field_of (required : bool) (d : qdecl) : option field :=
  let '(dirs, desc) :=
    match deprecation trim (qd_desc d) with
    | Some (reason, rest) => (if all_chars printable reason then Some [Directive "deprecated" [("reason", GStr reason)]] else None, rest)
    | None => (Some [], qd_desc d)
    end in
  match typ_of required (qd_type d), inputs_of d, dirs with
  | Some t, Some args, Some dirs =>
    if gql_name (qd_json d) && clear_text desc
    then Some (Field (said desc) (qd_json d) args t ((if is_list (qd_type d) then [Directive "goField" [("forceResolver", GName "true")]] else []) ++ dirs))
    else None
  | _, _, _ => None
  end.
(** [t]: type or interface, the interface that is implemented, if any, and the type *)
Definition def_of (t : string * string * qstruct) : option definition :=
  let '(kind, impl, s) := t in
  let model := import +:+ "." +:+ title (qs_key s) in
  match mapM (fun d => field_of (bool_decide (qd_json d ∈ qs_req s)) d) (qs_fields s) with
  | Some (f :: fs) =>
    if gql_name (qs_name s) && (bool_decide (impl = "") || gql_name impl) && clear_text (qs_desc s) && all_chars printable model
    then Some (DType kind (said (qs_desc s)) (qs_name s) (if decide (impl = "") then [] else [impl])
                 (if existsb (fun d => negb (is_virtual d)) (qs_fields s) then [Directive "goModel" [("model", GStr model)]] else []) (f :: fs))
    else None
  | _ => None
  end.
End spec.

Section files.
Context (title lower : string -> string) (structs_map types_map : string -> option string).
(** the types that are written for a schema, and for the objects in it *)
Definition with_objects (t : string * string * qstruct) (Ss : list qstruct) : list (string * string * qstruct) :=
  t :: map (fun s => ("type", "", s)) (filter (fun s => qs_dead s = false) (types_by_name Ss)).
Definition common_types (pkg : string) (schema : instance) (cs : list part) : list (string * string * qstruct) :=
  if has_all schema then with_objects (kind_of schema, "", common_type title structs_map types_map pkg schema cs) (all_S cs) else [].
Definition member_types (name : string) (schema : instance) (cs : list part) (m : instance) (c : part) : list (string * string * qstruct) :=
  with_objects (kind_of m, implemented title types_map name schema, member_type title lower structs_map types_map (has_all schema) cs m c) (p_S c).
Definition own_types (file : string) (schema : instance) (own : part) : list (string * string * qstruct) :=
  match n_allOf schema, n_oneOf schema with
  | [], [] => with_objects ("type", "", own_type title lower structs_map types_map file schema own) (p_S own)
  | _, _ => []
  end.
(** the files: their names, whether the scalar Any is declared, and the types *)
Definition doc_files (any files : bool) (file name pkg : string) (schema : instance) (cs os : list part) (own : part) : list (string * bool * list (string * string * qstruct)) :=
  let members := zip_with (fun m c => (file_of m, member_types name schema cs m c)) (n_oneOf schema) os in
  if files
  then (name +:+ ".graphqls", any, common_types pkg schema cs ++ own_types file schema own) :: map (fun nt => (member_file name nt.1, false, nt.2)) members
  else [(name +:+ ".graphqls", any, common_types pkg schema cs ++ mjoin members.*2 ++ own_types file schema own)].
End files.
(** the definitions of a file *)
Definition defs_of (title trim : string -> string) (import : string) (f : string * bool * list (string * string * qstruct)) : option (list definition) :=
  match mapM (def_of title trim import) f.2 with
  | Some ds => Some ((if f.1.2 then [DScalar None "Any" []] else []) ++ ds)
  | None => None
  end.

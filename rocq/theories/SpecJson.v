(** What becomes of a document that is read into a generated struct and written again, in terms of its schema. *)
From stdpp Require Import strings list gmap.
From Coq Require Import Ascii ZArith Floats.SpecFloat.
From Verif Require Import GoStr Val Conv Schema Inst Load SpecGen SpecNamed SpecGo GoJson.

(** ** declarations whose names are seen by encoding/json: the Go name is exported, the JSON name is made of letters, digits and some other
    characters, and the tag is not just a dash *)
Definition seen_name (req : bool) (json : string) : bool :=
  negb (bool_decide (json = "")) && negb (req && bool_decide (json = "-")) &&
  str_all (fun a => is_letter a || is_digit a ||
    bool_decide (a ∈ ["!"; "#"; "$"; "%"; "&"; "("; ")"; "*"; "+"; "-"; "."; "/"; ":"; ";"; "<"; "="; ">"; "?"; "@"; "["; "]"; "^"; "_"; "{"; "|"; "}"; "~"; " "]%char)) json.
Definition starts_upper (s : string) : bool := match s with String a _ => is_upper a | "" => false end.
Fixpoint seen (desc_tag : bool) (d : gdecl) : bool :=
  let 'GDecl desc go json req oty := d in
  match oty with
  | None => true
  | Some ty => starts_upper go && seen_name req json && (if desc_tag then quotable (first_line desc) else true) && seen_type desc_tag ty
  end
with seen_type (desc_tag : bool) (t : gtype) : bool :=
  match t with TPtr t | TSlice t => seen_type desc_tag t | TStruct ds => forallb (seen desc_tag) ds | _ => true end.

Section spec.
Context (W : oracles) (o_json_num : spec_float -> string) (o_fold : string -> string).
(** [flat]: structs are not nested; [pointers]: the option to use pointers *)
Context (flat pointers : bool).
(** ** kinds of properties *)
(** properties that are only for GraphQL: there is no field for them, or only a comment *)
Definition graphql_leaf (r : tree) : Prop := exists i, d_inst false r = Ok i /\ hydrated_leaf i.
Definition graphql_only (r : tree) : Prop :=
  graphql_leaf r \/ exists i x, d_inst false r = Ok i /\ one_type i "array" /\ n_items i = Some x /\ graphql_leaf x.
(** objects that say nothing about their members *)
Definition free_form (ps : list (string * tree)) : Prop := Forall (fun kr => graphql_leaf kr.2) ps.
Definition is_time (i : instance) : Prop := one_type i "string" /\ n_format i = "date-time".
(** a value is optional in Go if it may be null; with the option for pointers also times that are not required, and objects if structs are
    not nested *)
Definition optional (req : bool) (i : instance) : Prop :=
  nullable i = true \/ pointers = true /\ req = false /\ (is_time i \/ flat = true /\ one_type i "object").
Definition member (k : string) (kvs : list (string * json)) : option json := assocd k kvs.

(** ** documents of a schema
    The document is valid for the types, properties, required names and items of the schema; numbers fit in their Go types; times are of
    RFC 3339. Besides, there are no nulls in arrays, free-form objects have strings as members, and no member has a name that differs from
    that of a property only in the case of letters. *)
Inductive fits : tree -> json -> Prop :=
| fits_null r i : d_inst false r = Ok i -> nullable i = true -> fits r JNull
| fits_bool r i b : d_inst false r = Ok i -> one_type i "boolean" -> fits r (JBool b)
| fits_num r i lit f : d_inst false r = Ok i -> one_type i "number" -> o_parse_float W lit = Some f -> fits r (JNum lit)
| fits_int r i lit z : d_inst false r = Ok i -> one_type i "integer" -> atoi lit = Some z -> fits r (JNum lit)
| fits_str r i s : d_inst false r = Ok i -> one_type i "string" -> n_format i <> "date-time" -> fits r (JStr s)
| fits_time r i s t : d_inst false r = Ok i -> is_time i -> o_parse_time W rfc3339 s = Some t -> fits r (JStr s)
| fits_arr r i x l : d_inst false r = Ok i -> one_type i "array" -> n_items i = Some x -> (forall d, d ∈ l -> fits x d /\ d <> JNull) -> fits r (JArr l)
| fits_obj r i ps kvs : d_inst false r = Ok i -> one_type i "object" -> n_props i = Some ps -> fits_members (n_required i) ps kvs ->
    (free_form ps -> Forall (fun kd => exists s, kd.2 = JStr s) kvs) -> fits r (JObj kvs)
| fits_any r d : graphql_leaf r -> fits r d
with fits_members : list string -> list (string * tree) -> list (string * json) -> Prop :=
| fits_all reqs ps kvs : NoDup kvs.*1 -> (forall k, k ∈ ps.*1 -> k ∈ reqs -> k ∈ kvs.*1) ->
    (forall k r d, (k, r) ∈ ps -> (k, d) ∈ kvs -> fits r d) ->
    (forall k k', k ∈ ps.*1 -> k' ∈ kvs.*1 -> fold_name o_fold k = fold_name o_fold k' -> k = k') -> fits_members reqs ps kvs.

(** ** values that Go does not tell from missing ones: null, and false, 0, "", the first instant of the year 1 and objects with only such
    members, unless they are optional values in Go. [vacant req r d]: such a value of a property *)
Inductive vacant : bool -> tree -> json -> Prop :=
| vacant_null req r : vacant req r JNull
| vacant_false req r i : d_inst false r = Ok i -> ~ optional req i -> one_type i "boolean" -> vacant req r (JBool false)
| vacant_num req r i lit b : d_inst false r = Ok i -> ~ optional req i -> one_type i "number" -> o_parse_float W lit = Some (S754_zero b) -> vacant req r (JNum lit)
| vacant_int req r i lit : d_inst false r = Ok i -> ~ optional req i -> one_type i "integer" -> atoi lit = Some 0%Z -> vacant req r (JNum lit)
| vacant_str req r i : d_inst false r = Ok i -> ~ optional req i -> one_type i "string" -> n_format i <> "date-time" -> vacant req r (JStr "")
| vacant_time req r i s : d_inst false r = Ok i -> ~ optional req i -> is_time i -> o_parse_time W rfc3339 s = Some zero_time -> vacant req r (JStr s)
| vacant_obj req r i ps kvs : d_inst false r = Ok i -> ~ optional req i -> one_type i "object" -> n_props i = Some ps -> ~ free_form ps ->
    (forall k r' d, (k, r') ∈ ps -> (k, d) ∈ kvs -> ~ graphql_only r' -> vacant (bool_decide (k ∈ n_required i)) r' d) -> vacant req r (JObj kvs).
(** values of properties that are not required that are not written again *)
Inductive left_out : tree -> json -> Prop :=
| left_vacant r i d : d_inst false r = Ok i -> vacant false r d -> (d = JNull \/ ~ is_time i) -> left_out r d
| left_array r i : d_inst false r = Ok i -> one_type i "array" -> left_out r (JArr [])
| left_object r i ps : d_inst false r = Ok i -> one_type i "object" -> n_props i = Some ps -> free_form ps -> ~ optional false i -> left_out r (JObj []).

(** ** what is written: [comes_out r d e]: the value [d] of the schema [r] is written as [e] *)
Inductive comes_out : tree -> json -> json -> Prop :=
| out_null r : comes_out r JNull JNull
| out_bool r b : comes_out r (JBool b) (JBool b)
| out_num r i lit f : d_inst false r = Ok i -> one_type i "number" -> o_parse_float W lit = Some f -> comes_out r (JNum lit) (JNum (o_json_num f))
| out_int r i lit z : d_inst false r = Ok i -> one_type i "integer" -> atoi lit = Some z -> comes_out r (JNum lit) (JNum (itoa z))
| out_str r i s : d_inst false r = Ok i -> n_format i <> "date-time" -> comes_out r (JStr s) (JStr s)
| out_time r i s t : d_inst false r = Ok i -> is_time i -> o_parse_time W rfc3339 s = Some t -> comes_out r (JStr s) (JStr (o_fmt_time W rfc3339_nano t))
| out_arr r i x l l' : d_inst false r = Ok i -> n_items i = Some x -> Forall2 (comes_out x) l l' -> comes_out r (JArr l) (JArr l')
| out_free r i ps kvs es : d_inst false r = Ok i -> n_props i = Some ps -> free_form ps -> kvs ≡ₚ es -> comes_out r (JObj kvs) (JObj es)
| out_obj r i ps kvs es : d_inst false r = Ok i -> n_props i = Some ps -> ~ free_form ps -> members_out (n_required i) ps kvs es -> comes_out r (JObj kvs) (JObj es)
(** the members of an object, in any order *)
with members_out : list string -> list (string * tree) -> list (string * json) -> list (string * json) -> Prop :=
| out_members reqs ps kvs ess : Forall2 (fun kr es => member_out (bool_decide (kr.1 ∈ reqs)) kr.1 kr.2 (member kr.1 kvs) es) ps ess ->
    forall es, es ≡ₚ List.concat ess -> members_out reqs ps kvs es
(** what is written for a property [k], whose value is missing (None) or given *)
with member_out : bool -> string -> tree -> option json -> list (string * json) -> Prop :=
| out_graphql req k r od : graphql_only r -> member_out req k r od []
| out_missing k r i : ~ graphql_only r -> d_inst false r = Ok i -> ~ (is_time i /\ ~ optional false i) -> member_out false k r None []
| out_no_time k r i : d_inst false r = Ok i -> is_time i -> ~ optional false i ->
    member_out false k r None [(k, JStr (o_fmt_time W rfc3339_nano zero_time))]
| out_left k r d : ~ graphql_only r -> left_out r d -> member_out false k r (Some d) []
| out_kept req k r d e : ~ graphql_only r -> (req = false -> ~ left_out r d) -> comes_out r d e -> member_out req k r (Some d) [(k, e)].
End spec.

(** Vocabulary for C73: what a JSON schema says, keyword by keyword, and the Instance that reports it. *)
From stdpp Require Import strings list.
From Verif Require Import Val Inst.

(** the members of a schema document: keyword [k] has the value [v]; it has none, or null *)
Definition given (kvs : list (string * tree)) (k : string) (v : tree) : Prop := (k, v) ∈ kvs.
Definition unset (kvs : list (string * tree)) (k : string) : Prop := forall v, given kvs k v -> v = TS SNil.

(** a keyword with a boolean, [b0] if it is unset *)
Definition says_bool (kvs : list (string * tree)) (k : string) (b0 b : bool) : Prop :=
  unset kvs k /\ b = b0 \/ given kvs k (TS (SBool b)).
(** a keyword with a string, "" if it is unset *)
Definition says_str (kvs : list (string * tree)) (k : string) (s : string) : Prop :=
  unset kvs k /\ s = "" \/ given kvs k (TS (SStr s)).
(** an array of strings; null among them counts as "" *)
Definition string_or_null (t : tree) (s : string) : Prop := t = TS (SStr s) \/ t = TS SNil /\ s = "".
Definition says_strs (kvs : list (string * tree)) (k : string) (l : list string) : Prop :=
  unset kvs k /\ l = [] \/ exists ts, given kvs k (TArr ts) /\ Forall2 string_or_null ts l.
(** a type: one string, or an array of strings *)
Definition says_type (kvs : list (string * tree)) (k : string) (l : option (list string)) : Prop :=
  unset kvs k /\ l = None \/
  (exists s, given kvs k (TS (SStr s)) /\ l = Some [s]) \/
  (exists ts ss, given kvs k (TArr ts) /\ Forall2 string_or_null ts ss /\ l = Some ss).
(** an object whose members are kept as they are, and a value kept as it is *)
Definition says_members (kvs : list (string * tree)) (k : string) (l : option (list (string * tree))) : Prop :=
  unset kvs k /\ l = None \/ exists ps, given kvs k (TObj ps) /\ l = Some ps.
Definition says_raw (kvs : list (string * tree)) (k : string) (r : option tree) : Prop :=
  match r with Some t => given kvs k t | None => forall t, ~ given kvs k t end.
(** an array of schemas *)
Definition says_schemas (R : tree -> instance -> Prop) (kvs : list (string * tree)) (k : string) (l : list instance) : Prop :=
  unset kvs k /\ l = [] \/ exists ts, given kvs k (TArr ts) /\ Forall2 R ts l.

(** [i] reports the schema [t]; additionalProperties is [addl] if the schema does not say *)
Inductive reads : bool -> tree -> instance -> Prop :=
| reads_null addl : reads addl (TS SNil) (Inst addl [] [] "" None false "" "" [] None [] None "" [] "" "" None)
| reads_obj addl kvs i :
    says_bool kvs "additionalProperties" addl (n_addl i) ->
    says_schemas (reads false) kvs "allOf" (n_allOf i) ->
    says_schemas (reads false) kvs "anyOf" (n_anyOf i) ->
    says_str kvs "description" (n_desc i) ->
    says_raw kvs "definitions" (n_defs i) ->
    says_bool kvs "embed" false (n_embed i) ->
    says_str kvs "format" (n_format i) ->
    says_str kvs "fromRef" (n_fromRef i) ->
    says_strs kvs "graphql-arguments" (n_gargs i) ->
    says_raw kvs "items" (n_items i) ->
    says_schemas (reads false) kvs "oneOf" (n_oneOf i) ->
    says_members kvs "properties" (n_props i) ->
    says_str kvs "$ref" (n_ref i) ->
    says_strs kvs "required" (n_required i) ->
    says_str kvs "$schema" (n_schema i) ->
    says_str kvs "target" (n_target i) ->
    says_type kvs "type" (n_type i) ->
    reads addl (TObj kvs) i.

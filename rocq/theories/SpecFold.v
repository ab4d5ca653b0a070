(** Member names of schemas (C85). *)
From stdpp Require Import strings list gmap.
From Verif Require Import GoStr Val Conv Schema Inst Load GoJson Fold.

(** [foreign o_fold k]: the name is not that of a keyword, in whatever case *)
Definition foreign (o_fold : string -> string) (k : string) : Prop := forall n, n ∈ keywords -> fold_name o_fold n <> fold_name o_fold k.
(** Every member of the schema, and of the schemas in its allOf, anyOf and oneOf, is named exactly as a keyword or has a foreign name, and no
    name occurs twice. *)
Inductive exact (o_fold : string -> string) : tree -> Prop :=
| exact_null : exact o_fold (TS SNil)
| exact_obj kvs : NoDup kvs.*1 -> Forall (fun kv => kv.1 ∈ keywords \/ foreign o_fold kv.1) kvs ->
    (forall k l x, k ∈ ["allOf"; "anyOf"; "oneOf"] -> (k, TArr l) ∈ kvs -> x ∈ l -> exact o_fold x) -> exact o_fold (TObj kvs).

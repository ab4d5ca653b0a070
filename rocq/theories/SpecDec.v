(** Which instances of a schema fit the Instance type: every member that is read has the kind of value its
    field holds, or is null. Other members may be anything. *)
From stdpp Require Import strings list.
From Verif Require Import GoStr Val Schema.

Definition a_bool (v : tree) : Prop := v = TS SNil \/ exists b, v = TS (SBool b).
Definition a_text (v : tree) : Prop := v = TS SNil \/ exists s, v = TS (SStr s).
Definition some_texts (v : tree) : Prop := v = TS SNil \/ exists l, v = TArr l /\ forall x, x ∈ l -> a_text x.
Inductive fits : tree -> Prop :=
| fits_null : fits (TS SNil)
| fits_obj kvs :
    (forall k v, k ∈ ["additionalProperties"; "embed"] -> assoc k kvs = Some v -> a_bool v) ->
    (forall k v, k ∈ ["description"; "format"; "fromRef"; "$ref"; "$schema"; "target"] -> assoc k kvs = Some v -> a_text v) ->
    (forall k v, k ∈ ["graphql-arguments"; "required"] -> assoc k kvs = Some v -> some_texts v) ->
    (forall v, assoc "type" kvs = Some v -> a_text v \/ some_texts v) ->
    (forall v, assoc "properties" kvs = Some v -> v = TS SNil \/ exists ps, v = TObj ps) ->
    (forall k v, k ∈ ["allOf"; "anyOf"; "oneOf"] -> assoc k kvs = Some v -> v = TS SNil \/ exists l, v = TArr l /\ forall x, x ∈ l -> fits x) ->
    fits (TObj kvs).

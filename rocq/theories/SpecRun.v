(** Vocabulary for the properties of whole transformers: histories, iteration orders, documents, and the
    schemas whose transforms share no mutable state. *)
From stdpp Require Import strings list gmap.
From Coq Require Import ZArith.
From Verif Require Import GoStr Val Conv Instr Heap Schema Build Api SpecPath Den SpecSchema SpecProj.

(** Go may iterate over a map in any order, each time *)
Definition orders (perm : nat -> nat -> list nat) : Prop := forall t n, perm t n ≡ₚ List.seq 0 n.

(** a call of the API: Transform or TransformNoValidation on a text *)
Inductive call := Validated (raw : string) | Unvalidated (raw : string).
Definition serve (W : oracles) (E : env) (perm : nat -> nat -> list nat) (f : fmt) (i : itr) (c : call) : M tree :=
  match c with
  | Validated raw => transform W E perm f i raw
  | Unvalidated raw => transform_no_validation W E perm f i raw
  end.
(** The states of a Transformer [i] built for a schema (properties [props], items [items]) and transform
    [tid]: those after any sequence of calls, with any results and any iteration orders. *)
Inductive state (W : oracles) (E : env) (f : fmt) (tid : string) (props : option (list (string * tree)))
    (items : option tree) (i : itr) : st -> Prop :=
| state_new s : new_transformer W tid props items st0 = (s, Ok i) -> state W E f tid props items i s
| state_call s perm c : state W E f tid props items i s -> orders perm ->
    state W E f tid props items i (fst (serve W E perm f i c s)).

(** the same document, or both fail *)
Definition same (r1 r2 : res tree) : Prop :=
  match r1, r2 with
  | Ok t1, Ok t2 => t1 = t2
  | Ok _, _ | _, Ok _ => False
  | _, _ => True
  end.

(** what json.Unmarshal produces: distinct member names *)
Definition unmarshals (E : env) : Prop := forall raw doc, e_json E raw = Some doc -> distinct_keys doc.

(** property names at every level: distinct and free of path metacharacters; members of defaults distinct *)
Definition well_named1 (r : tree) : Prop :=
  (forall nl ps, field_type r = Ok ("object", nl) -> jlookup "properties" r = Some (TObj ps) ->
     NoDup ps.*1 /\ Forall (fun kp => plain_name kp.1) ps) /\
  distinct_keys (dflt_of r).
Definition well_named (props : option (list (string * tree))) (items : option tree) : Prop :=
  (forall ps, props = Some ps -> NoDup ps.*1 /\ Forall (fun kp => plain_name kp.1) ps) /\
  forall σ r, sinst (default [] props) items σ r -> well_named1 r.

(** Instances that share no mutable state between evaluations: `last` has at most one entry; objects with
    properties have no default, and for JSON input no transform; for JSON input arrays have neither. *)
Definition tame1 (W : oracles) (tid : string) (f : fmt) (r : tree) : Prop :=
  (forall t delim from, jlookup "transform" r ≫= jlookup tid = Some t ->
     dec_tis W t = Ok (MLast, delim, from) -> length from <= 1) /\
  (forall nl ps, field_type r = Ok ("object", nl) -> jlookup "properties" r = Some (TObj ps) -> ps <> [] ->
     dflt_of r = TS SNil /\ (f = FJson -> jlookup "transform" r ≫= jlookup tid = None)) /\
  (forall nl, field_type r = Ok ("array", nl) -> f = FJson ->
     dflt_of r = TS SNil /\ jlookup "transform" r ≫= jlookup tid = None).
Definition tame (W : oracles) (tid : string) (f : fmt) (props : option (list (string * tree))) (items : option tree) : Prop :=
  forall σ r, sinst (default [] props) items σ r -> tame1 W tid f r.

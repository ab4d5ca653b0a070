(** Properties of schemas and of walking them: C27 to C29. *)
From stdpp Require Import strings list gmap.
From Coq Require Import ZArith.
From Verif Require Import GoStr Val Schema Inst SpecPath SpecSchema SpecWalk World Cases.
From Verif Require Import WalkL WalkC.

(** C27. A list of type names: two or more names other than null are an error, one is the type, and the
    field is nullable iff the list contains null; ... *)
Theorem C27_type_list r l : jlookup "type" r = Some (TArr l) -> ~ ("" ∈ names_in l) ->
  (2 <= length (filter (fun s => s <> "null") (names_in l)) -> field_type r = Err) /\
  (forall t, filter (fun s => s <> "null") (names_in l) = [t] -> field_type r = Ok (t, bool_decide ("null" ∈ names_in l))) /\
  (filter (fun s => s <> "null") (names_in l) = [] -> field_type r = Ok ("", bool_decide ("null" ∈ names_in l))).
Proof. exact (field_type_names r l). Qed.
Print Assumptions C27_type_list.
(** ... the order of the list does not matter; ... *)
Theorem C27_order_irrelevant r r' l l' : jlookup "type" r = Some (TArr l) -> jlookup "type" r' = Some (TArr l') -> l ≡ₚ l' ->
  ~ ("" ∈ names_in l) -> field_type r = field_type r'.
Proof. exact (field_type_perm r r' l l'). Qed.
Print Assumptions C27_order_irrelevant.
(** ... a single name is the type and not nullable, and a type that is missing or neither a string nor a
    list is an error. *)
Theorem C27_single_or_missing r :
  (forall s, jlookup "type" r = Some (TS (SStr s)) -> field_type r = Ok (s, false)) /\
  (jlookup "type" r = None -> field_type r = Err) /\
  (forall t, jlookup "type" r = Some t -> (forall s, t <> TS (SStr s)) -> (forall l, t <> TArr l) -> field_type r = Err).
Proof. exact (field_type_other r). Qed.
Print Assumptions C27_single_or_missing.
Example C27_case :
  field_type (TObj [("type", TArr [jstr "null"; jstr "string"])]) = Ok ("string", true) /\
  field_type (TObj [("type", TArr [jstr "string"; jstr "null"; jstr "number"])]) = Err /\
  field_type (TObj [("format", jstr "x")]) = Err.
Proof. done. Qed.

(** C28. For every schema with distinct, non-empty property names there is one list of instances and one
    outcome such that, for every callback, WalkRaw calls it on that list in order until a call fails, and
    else ends with the outcome. The list holds only instances of the schema under their paths, none twice
    and parents first; all of them if the outcome is a success, which it is iff every instance has one
    type, properties if it is an object and items if it is an array. *)
Theorem C28_walk_raw props items : named props -> (forall σ r, sinst props items σ r -> props_named r) ->
  exists vs final,
    (forall S (fn : string -> tree -> S -> S * res unit) s, walk_raw_schema fn props items s = calls fn vs final s) /\
    (forall σ r, (σ, r) ∈ vs -> sinst props items σ r) /\
    (final = Ok tt -> forall σ r, sinst props items σ r -> (σ, r) ∈ vs) /\
    once vs /\ parents_first vs /\
    (final = Ok tt <-> forall σ r, sinst props items σ r -> raw_fine r) /\ (final = Ok tt \/ final = Err).
Proof. exact (walk_raw_visits props items). Qed.
Print Assumptions C28_walk_raw.
(** Walk does the same with the decoded instances, whatever the iteration order of the property maps. *)
Theorem C28_walk ord props items : map_order ord -> named (default [] props) ->
  (forall σ r, swinst (default [] props) items σ r -> props_named r) ->
  exists vs is final,
    (forall S (fn : string -> instance -> S -> S * res unit) s, walk_schema fn ord props items s = calls fn is final s) /\
    Forall2 (fun v i => v.1 = i.1 /\ d_inst false v.2 = Ok i.2) vs is /\
    (forall σ r, (σ, r) ∈ vs -> swinst (default [] props) items σ r) /\
    (final = Ok tt -> forall σ r, swinst (default [] props) items σ r -> (σ, r) ∈ vs) /\
    once vs /\ parents_first vs /\
    (final = Ok tt <-> forall σ r, swinst (default [] props) items σ r -> inst_fine r) /\ (final = Ok tt \/ final = Err).
Proof. exact (walk_visits ord props items). Qed.
Print Assumptions C28_walk.
(** an object in an array in an object *)
Definition walked : list (string * tree) :=
  [("a", typed "string" []);
   ("b", obj_schema [("c", arr_schema (obj_schema [("d", typed "number" [])] []) [])] [])].
Definition backwards (_ : string) (l : list string) : list string := rev l.
Example C28_case :
  map fst (walk_raw_schema record walked None []).1 = ["$.a"; "$.b"; "$.b.c"; "$.b.c[*]"; "$.b.c[*].d"] /\
  map fst (walk_schema record backwards (Some walked) None []).1 = ["$.b"; "$.b.c"; "$.b.c[*]"; "$.b.c[*].d"; "$.a"] /\
  (walk_schema record backwards (Some walked) None []).2 = Ok tt.
Proof. vm_compute. done. Qed.
Example C28_hypotheses : named walked /\ map_order backwards.
Proof.
  split; [split|].
  - refine (bool_decide_eq_true_1 (NoDup _) _). vm_compute. done.
  - by repeat constructor.
  - intros p l. unfold backwards. symmetry. apply Permutation_rev.
Qed.

(** C29. Both walks agree if every instance has one type and decodes. ... *)
Theorem C29_walks_agree_partial ord props items l1 r1 l2 r2 : map_order ord -> named (default [] props) ->
  (forall σ r, sinst (default [] props) items σ r ->
     props_named r /\ (exists ty nl, field_type r = Ok (ty, nl)) /\ exists i, d_inst false r = Ok i) ->
  walk_raw_schema record (default [] props) items [] = (l1, r1) ->
  walk_schema record ord props items [] = (l2, r2) ->
  (r1 = Ok tt <-> r2 = Ok tt) /\
  (r1 = Ok tt -> exists l3, l3 ≡ₚ l1 /\ Forall2 (fun a b => a.1 = b.1 /\ d_inst false a.2 = Ok b.2) l3 l2).
Proof. exact (walks_agree ord props items l1 r1 l2 r2). Qed.
Print Assumptions C29_walks_agree_partial.
(** ... They do not agree if an instance has a schema as its additionalProperties: WalkRaw accepts it,
    Walk fails. *)
Theorem C29_walks_agree_refuted :
  exists props, named props /\ (forall σ r, sinst props None σ r -> props_named r /\ exists ty nl, field_type r = Ok (ty, nl)) /\
  (walk_raw_schema record props None []).2 = Ok tt /\
  forall ord, map_order ord -> (walk_schema record ord (Some props) None []).2 = Err.
Proof. exact walks_disagree. Qed.
Print Assumptions C29_walks_agree_refuted.
Example C29_case : forall σ r, sinst walked None σ r ->
   props_named r /\ (exists ty nl, field_type r = Ok (ty, nl)) /\ exists i, d_inst false r = Ok i.
Proof. apply (all_sinst_ok walked None). vm_compute. done. Qed.

(** C34: documents with references that go round in a circle. Vocabulary: SpecSelf.v. *)
From stdpp Require Import strings list gmap.
From Verif Require Import GoStr Val Schema Inst Load SpecRef SpecSelf SelfL CaseSelf.
From Verif Require Den.

(** C34. A document with endless references, such as an object that contains a reference to itself, is never dereferenced, however long it takes: ... *)
Theorem C34_endless_references_never F lf path o : Den.distinct_keys (TObj o) -> sound_sources F lf -> endless_references F path (TObj o) ->
  forall n d, dereference F lf path n (TObj o) <> Some (Ok d).
Proof. exact (endless_never F lf path o). Qed.
Print Assumptions C34_endless_references_never.
(** ... its file is never loaded. *)
Theorem C34_endless_file_never F ty fl path o : f_file F path = Some (TObj o) -> Den.distinct_keys (TObj o) -> (forall n, sound_sources F (load_schema F ty fl n)) ->
  endless_references F path (TObj o) -> forall n j, load_schema F ty fl n path <> Some (Ok j).
Proof. exact (endless_load F ty fl path o). Qed.
Print Assumptions C34_endless_file_never.
Example C34_endless_case : f_file tree_file "/s/tree.json" = Some (TObj tree_doc) /\ Den.distinct_keys (TObj tree_doc) /\
  (forall n, sound_sources tree_file (load_schema tree_file "" true n)) /\ endless_references tree_file "/s/tree.json" (TObj tree_doc).
Proof. exact (conj eq_refl (conj tree_distinct (conj (tree_sound "" true) tree_endless))). Qed.

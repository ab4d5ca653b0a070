(** C42: arrays of arrays are never generated as slices of slices. Vocabulary: SpecSlice.v, SpecWalk.v. *)
From stdpp Require Import strings list gmap.
From Verif Require Import GoStr Val Conv Schema Inst Load SpecPath SpecWalk WalkL SpecGen Gen World Cases CaseGen SpecSlice SliceL CaseSlice.

(** C42. Whatever the schema and the options, no field of the generated structs, at any depth, has a slice of slices as its type, so
    the property fails for every schema with an array of arrays. The conditions: names are distinct, and neither the types in the schema nor
    the name of the struct begin with a bracket. *)
Theorem C42_never W A ord schema name embeds g f pointers required : map_order ord -> named (default [] (n_props schema)) ->
  (forall σ r, swinst (default [] (n_props schema)) (n_items schema) σ r -> props_named r) ->
  (forall σ r i t, swinst (default [] (n_props schema)) (n_items schema) σ r -> d_inst false r = Ok i -> t ∈ types i -> no_bracket t) ->
  go_title W name <> "" -> no_bracket (go_title W name) ->
  new_file W A ord schema name embeds = Ok g -> file_field g f -> ~ slice_of_slices (go_type pointers required (gf_nested g) f).
Proof. exact (never_slices W A ord schema name embeds g f pointers required). Qed.
Print Assumptions C42_never.
Example C42_never_case : map_order same_order /\ named rows_props /\ (forall σ r, swinst rows_props None σ r -> props_named r) /\
  (forall σ r i t, swinst rows_props None σ r -> d_inst false r = Ok i -> t ∈ types i -> no_bracket t) /\
  go_title W0 "root" = "Root" /\
  exists g f, new_file W0 plain_args same_order (schema_of rows_props []) "root" [] = Ok g /\ file_field g f.
Proof. split_and!; [exact same_map_order|named_ok|exact rows_named|exact rows_types|vm_compute; reflexivity|exact rows_made]. Qed.

(** Properties of generated structs: C39 to C42 and C44. *)
From stdpp Require Import strings list gmap.
From Coq Require Import Ascii ZArith.
From Verif Require Import GoStr GoStrL Val Conv Schema Inst Load SpecPath SpecWalk WalkL SpecLoad SpecGen Gen GenP GenT GenU World Cases CaseGen.

(** C39. The file generated for a schema whose properties declare the fields [ds], with distinct Go names, is the
    one with a struct of these fields, ordered by name, nested as the schema is. *)
Theorem C39_file W A ord schema name embeds es ds : a_noNested A = false -> map_order ord -> n_items schema = None ->
  NoDup (default [] (n_props schema)).*1 ->
  declares_all (exported W) (a_fieldNames A) (a_pointers A) (n_required schema) (default [] (n_props schema)) ds -> NoDup (map d_go ds) ->
  embeds_as (exported W) (a_structNames A) (a_embed A) (n_allOf schema) es ->
  exists g, new_file W A ord schema name embeds = Ok g /\
    forall pkg ord', key_order ord' -> file_text W A ord' pkg g = show_file (a_descTag A) pkg (exported W name) (embeds ++ es) (by_name ds).
Proof. exact (gen_file W A ord schema name embeds es ds). Qed.
Print Assumptions C39_file.
(** The fields are one for each property that is not hydrated, with its name in the tag. *)
Theorem C39_one_each title rename pointers reqs ps ds : declares_all title rename pointers reqs ps ds ->
  map d_json ds = omap own_name ps.
Proof. exact (declares_each title rename pointers reqs ps ds). Qed.
Print Assumptions C39_one_each.
Example C39_case : n_items (schema_of gen_props ["name"]) = None /\ NoDup gen_props.*1 /\
  declares_all (exported W0) (a_fieldNames gen_args) (a_pointers gen_args) ["name"] gen_props gen_decls /\ NoDup (map d_go gen_decls) /\
  text_of gen_args other_order backwards (schema_of gen_props ["name"]) = show_file false "pkg" "Root" [] (by_name gen_decls).
Proof. split_and!; [done|nodup|exact gen_declared|nodup|vm_compute; reflexivity]. Qed.
(** C40. The text does not depend on the orders in which maps are iterated, when Go names do not collide. *)
Theorem C40_deterministic_partial W A ord1 ord2 schema name embeds es ds : a_noNested A = false -> map_order ord1 -> map_order ord2 ->
  n_items schema = None -> NoDup (default [] (n_props schema)).*1 ->
  declares_all (exported W) (a_fieldNames A) (a_pointers A) (n_required schema) (default [] (n_props schema)) ds -> NoDup (map d_go ds) ->
  embeds_as (exported W) (a_structNames A) (a_embed A) (n_allOf schema) es ->
  exists g1 g2, new_file W A ord1 schema name embeds = Ok g1 /\ new_file W A ord2 schema name embeds = Ok g2 /\
    forall pkg ord3 ord4, key_order ord3 -> key_order ord4 -> file_text W A ord3 pkg g1 = file_text W A ord4 pkg g2.
Proof. exact (deterministic W A ord1 ord2 schema name embeds es ds). Qed.
Print Assumptions C40_deterministic_partial.
Example C40_case : map_order same_order /\ map_order other_order /\ key_order as_is /\ key_order backwards /\
  text_of gen_args same_order as_is (schema_of gen_props ["name"]) = text_of gen_args other_order backwards (schema_of gen_props ["name"]) /\
  text_of gen_args same_order as_is (schema_of gen_props ["name"]) <> "".
Proof. split_and!; [exact same_map_order|exact other_map_order|exact as_is_order|exact backwards_order|vm_compute; reflexivity|vm_compute; discriminate]. Qed.
(** Two properties whose Go names are the same: which of them is written, twice, depends on the order. *)
Theorem C40_collision_refuted : exists schema ord1 ord2, key_order ord1 /\ key_order ord2 /\ n_items schema = None /\ named (default [] (n_props schema)) /\
  text_of plain_args same_order ord1 schema <> text_of plain_args same_order ord2 schema /\ text_of plain_args same_order ord1 schema <> "".
Proof.
  exists (schema_of [("fooBar", typed "string" []); ("FooBar", typed "number" [])] []), as_is, backwards.
  split_and!; [exact as_is_order|exact backwards_order|done|named_ok|vm_compute; discriminate|vm_compute; discriminate].
Qed.
Print Assumptions C40_collision_refuted.

(** C41. The line of a property that is neither an object nor an array: the Go type of its JSON type, a pointer exactly when the
    property may be null, or it is a date-time that is not required and pointers were asked for. *)
Theorem C41_scalar_line W A ord schema name embeds es ds k r i t go : a_noNested A = false -> map_order ord -> n_items schema = None ->
  NoDup (default [] (n_props schema)).*1 ->
  declares_all (exported W) (a_fieldNames A) (a_pointers A) (n_required schema) (default [] (n_props schema)) ds -> NoDup (map d_go ds) ->
  embeds_as (exported W) (a_structNames A) (a_embed A) (n_allOf schema) es ->
  (k, r) ∈ default [] (n_props schema) -> d_inst false r = Ok i -> one_type i t -> go_scalar t (n_format i) = Some go ->
  exists g, new_file W A ord schema name embeds = Ok g /\ forall pkg ord', key_order ord' -> exists a b, file_text W A ord' pkg g =
    a +:+ tabulator +:+ exported W (default k (a_fieldNames A k)) +:+ tabulator +:+
    (if nullable i || (a_pointers A && bool_decide (k ∉ n_required schema) && bool_decide (go = "time.Time")) then "*" else "") +:+ go +:+ tabulator +:+
    "`json:" +:+ in_quotes (k +:+ (if decide (k ∈ n_required schema) then "" else ",omitempty")) +:+ b.
Proof. exact (field_line W A ord schema name embeds es ds k r i t go). Qed.
Print Assumptions C41_scalar_line.
Example C41_case : ("born", types_schema ["string"; "null"] [("format", jstr "date-time")]) ∈ gen_props /\
  one_type (inst_of (types_schema ["string"; "null"] [("format", jstr "date-time")])) "string" /\
  go_scalar "string" (n_format (inst_of (types_schema ["string"; "null"] [("format", jstr "date-time")]))) = Some "time.Time".
Proof. split_and!; [right; left|onet|vm_compute; reflexivity]. Qed.
(** With pointers, an object that is not required is no pointer when structs are nested. *)
Definition pointer_args : args := Args false false true false no_names no_names.
Theorem C41_object_pointer_refuted : exists schema k r i, n_items schema = None /\ named (default [] (n_props schema)) /\
  (k, r) ∈ default [] (n_props schema) /\ d_inst false r = Ok i /\ one_type i "object" /\ k ∉ n_required schema /\
  text_of pointer_args same_order as_is schema <> "" /\ str_in "*" (text_of pointer_args same_order as_is schema) = false.
Proof.
  set (r := obj_of [("x", typed "string" [])] []). exists (schema_of [("a", r)] []), "a", r, (inst_of r).
  split_and!; [done|named_ok|left|vm_compute; reflexivity|onet|apply not_elem_of_nil|vm_compute; discriminate|vm_compute; reflexivity].
Qed.
Print Assumptions C41_object_pointer_refuted.
(** An array that may be null is a slice of pointers. *)
Theorem C41_null_array_refuted : exists schema k r i x j, n_items schema = None /\ named (default [] (n_props schema)) /\
  (k, r) ∈ default [] (n_props schema) /\ d_inst false r = Ok i /\ one_type i "array" /\ nullable i = true /\
  n_items i = Some x /\ d_inst false x = Ok j /\ types j = ["string"] /\
  str_in "[]*string" (text_of plain_args same_order as_is schema) = true.
Proof.
  set (r := types_schema ["array"; "null"] [("items", typed "string" [])]). exists (schema_of [("a", r)] []), "a", r, (inst_of r), (typed "string" []), (inst_of (typed "string" [])).
  split_and!; [done|named_ok|left|vm_compute; reflexivity|onet|vm_compute; reflexivity|vm_compute; reflexivity|vm_compute; reflexivity|vm_compute; reflexivity|vm_compute; reflexivity].
Qed.
Print Assumptions C41_null_array_refuted.

(** C42. An array of arrays is not generated as a slice of slices: the only field is one for its items, and its name is not a Go name. *)
Theorem C42_depth_refuted : exists schema k r, n_items schema = None /\ named (default [] (n_props schema)) /\ (k, r) ∈ default [] (n_props schema) /\
  r = arr_schema (arr_schema (typed "string" []) []) [] /\
  str_in "[][]string" (text_of plain_args same_order as_is schema) = false /\
  str_in ("A[*]" +:+ tabulator +:+ "string") (text_of plain_args same_order as_is schema) = true.
Proof.
  set (r := arr_schema (arr_schema (typed "string" []) []) []). exists (schema_of [("a", r)] []), "a", r.
  split_and!; [done|named_ok|left|done|vm_compute; reflexivity|vm_compute; reflexivity].
Qed.
Print Assumptions C42_depth_refuted.

(** C44. With two or more types besides null anywhere in the schema there is no file, unless structs are not nested and one of the
    types is object. *)
Theorem C44_rejected W A ord schema name embeds k τ r i x y l : map_order ord -> named (default [] (n_props schema)) ->
  (forall σ r, swinst (default [] (n_props schema)) (n_items schema) σ r -> props_named r) ->
  swinst (default [] (n_props schema)) (n_items schema) (Nm k :: τ) r -> field_name k -> d_inst false r = Ok i -> ~ hydrated i ->
  filter (fun t => t <> "null") (types i) = x :: y :: l -> x <> "" -> (a_noNested A = false \/ "object" ∉ types i) ->
  forall g, new_file W A ord schema name embeds <> Ok g.
Proof. exact (union_rejected W A ord schema name embeds k τ r i x y l). Qed.
Print Assumptions C44_rejected.
(** ... and a single type besides null is accepted: C39_file. *)
Definition union_props : list (string * tree) := [("a", obj_of [("b", types_schema ["string"; "null"; "number"] [])] [])].
Example C44_case : named union_props /\ swinst union_props None (Nm "a" :: [Nm "b"]) (types_schema ["string"; "null"; "number"] []) /\ field_name "a" /\
  filter (fun t => t <> "null") (types (inst_of (types_schema ["string"; "null"; "number"] []))) = "string" :: "number" :: [].
Proof.
  split_and!; [named_ok| |fname|vm_compute; reflexivity].
  eapply swinst_prop; [left|]. eapply winst_prop; [refine (bool_decide_eq_true_1 _ _); vm_compute; reflexivity|vm_compute; reflexivity|left|constructor].
Qed.
Theorem C44_not_nested_refuted : exists schema r i g, n_items schema = None /\ named (default [] (n_props schema)) /\ ("a", r) ∈ default [] (n_props schema) /\
  d_inst false r = Ok i /\ types i = ["object"; "string"] /\ new_file W0 flat_args same_order schema "root" [] = Ok g.
Proof.
  set (r := types_schema ["object"; "string"] [("properties", TObj [("x", typed "string" [])])]). set (s := schema_of [("a", r)] []).
  exists s, r, (inst_of r). destruct (new_file W0 flat_args same_order s "root" []) as [g| |] eqn:E; [exists g|vm_compute in E; discriminate E..].
  split_and!; [done|named_ok|left|vm_compute; reflexivity|vm_compute; reflexivity|done].
Qed.
Print Assumptions C44_not_nested_refuted.

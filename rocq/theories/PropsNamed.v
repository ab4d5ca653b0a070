(** Properties of generated structs that are not nested: C39 to C41 and C43. *)
From stdpp Require Import strings list gmap.
From Coq Require Import Ascii ZArith.
From Verif Require Import GoStr GoStrL Val Conv Schema Inst Load SpecConv SpecPath SpecWalk WalkL SpecLoad SpecGen SpecNamed Gen GenP GenT NamedK NamedU World Cases CaseGen CaseNamed.

(** C43. When no two objects of the schema are on ways whose names are the same when put together, the file has one struct
    for each object, with the fields of its properties. *)
Theorem C43_own_types_partial W A root_name ord schema embeds es ds Ss : a_noNested A = true -> map_order ord -> n_items schema = None ->
  NoDup (default [] (n_props schema)).*1 ->
  ndeclares_all (exported W) (a_fieldNames A) (a_pointers A) (exported W root_name) (n_required schema) (default [] (n_props schema)) ds Ss ->
  NoDup (map d_go ds) -> capital (exported W root_name) ->
  (forall σ τ, object_in (default [] (n_props schema)) σ -> object_in (default [] (n_props schema)) τ ->
     type_name (exported W) (exported W root_name) σ = type_name (exported W) (exported W root_name) τ -> σ = τ) ->
  (forall σ, object_in (default [] (n_props schema)) σ -> type_name (exported W) (exported W root_name) σ <> exported W root_name) ->
  embeds_as (exported W) (a_structNames A) (a_embed A) (n_allOf schema) es ->
  exists g, new_file W A ord schema root_name embeds = Ok g /\
    forall pkg ord', key_order ord' ->
      file_text W A ord' pkg g = show_structs (exported W) (a_descTag A) pkg root_name (embeds ++ es) (by_name ds) (structs_by_name Ss).
Proof. exact (objects_file W A root_name ord schema embeds es ds Ss). Qed.
Print Assumptions C43_own_types_partial.
Theorem C43_one_each title rename pointers P reqs ps ds Ss : ndeclares_all title rename pointers P reqs ps ds Ss -> NoDup ps.*1 ->
  exists l, Ss.*1 = map (type_name title P) l /\ NoDup l /\ forall σ, σ ∈ l <-> object_in ps σ.
Proof. exact (structs_objects title rename pointers P reqs ps ds Ss). Qed.
Print Assumptions C43_one_each.
(** C39: the fields of each struct are one for each property that is not hydrated. *)
Theorem C39_flat_one_each title rename pointers P reqs ps ds Ss : ndeclares_all title rename pointers P reqs ps ds Ss -> map d_json ds = omap own_name ps.
Proof. exact (ndeclares_each title rename pointers P reqs ps ds Ss). Qed.
Print Assumptions C39_flat_one_each.
Lemma named_own : (forall σ τ, object_in named_props σ -> object_in named_props τ ->
     type_name (exported W0) (exported W0 "root") σ = type_name (exported W0) (exported W0 "root") τ -> σ = τ) /\
  (forall σ, object_in named_props σ -> type_name (exported W0) (exported W0 "root") σ <> exported W0 "root").
Proof. apply (own_names W0 named_args "root" _ _ _ _ named_declared); nodup. Qed.
Example C43_case : a_noNested named_args = true /\ n_items (schema_of named_props named_req) = None /\ NoDup named_props.*1 /\
  ndeclares_all (exported W0) (a_fieldNames named_args) (a_pointers named_args) (exported W0 "root") named_req named_props named_decls named_structs /\
  NoDup (map d_go named_decls) /\ capital (exported W0 "root") /\
  (forall σ τ, object_in named_props σ -> object_in named_props τ ->
     type_name (exported W0) (exported W0 "root") σ = type_name (exported W0) (exported W0 "root") τ -> σ = τ) /\
  (forall σ, object_in named_props σ -> type_name (exported W0) (exported W0 "root") σ <> exported W0 "root") /\
  text_of named_args other_order backwards (schema_of named_props named_req) =
    show_structs (exported W0) false "pkg" "root" [] (by_name named_decls) (structs_by_name named_structs).
Proof.
  split_and!; [done|done|nodup|exact named_declared|nodup| |apply named_own|apply named_own|vm_compute; reflexivity].
  exists "R"%char, "oot". split; [vm_compute; reflexivity|]. split; apply N.leb_le; vm_compute; reflexivity.
Qed.
(** Else two objects share a struct type, with the fields of only one of them; which one depends on the order. *)
Theorem C43_shared_refuted : exists schema σ τ, n_items schema = None /\ named (default [] (n_props schema)) /\
  object_in (default [] (n_props schema)) σ /\ object_in (default [] (n_props schema)) τ /\ σ <> τ /\
  type_name (exported W0) "Root" σ = type_name (exported W0) "Root" τ /\
  text_of flat_args same_order as_is schema <> "" /\ text_of flat_args same_order as_is schema <> text_of flat_args other_order as_is schema /\
  str_in "`json:""x" (text_of flat_args same_order as_is schema) = false /\ str_in "`json:""y" (text_of flat_args other_order as_is schema) = false.
Proof.
  set (o1 := obj_of [("x", typed "string" [])] []). set (o2 := obj_of [("y", typed "number" [])] []).
  exists (schema_of [("a", obj_of [("bC", o1)] []); ("aB", obj_of [("c", o2)] [])] []), [Nm "a"; Nm "bC"], [Nm "aB"; Nm "c"].
  split_and!; [done|named_ok| | |done|vm_compute; reflexivity|vm_compute; discriminate|vm_compute; discriminate|vm_compute; reflexivity|vm_compute; reflexivity].
  - exists o1. split; [|refine (bool_decide_eq_true_1 _ _); vm_compute; reflexivity]. eapply swinst_prop; [left|].
    eapply winst_prop; [refine (bool_decide_eq_true_1 _ _); vm_compute; reflexivity|vm_compute; reflexivity|left|constructor].
  - exists o2. split; [|refine (bool_decide_eq_true_1 _ _); vm_compute; reflexivity]. eapply swinst_prop; [right; left|].
    eapply winst_prop; [refine (bool_decide_eq_true_1 _ _); vm_compute; reflexivity|vm_compute; reflexivity|left|constructor].
Qed.
Print Assumptions C43_shared_refuted.

(** C40: the text does not depend on the orders in which maps are iterated. *)
Theorem C40_flat_deterministic_partial W A root_name ord1 ord2 schema embeds es ds Ss : a_noNested A = true -> map_order ord1 -> map_order ord2 -> n_items schema = None ->
  NoDup (default [] (n_props schema)).*1 ->
  ndeclares_all (exported W) (a_fieldNames A) (a_pointers A) (exported W root_name) (n_required schema) (default [] (n_props schema)) ds Ss ->
  NoDup (map d_go ds) -> capital (exported W root_name) ->
  (forall σ τ, object_in (default [] (n_props schema)) σ -> object_in (default [] (n_props schema)) τ ->
     type_name (exported W) (exported W root_name) σ = type_name (exported W) (exported W root_name) τ -> σ = τ) ->
  (forall σ, object_in (default [] (n_props schema)) σ -> type_name (exported W) (exported W root_name) σ <> exported W root_name) ->
  embeds_as (exported W) (a_structNames A) (a_embed A) (n_allOf schema) es ->
  exists g1 g2, new_file W A ord1 schema root_name embeds = Ok g1 /\ new_file W A ord2 schema root_name embeds = Ok g2 /\
    forall pkg ord3 ord4, key_order ord3 -> key_order ord4 -> file_text W A ord3 pkg g1 = file_text W A ord4 pkg g2.
Proof. exact (flat_deterministic W A root_name ord1 ord2 schema embeds es ds Ss). Qed.
Print Assumptions C40_flat_deterministic_partial.
Example C40_flat_case : text_of named_args same_order as_is (schema_of named_props named_req) = text_of named_args other_order backwards (schema_of named_props named_req) /\
  text_of named_args same_order as_is (schema_of named_props named_req) <> "".
Proof. split; [vm_compute; reflexivity|vm_compute; discriminate]. Qed.

(** C41: the line of an object with fields is of a struct type named after the way to it, a pointer exactly when it may be null, or is not
    required and pointers were asked for. *)
Theorem C41_object_line W A root_name ord schema embeds es ds Ss k r i ps : a_noNested A = true -> map_order ord -> n_items schema = None ->
  NoDup (default [] (n_props schema)).*1 ->
  ndeclares_all (exported W) (a_fieldNames A) (a_pointers A) (exported W root_name) (n_required schema) (default [] (n_props schema)) ds Ss ->
  NoDup (map d_go ds) -> capital (exported W root_name) ->
  (forall σ τ, object_in (default [] (n_props schema)) σ -> object_in (default [] (n_props schema)) τ ->
     type_name (exported W) (exported W root_name) σ = type_name (exported W) (exported W root_name) τ -> σ = τ) ->
  (forall σ, object_in (default [] (n_props schema)) σ -> type_name (exported W) (exported W root_name) σ <> exported W root_name) ->
  embeds_as (exported W) (a_structNames A) (a_embed A) (n_allOf schema) es ->
  (k, r) ∈ default [] (n_props schema) -> d_inst false r = Ok i -> one_type i "object" -> n_props i = Some ps -> omap own_name ps <> [] ->
  exists g, new_file W A ord schema root_name embeds = Ok g /\ forall pkg ord', key_order ord' -> exists a b, file_text W A ord' pkg g =
    a +:+ tabulator +:+ exported W (default k (a_fieldNames A k)) +:+ tabulator +:+
    (if nullable i || (a_pointers A && bool_decide (k ∉ n_required schema)) then "*" else "") +:+ exported W root_name +:+ exported W k +:+ tabulator +:+
    "`json:" +:+ in_quotes (k +:+ (if decide (k ∈ n_required schema) then "" else if nullable i || a_pointers A then ",omitempty" else ",omitzero")) +:+ b.
Proof. exact (object_line W A root_name ord schema embeds es ds Ss k r i ps). Qed.
Print Assumptions C41_object_line.
Example C41_object_case : ("home", home_schema) ∈ pet /\ one_type (inst_of home_schema) "object" /\ n_props (inst_of home_schema) = Some [("street", typed "string" [])] /\
  omap own_name [("street", typed "string" [])] <> [].
Proof. split_and!; [right; left|onet|vm_compute; reflexivity|vm_compute; discriminate]. Qed.

(** C43: every struct type that a field of a file refers to is declared in it, with fields, by the same name, if names are ASCII. *)
Theorem C43_types_declared W A root_name reqs ps ds Ss : ascii_string root_name -> (forall σ k, object_in ps σ -> Nm k ∈ σ -> ascii_string k) -> NoDup ps.*1 ->
  ndeclares_all (exported W) (a_fieldNames A) (a_pointers A) (exported W root_name) reqs ps ds Ss ->
  forall d Q, (d ∈ ds \/ exists s, s ∈ Ss /\ d ∈ s.2) -> field_refers d Q ->
  exists ds', (Q, ds') ∈ Ss /\ ds' <> [] /\ exported W Q = Q /\ forall dt pkg embeds, exists a b,
    show_structs (exported W) dt pkg root_name embeds (by_name ds) (structs_by_name Ss) =
    a +:+ "type " +:+ Q +:+ " struct {" +:+ newline +:+ join "" (map (show dt tabulator) ds') +:+ "}" +:+ b.
Proof. exact (refs_in_file W A root_name reqs ps ds Ss). Qed.
Print Assumptions C43_types_declared.
Example C43_declared_case : pet_home ∈ [pet_home; pet_id] /\ field_refers pet_home "RootPetsHome" /\ ("RootPetsHome", [street]) ∈ named_structs.
Proof. split_and!; [left|done|right; left]. Qed.
(** An object without properties that is not required, with pointers: its field is a pointer to a type that is not there. *)
Theorem C43_types_declared_refuted : exists schema k r i, n_items schema = None /\ named (default [] (n_props schema)) /\ (k, r) ∈ default [] (n_props schema) /\
  d_inst false r = Ok i /\ one_type i "object" /\ n_props i = Some [] /\
  str_in ("*RootA") (text_of named_args same_order as_is schema) = true /\ str_in "type RootA" (text_of named_args same_order as_is schema) = false.
Proof.
  set (r := obj_of [] []). exists (schema_of [("a", r)] []), "a", r, (inst_of r).
  split_and!; [done|named_ok|left|vm_compute; reflexivity|onet|vm_compute; reflexivity|vm_compute; reflexivity|vm_compute; reflexivity].
Qed.
Print Assumptions C43_types_declared_refuted.

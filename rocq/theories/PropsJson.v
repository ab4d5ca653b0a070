(** C72: documents read into generated structs and written again. Vocabulary: SpecJson.v, SpecGen.v, SpecNamed.v, SpecGo.v. *)
From stdpp Require Import strings list gmap.
From Coq Require Import Ascii ZArith Floats.SpecFloat.
From Verif Require Import GoStr Val Conv Schema Inst Load SpecPath SpecWalk WalkL SpecLoad SpecConv Gen GenP SpecGen SpecNamed Avro GoSrc World Cases CaseGen CaseNamed SpecGo CaseGo GoJson SpecJson JsonQ CaseJson.

(** C72. A document that conforms to a schema is read by encoding/json into the struct generated from the schema without error, and
    written again with all its members that have a property and only these: with the same strings, booleans and order of arrays, and
    numbers and times of the same value. Missing for the full claim: values of properties that are not required are left out if they
    are false, 0, "", null, [], {} or objects with nothing else; a missing time comes out as one of the year 1. The documents and
    schemas for which this holds are [fits_members] and [seen]; see the refutations below for others. *)
Theorem C72_nested_partial W o_json_num o_fold o_unquote A root_name ord schema ds : a_noNested A = false -> map_order ord -> n_items schema = None ->
  NoDup (default [] (n_props schema)).*1 ->
  declares_all (exported W) (a_fieldNames A) (a_pointers A) (n_required schema) (default [] (n_props schema)) ds -> NoDup (map d_go ds) ->
  embeds_as (exported W) (a_structNames A) (a_embed A) (n_allOf schema) [] ->
  capital (exported W root_name) -> identifier (exported W root_name) = true ->
  forallb (writable (a_descTag A)) ds = true -> forallb (seen (a_descTag A)) ds = true -> ds <> [] ->
  exists g, new_file W A ord schema root_name [] = Ok g /\ forall pkg ord', identifier pkg = true -> key_order ord' ->
  exists f, parse_go (file_text W A ord' pkg g) = Some f /\
  exists n y, (forall fuel, n <= fuel -> json_type o_unquote fuel f (RIdent (exported W root_name)) = Some y) /\
  forall kvs, fits_members W o_fold (n_required schema) (default [] (n_props schema)) kvs ->
  exists v es, unmarshal W o_fold y (JObj kvs) = Some v /\ marshal W o_json_num y v = Some (JObj es) /\
    members_out W o_json_num false (a_pointers A) (n_required schema) (default [] (n_props schema)) kvs es.
Proof. exact (json_nested W o_json_num o_fold o_unquote A root_name ord schema ds). Qed.
Print Assumptions C72_nested_partial.
Example C72_nested_case : declares_all (exported W0) (a_fieldNames gen_args) false ["name"] gen_props gen_decls /\
  forallb (writable false) gen_decls = true /\ forallb (seen false) gen_decls = true /\ fits_members W0 fold0 ["name"] gen_props gen_doc /\
  through gen_text (JObj gen_doc) = Some (JObj [("name", JStr "Ann"); ("more", JObj [("a", JStr ""); ("b", JStr "x")]);
    ("pets", JArr [JObj [("age", JNum "1.5"); ("id", JNum "3")]; JObj [("id", JNum "0")]])]).
Proof. split_and!; [exact gen_declared|vm_compute; reflexivity..|exact gen_fits|vm_compute; reflexivity]. Qed.
(** The same without nesting; here objects that are not required are pointers if pointers were asked for. *)
Theorem C72_flat_partial W o_json_num o_fold o_unquote A root_name ord schema ds Ss : a_noNested A = true -> map_order ord -> n_items schema = None ->
  NoDup (default [] (n_props schema)).*1 ->
  ndeclares_all (exported W) (a_fieldNames A) (a_pointers A) (exported W root_name) (n_required schema) (default [] (n_props schema)) ds Ss ->
  NoDup (map d_go ds) -> capital (exported W root_name) -> NoDup (exported W root_name :: Ss.*1) ->
  embeds_as (exported W) (a_structNames A) (a_embed A) (n_allOf schema) [] ->
  identifier (exported W root_name) = true -> forallb (writable (a_descTag A)) ds = true -> forallb (seen (a_descTag A)) ds = true -> ds <> [] ->
  Forall (fun s => exported W s.1 = s.1 /\ identifier s.1 = true /\ forallb (writable (a_descTag A)) s.2 = true /\ forallb (seen (a_descTag A)) s.2 = true) Ss ->
  exists g, new_file W A ord schema root_name [] = Ok g /\ forall pkg ord', identifier pkg = true -> key_order ord' ->
  exists f, parse_go (file_text W A ord' pkg g) = Some f /\
  exists n y, (forall fuel, n <= fuel -> json_type o_unquote fuel f (RIdent (exported W root_name)) = Some y) /\
  forall kvs, fits_members W o_fold (n_required schema) (default [] (n_props schema)) kvs ->
  exists v es, unmarshal W o_fold y (JObj kvs) = Some v /\ marshal W o_json_num y v = Some (JObj es) /\
    members_out W o_json_num true (a_pointers A) (n_required schema) (default [] (n_props schema)) kvs es.
Proof. exact (json_flat W o_json_num o_fold o_unquote A root_name ord schema ds Ss). Qed.
Print Assumptions C72_flat_partial.
Example C72_flat_case : forallb (seen false) named_decls = true /\
  Forall (fun s => exported W0 s.1 = s.1 /\ identifier s.1 = true /\ forallb (writable false) s.2 = true /\ forallb (seen false) s.2 = true) named_structs /\
  fits_members W0 fold0 named_req named_props named_doc /\
  through named_text (JObj named_doc) = Some (JObj [("born", JStr (o_fmt_time W0 rfc3339_nano (default zero_time (o_parse_time W0 rfc3339 "2020-01-01T00:00:00Z")))); ("name", JStr "");
    ("more", JObj []); ("pets", JArr [JObj [("home", JObj []); ("id", JNum "3")]])]).
Proof. split_and!; [vm_compute; reflexivity|repeat constructor; vm_compute; reflexivity|exact named_fits|vm_compute; reflexivity]. Qed.

(** Values that are not required are lost if they are false, zero or empty: here the document comes out as {}. *)
Theorem C72_zero_refuted : exists schema kvs, n_items schema = None /\ named (default [] (n_props schema)) /\
  fits_members W0 fold0 (n_required schema) (default [] (n_props schema)) kvs /\ kvs <> [] /\
  through (text_of plain_args same_order as_is schema) (JObj kvs) = Some (JObj []).
Proof.
  exists open_schema, [("open", JBool false); ("count", JNum "0"); ("tags", JArr [])]. split_and!; [done|named_ok| |done|vm_compute; reflexivity].
  unfold open_schema. cbn. members; [scalar|scalar|]. match goal with |- fits _ _ ?r _ => refine (fits_arr _ _ r (inst_of r) (typed "string" []) _ _ _ _ _) end; [vm_compute; reflexivity|onet|vm_compute; reflexivity|].
  intros d Hd. in_cases.
Qed.
Print Assumptions C72_zero_refuted.
(** A time that is missing comes out as one of the year 1 ... *)
Theorem C72_time_refuted : exists schema, n_items schema = None /\ named (default [] (n_props schema)) /\ n_required schema = [] /\
  through (text_of plain_args same_order as_is schema) (JObj []) = Some (JObj [("born", JStr (o_fmt_time W0 rfc3339_nano zero_time))]).
Proof. exists born_schema. split_and!; [done|named_ok|done|vm_compute; reflexivity]. Qed.
Print Assumptions C72_time_refuted.
(** ... unless pointers were asked for. *)
Example C72_time_case : through (text_of (Args false false true false no_names no_names) same_order as_is born_schema) (JObj []) = Some (JObj []).
Proof. vm_compute. reflexivity. Qed.
(** An object without properties may have any members, but only strings can be read. *)
Theorem C72_map_refuted : exists schema, n_items schema = None /\ default [] (n_props schema) = [("more", obj_of [] [])] /\
  read_into (text_of plain_args same_order as_is schema) (JObj [("more", JObj [("a", JNum "1")])]) = None /\
  read_into (text_of plain_args same_order as_is schema) (JObj [("more", JObj [("a", JStr "1")])]) <> None.
Proof. exists more_schema. split_and!; [done|done|vm_compute; reflexivity|vm_compute; discriminate]. Qed.
Print Assumptions C72_map_refuted.
(** Integers written with a fraction, or beyond 64 bits, cannot be read. *)
Theorem C72_integer_refuted : exists schema, n_items schema = None /\ default [] (n_props schema) = [("count", typed "integer" [])] /\
  read_into (text_of plain_args same_order as_is schema) (JObj [("count", JNum "1.0")]) = None /\
  read_into (text_of plain_args same_order as_is schema) (JObj [("count", JNum "9223372036854775808")]) = None /\
  read_into (text_of plain_args same_order as_is schema) (JObj [("count", JNum "9223372036854775807")]) <> None.
Proof. exists count_schema. split_and!; [done|done|vm_compute; reflexivity..|vm_compute; discriminate]. Qed.
Print Assumptions C72_integer_refuted.
(** Null in an array of strings that may be null comes out as "". *)
Theorem C72_null_refuted : exists schema, n_items schema = None /\ default [] (n_props schema) = [("tags", arr_schema (types_schema ["string"; "null"] []) [])] /\
  through (text_of plain_args same_order as_is schema) (JObj [("tags", JArr [JNull])]) = Some (JObj [("tags", JArr [JStr ""])]).
Proof. exists tags_schema. split_and!; [done|done|vm_compute; reflexivity]. Qed.
Print Assumptions C72_null_refuted.
(** A property whose name starts with an underscore has a field that is not exported, and is lost, also if it is required. *)
Theorem C72_underscore_refuted : exists schema, n_items schema = None /\ named (default [] (n_props schema)) /\ "_id" ∈ n_required schema /\
  fits_members W0 fold0 (n_required schema) (default [] (n_props schema)) [("_id", JStr "a")] /\
  through (text_of plain_args same_order as_is schema) (JObj [("_id", JStr "a")]) = Some (JObj []).
Proof. exists id_schema. split_and!; [done|named_ok|left| |vm_compute; reflexivity]. unfold id_schema. cbn. members. scalar. Qed.
Print Assumptions C72_underscore_refuted.
(** A member that is not in the schema replaces one that is, if the names differ in case only. *)
Theorem C72_case_refuted : exists schema, n_items schema = None /\ default [] (n_props schema) = [("name", typed "string" [])] /\
  through (text_of plain_args same_order as_is schema) (JObj [("name", JStr "Ann"); ("NAME", JStr "Bob")]) = Some (JObj [("name", JStr "Bob")]).
Proof. exists name_schema. split_and!; [done|done|vm_compute; reflexivity]. Qed.
Print Assumptions C72_case_refuted.

(** C68 to C71: generated structs read as Go source, their tags, and the Avro schemas built from them. Vocabulary: SpecGo.v, SpecGen.v,
    SpecNamed.v, SpecAvro.v. *)
From stdpp Require Import strings list gmap.
From Coq Require Import Ascii ZArith.
From Verif Require Import GoStr GoStrL Val Conv Schema Inst Load SpecPath SpecWalk WalkL SpecLoad SpecConv Gen GenP SpecGen SpecNamed NamedU Avro GoSrc SpecAvro AvroL World Cases CaseGen CaseNamed SpecGo GoSrcC GoSrcD CaseGo.

(** C68. The text generated for a schema is Go source: it parses, imports "time" exactly when a field is a time, and declares one struct,
    whose fields have the Go types and tags of the properties, in order of their names. Missing for the full claim: names that are not
    identifiers, and descriptions with backquotes; see the refutations below. *)
Theorem C68_nested_partial W A root_name ord schema embeds es ds : a_noNested A = false -> map_order ord -> n_items schema = None ->
  NoDup (default [] (n_props schema)).*1 ->
  declares_all (exported W) (a_fieldNames A) (a_pointers A) (n_required schema) (default [] (n_props schema)) ds -> NoDup (map d_go ds) ->
  embeds_as (exported W) (a_structNames A) (a_embed A) (n_allOf schema) es ->
  identifier (exported W root_name) = true -> forallb identifier (embeds ++ es) = true -> forallb (writable (a_descTag A)) ds = true ->
  exists g, new_file W A ord schema root_name embeds = Ok g /\ forall pkg ord', identifier pkg = true -> key_order ord' ->
    parse_go (file_text W A ord' pkg g) =
      Some (RFile pkg (imports (existsb uses_time ds)) (src_types (a_descTag A) [(exported W root_name, (embeds ++ es, by_name ds))])).
Proof. exact (nested_parsed W A root_name ord schema embeds es ds). Qed.
Print Assumptions C68_nested_partial.
Example C68_nested_case : NoDup (map d_go gen_decls) /\ identifier (exported W0 "root") = true /\ forallb (writable (a_descTag gen_args)) gen_decls = true /\
  parse_go gen_text = Some (RFile "pkg" ["time"] [("Root", RStruct
    [RField ["Born"] (RStar (RSel "time" "Time")) (Some "`json:""born,omitempty""`");
     RField ["FullName"] (RIdent "string") (Some "`json:""name""`");
     RField ["More"] (RMap (RIdent "string") (RIdent "string")) (Some "`json:""more,omitempty""`");
     RField ["Pets"] (RArray (RStruct [RField ["Age"] (RIdent "float64") (Some "`json:""age,omitempty""`"); RField ["Id"] (RIdent "int64") (Some "`json:""id""`")]))
       (Some "`json:""pets,omitempty""`")])]).
Proof. split_and!; [nodup|vm_compute; reflexivity..]. Qed.
(** The same without nesting: a struct for each object that has fields. *)
Theorem C68_flat_partial W A root_name ord schema embeds es ds Ss : a_noNested A = true -> map_order ord -> n_items schema = None ->
  NoDup (default [] (n_props schema)).*1 ->
  ndeclares_all (exported W) (a_fieldNames A) (a_pointers A) (exported W root_name) (n_required schema) (default [] (n_props schema)) ds Ss ->
  NoDup (map d_go ds) -> capital (exported W root_name) -> NoDup (exported W root_name :: Ss.*1) ->
  embeds_as (exported W) (a_structNames A) (a_embed A) (n_allOf schema) es ->
  identifier (exported W root_name) = true -> forallb identifier (embeds ++ es) = true -> forallb (writable (a_descTag A)) ds = true ->
  Forall (fun s => exported W s.1 = s.1 /\ identifier s.1 = true /\ forallb (writable (a_descTag A)) s.2 = true) Ss ->
  exists g, new_file W A ord schema root_name embeds = Ok g /\ forall pkg ord', identifier pkg = true -> key_order ord' ->
    parse_go (file_text W A ord' pkg g) = Some (RFile pkg (imports (existsb uses_time ds || existsb (fun s => existsb uses_time s.2) Ss))
      (src_types (a_descTag A) ((exported W root_name, (embeds ++ es, by_name ds)) :: map (fun s => (s.1, ([], s.2))) (structs_by_name Ss)))).
Proof. exact (flat_parsed W A root_name ord schema embeds es ds Ss). Qed.
Print Assumptions C68_flat_partial.
Example C68_flat_case : NoDup (exported W0 "root" :: named_structs.*1) /\ forallb (writable (a_descTag named_args)) named_decls = true /\
  Forall (fun s => exported W0 s.1 = s.1 /\ identifier s.1 = true /\ forallb (writable (a_descTag named_args)) s.2 = true) named_structs /\
  (fun f => (rf_types f).*1) <$> parse_go named_text = Some ["Root"; "RootPets"; "RootPetsHome"].
Proof. split_and!; [nodup|vm_compute; reflexivity|repeat constructor; vm_compute; reflexivity|vm_compute; reflexivity]. Qed.
(** A property whose name is not an identifier, here "first-name", makes the text something that is not Go source, so generation fails. *)
Theorem C68_identifier_refuted : exists schema g, n_items schema = None /\ named (default [] (n_props schema)) /\
  new_file W0 plain_args same_order schema "root" [] = Ok g /\ parse_go (file_text W0 plain_args as_is "pkg" g) = None.
Proof.
  set (s := schema_of [("first-name", typed "string" [])] []). exists s.
  destruct (new_file W0 plain_args same_order s "root" []) as [g| |] eqn:E; [exists g|vm_compute in E; discriminate E..].
  split_and!; [done|named_ok|done|]. vm_compute in E. injection E as <-. vm_compute. reflexivity.
Qed.
Print Assumptions C68_identifier_refuted.
(** With descriptions in tags, one with a backquote ends the tag: either the text is not Go source ... *)
Theorem C68_backquote_refuted : exists desc g, named (default [] (n_props (described desc))) /\
  new_file W0 tag_args same_order (described desc) "root" [] = Ok g /\ parse_go (file_text W0 tag_args as_is "pkg" g) = None.
Proof.
  exists "Use `x`". destruct (new_file W0 tag_args same_order (described "Use `x`") "root" []) as [g| |] eqn:E; [exists g|vm_compute in E; discriminate E..].
  split_and!; [named_ok|done|]. vm_compute in E. injection E as <-. vm_compute. reflexivity.
Qed.
Print Assumptions C68_backquote_refuted.
(** ... or it is, and has a field that is in the description but not in the schema. *)
Theorem C68_injected_refuted : exists desc g fs, named (default [] (n_props (described desc))) /\ (default [] (n_props (described desc))).*1 = ["name"] /\
  new_file W0 tag_args same_order (described desc) "root" [] = Ok g /\
  parse_go (file_text W0 tag_args as_is "pkg" g) = Some (RFile "pkg" [] [("Root", RStruct fs)]) /\ RField ["Extra"] (RIdent "int64") None ∈ fs.
Proof.
  exists "Use ` ; Extra int64 //". destruct (new_file W0 tag_args same_order (described "Use ` ; Extra int64 //") "root" []) as [g| |] eqn:E; [exists g|vm_compute in E; discriminate E..].
  eexists. split_and!; [named_ok|done|done|vm_compute in E; injection E as <-; vm_compute; reflexivity|right; left].
Qed.
Print Assumptions C68_injected_refuted.

(** C69. Readers of the struct's tags (package reflect) find in each field's tag the exact name of the property with its option, and the
    first line of its description. Missing: names and descriptions with double quotes, backslashes or line ends. *)
Theorem C69_nested_partial W o_unquote A root_name ord schema embeds es ds : a_noNested A = false -> map_order ord -> n_items schema = None ->
  NoDup (default [] (n_props schema)).*1 ->
  declares_all (exported W) (a_fieldNames A) (a_pointers A) (n_required schema) (default [] (n_props schema)) ds -> NoDup (map d_go ds) ->
  embeds_as (exported W) (a_structNames A) (a_embed A) (n_allOf schema) es ->
  identifier (exported W root_name) = true -> forallb identifier (embeds ++ es) = true -> forallb (writable (a_descTag A)) ds = true ->
  exists g, new_file W A ord schema root_name embeds = Ok g /\ forall pkg ord', identifier pkg = true -> key_order ord' ->
    exists f fs, parse_go (file_text W A ord' pkg g) = Some f /\ rf_types f = (if decide (ds = []) then [] else [(exported W root_name, RStruct fs)]) /\
    forall desc go json req ty, GDecl desc go json req (Some ty) ∈ ds -> quotable json = true -> (a_descTag A = true -> quotable (first_line desc) = true) ->
    exists lit, RField [go] (src_type (a_descTag A) ty) (Some lit) ∈ fs /\
      reads_back o_unquote lit (json +:+ json_option req ty) (read_desc (a_descTag A) desc).
Proof. exact (nested_tags W o_unquote A root_name ord schema embeds es ds). Qed.
Print Assumptions C69_nested_partial.
Theorem C69_flat_partial W o_unquote A root_name ord schema embeds es ds Ss : a_noNested A = true -> map_order ord -> n_items schema = None ->
  NoDup (default [] (n_props schema)).*1 ->
  ndeclares_all (exported W) (a_fieldNames A) (a_pointers A) (exported W root_name) (n_required schema) (default [] (n_props schema)) ds Ss ->
  NoDup (map d_go ds) -> capital (exported W root_name) -> NoDup (exported W root_name :: Ss.*1) ->
  embeds_as (exported W) (a_structNames A) (a_embed A) (n_allOf schema) es ->
  identifier (exported W root_name) = true -> forallb identifier (embeds ++ es) = true -> forallb (writable (a_descTag A)) ds = true ->
  Forall (fun s => exported W s.1 = s.1 /\ identifier s.1 = true /\ forallb (writable (a_descTag A)) s.2 = true) Ss ->
  exists g, new_file W A ord schema root_name embeds = Ok g /\ forall pkg ord', identifier pkg = true -> key_order ord' ->
    exists f, parse_go (file_text W A ord' pkg g) = Some f /\
    forall n ds', (n, ds') ∈ (exported W root_name, ds) :: Ss ->
    forall desc go json req ty, GDecl desc go json req (Some ty) ∈ ds' -> quotable json = true -> (a_descTag A = true -> quotable (first_line desc) = true) ->
    exists fs lit, (n, RStruct fs) ∈ rf_types f /\ RField [go] (src_type (a_descTag A) ty) (Some lit) ∈ fs /\
      reads_back o_unquote lit (json +:+ json_option req ty) (read_desc (a_descTag A) desc).
Proof. exact (flat_tags W o_unquote A root_name ord schema embeds es ds Ss). Qed.
Print Assumptions C69_flat_partial.
(** The same for the tag of any declaration, also in nested structs. *)
Theorem C69_tag_partial o_unquote A desc go json req ty : desc_ok (a_descTag A) desc = true -> quotable json = true ->
  (a_descTag A = true -> quotable (first_line desc) = true) ->
  exists lit, src_field (a_descTag A) (GDecl desc go json req (Some ty)) = [RField [go] (src_type (a_descTag A) ty) (Some lit)] /\
    reads_back o_unquote lit (json +:+ json_option req ty) (read_desc (a_descTag A) desc).
Proof. exact (one_tag o_unquote A desc go json req ty). Qed.
Print Assumptions C69_tag_partial.
Example C69_case : forallb (writable true) (described_as "The name, e.g. 'Ann'") = true /\ quotable "name" = true /\ quotable (first_line "The name, e.g. 'Ann'") = true /\
  reads_back no_unquote "`json:""name,omitempty"" description:""The name, e.g. 'Ann'""`" "name,omitempty" "The name, e.g. 'Ann'".
Proof. split_and!; [vm_compute; reflexivity..|]. split; vm_compute; reflexivity. Qed.
(** A description with a double quote is cut off there, and one with a backslash may be lost. *)
Theorem C69_quote_refuted : exists desc lit d, named (default [] (n_props (described desc))) /\
  (fun f => rf_types f) <$> parse_go (text_of tag_args same_order as_is (described desc)) = Some [("Root", RStruct [RField ["Name"] (RIdent "string") (Some lit)])] /\
  reads_back no_unquote lit "name,omitempty" d /\ d <> first_line desc.
Proof. exists "The ""full"" name". eexists _, "The ". split_and!; [named_ok|vm_compute; reflexivity|split; vm_compute; reflexivity|vm_compute; discriminate]. Qed.
Print Assumptions C69_quote_refuted.
Theorem C69_backslash_refuted : exists desc lit, named (default [] (n_props (described desc))) /\
  (fun f => rf_types f) <$> parse_go (text_of tag_args same_order as_is (described desc)) = Some [("Root", RStruct [RField ["Name"] (RIdent "string") (Some lit)])] /\
  reads_back no_unquote lit "name,omitempty" "" /\ first_line desc <> "".
Proof. exists "matches \d". eexists. split_and!; [named_ok|vm_compute; reflexivity|split; vm_compute; reflexivity|vm_compute; discriminate]. Qed.
Print Assumptions C69_backslash_refuted.

(** C70. From a JSON schema to an Avro schema: for the struct generated from a JSON schema, in a directory with other Go files of the
    package, the Avro schema has the two metadata fields and then one field for each property, in the order of Go names: with the name of
    the property, the type of its schema, the description if descriptions are put in tags; those that may be left out are unions with
    null, except arrays, maps, booleans (false by default) and structs that are not pointers. Missing: see the refutations below, and
    embedded structs. *)
Theorem C70_nested_partial W o_quote o_unquote A root_name ord schema ds : a_noNested A = false -> map_order ord -> n_items schema = None ->
  NoDup (default [] (n_props schema)).*1 ->
  declares_all (exported W) (a_fieldNames A) (a_pointers A) (n_required schema) (default [] (n_props schema)) ds -> NoDup (map d_go ds) ->
  embeds_as (exported W) (a_structNames A) (a_embed A) (n_allOf schema) [] ->
  identifier (exported W root_name) = true -> ascii_text (exported W root_name) = true ->
  forallb (writable (a_descTag A)) ds = true -> forallb (avro_ok (a_descTag A)) ds = true -> go_fields ds <> [] ->
  exists g docs, new_file W A ord schema root_name [] = Ok g /\ avro_fields (a_descTag A) [] [] (by_name ds) docs /\
  forall pkg ord' dir file, identifier pkg = true -> key_order ord' -> among dir file pkg (file_text W A ord' pkg g) [] ->
  exists s n, text (record_doc [] (exported W root_name) (write_time :: deleted :: docs)) s /\
    forall fuel, n <= fuel -> avro_schema o_unquote W o_quote fuel dir (exported W root_name) file = Some (Ok s).
Proof. exact (avro_nested W o_quote o_unquote A root_name ord schema ds). Qed.
Print Assumptions C70_nested_partial.
(** Without nesting, structs are found by their names in the directory. No field has the name of a struct. *)
Theorem C70_flat_partial W o_quote o_unquote A root_name ord schema ds Ss : a_noNested A = true -> map_order ord -> n_items schema = None ->
  NoDup (default [] (n_props schema)).*1 ->
  ndeclares_all (exported W) (a_fieldNames A) (a_pointers A) (exported W root_name) (n_required schema) (default [] (n_props schema)) ds Ss ->
  NoDup (map d_go ds) -> capital (exported W root_name) -> NoDup (exported W root_name :: Ss.*1) ->
  embeds_as (exported W) (a_structNames A) (a_embed A) (n_allOf schema) [] ->
  identifier (exported W root_name) = true -> ascii_text (exported W root_name) = true ->
  forallb (writable (a_descTag A)) ds = true -> forallb (avro_ok (a_descTag A)) ds = true -> go_fields ds <> [] ->
  Forall (fun s => exported W s.1 = s.1 /\ identifier s.1 = true /\ forallb (writable (a_descTag A)) s.2 = true /\ forallb (avro_ok (a_descTag A)) s.2 = true) Ss ->
  Forall (fun n => n ∉ go_fields ds /\ Forall (fun s => n ∉ go_fields s.2) Ss) Ss.*1 ->
  exists g docs, new_file W A ord schema root_name [] = Ok g /\ avro_fields (a_descTag A) Ss [] (by_name ds) docs /\
  forall pkg ord' dir file, identifier pkg = true -> key_order ord' -> among dir file pkg (file_text W A ord' pkg g) Ss.*1 ->
  exists s n, text (record_doc [] (exported W root_name) (write_time :: deleted :: docs)) s /\
    forall fuel, n <= fuel -> avro_schema o_unquote W o_quote fuel dir (exported W root_name) file = Some (Ok s).
Proof. exact (avro_flat W o_quote o_unquote A root_name ord schema ds Ss). Qed.
Print Assumptions C70_flat_partial.
Example C70_case : forallb (avro_ok false) gen_decls = true /\ go_fields gen_decls <> [] /\ ascii_text (exported W0 "root") = true /\
  among [("other.go", "package pkg"); ("root.go", gen_text); ("notes.txt", "?")] "root.go" "pkg" gen_text [] /\ avro_of gen_text <> "".
Proof.
  split_and!; [vm_compute; reflexivity|vm_compute; discriminate|vm_compute; reflexivity| |vm_compute; discriminate].
  exists [("other.go", "package pkg")], gen_text, [("notes.txt", "?")]. split_and!; [done|vm_compute; reflexivity|intros [[=]|[]%elem_of_nil]%elem_of_cons|done|].
  repeat constructor; cbn; intros H; [|vm_compute in H; discriminate H]. eexists. split_and!; [vm_compute; reflexivity|done|constructor].
Qed.
Example C70_flat_case : forallb (avro_ok false) named_decls = true /\ go_fields named_decls <> [] /\
  Forall (fun s => exported W0 s.1 = s.1 /\ identifier s.1 = true /\ forallb (writable false) s.2 = true /\ forallb (avro_ok false) s.2 = true) named_structs /\
  Forall (fun n => n ∉ go_fields named_decls /\ Forall (fun s => n ∉ go_fields s.2) named_structs) named_structs.*1 /\
  among [("root.go", named_text)] "root.go" "pkg" named_text named_structs.*1 /\ avro_of named_text <> "".
Proof.
  split_and!; [vm_compute; reflexivity|vm_compute; discriminate|repeat constructor; vm_compute; reflexivity| | |vm_compute; discriminate].
  - refine (bool_decide_eq_true_1 _ _). vm_compute. reflexivity.
  - exists [], named_text, []. split_and!; [done|vm_compute; reflexivity|apply not_elem_of_nil|done|constructor].
Qed.
(** An object that is not required cannot be null in the Avro schema, unless structs are not nested and pointers were asked for. *)
Theorem C70_object_refuted : exists schema, n_items schema = None /\ named (default [] (n_props schema)) /\ "address" ∈ (default [] (n_props schema)).*1 /\
  "address" ∉ n_required schema /\
  str_in "{""name"":""address"",""type"":{""name"":""address_record""" (avro_of (text_of plain_args same_order as_is schema)) = true.
Proof.
  exists (schema_of [("address", obj_of [("city", typed "string" [])] [])] []).
  split_and!; [done|named_ok|left|apply not_elem_of_nil|vm_compute; reflexivity].
Qed.
Print Assumptions C70_object_refuted.
(** A property that is required but may be null cannot be null in the Avro schema. *)
Theorem C70_nullable_refuted : exists schema r i, n_items schema = None /\ named (default [] (n_props schema)) /\ ("age", r) ∈ default [] (n_props schema) /\
  d_inst false r = Ok i /\ nullable i = true /\
  str_in "{""name"":""age"",""type"":""long""}" (avro_of (text_of plain_args same_order as_is schema)) = true.
Proof.
  set (r := types_schema ["integer"; "null"] []). exists (schema_of [("age", r)] ["age"]), r, (inst_of r).
  split_and!; [done|named_ok|left|vm_compute; reflexivity..].
Qed.
Print Assumptions C70_nullable_refuted.
(** A property with the name of a struct: here the record of "address" has the property "rootAddress" of the outer object as its only
    field, and "city" is lost. *)
Theorem C70_clash_refuted : exists schema ps, n_items schema = None /\ named (default [] (n_props schema)) /\
  (default [] (n_props schema)).*1 = ["address"; "rootAddress"] /\ ("address", obj_of ps []) ∈ default [] (n_props schema) /\ ps.*1 = ["city"] /\
  str_in "{""name"":""address"",""type"":{""name"":""address_record"",""namespace"":""address"",""type"":""record"",""fields"":[{""name"":""rootAddress""" (avro_of (text_of flat_args same_order as_is schema)) = true /\
  str_in "city" (avro_of (text_of flat_args same_order as_is schema)) = false.
Proof.
  exists (schema_of clash_props []), [("city", typed "string" [])]. split_and!; [done|named_ok|done|left|done|vm_compute; reflexivity..].
Qed.
Print Assumptions C70_clash_refuted.

(** C71. A field whose type is named is written as the struct of that name, if the Go files of the directory are of one package and
    declare the name once, and if no struct of the file that declares it has a field of that name ... *)
Theorem C71_found_partial W o_quote o_unquote dir id f fs fuel ns name null seen : id ∉ go_prims -> only_in dir id f (RStruct fs) ->
  Forall (fun d => d.1 <> id -> mentions id d.2 = false) (rf_types f) ->
  conv_type W o_quote (sources_of o_unquote dir) fuel ns (EIdent id) name null seen =
  conv_type W o_quote (sources_of o_unquote dir) fuel ns (EStruct (map (to_afield o_unquote) fs)) name null seen.
Proof. exact (named_struct W o_quote o_unquote dir id f fs fuel ns name null seen). Qed.
Print Assumptions C71_found_partial.
(** ... and as the word unknown, which makes the file invalid, if they do not: a file is not Go, there are several packages, no or more
    than one declaration. *)
Theorem C71_unknown W o_quote o_unquote dir id fuel ns name null seen : id ∉ go_prims -> (forall f t, ~ only_in dir id f t) ->
  conv_type W o_quote (sources_of o_unquote dir) (S fuel) ns (EIdent id) name null seen = Some ("unknown", seen).
Proof. exact (unknown_struct W o_quote o_unquote dir id fuel ns name null seen). Qed.
Print Assumptions C71_unknown.
(** The schema of a struct that is not in its file is an error. *)
Theorem C71_missing W o_quote o_unquote fuel dir name file : (forall text f, (file, text) ∈ dir -> parse_go text = Some f ->
    declared f name = [] /\ Forall (fun d => mentions name d.2 = false) (rf_types f)) ->
  avro_schema o_unquote W o_quote fuel dir name file = Some Err.
Proof. exact (missing_struct W o_quote o_unquote fuel dir name file). Qed.
Print Assumptions C71_missing.
Example C71_missing_case : forall text f, ("root.go", text) ∈ [("root.go", part_text); ("other.go", "type Other struct {}")] -> parse_go text = Some f ->
  declared f "Other" = [] /\ Forall (fun d => mentions "Other" d.2 = false) (rf_types f).
Proof.
  intros text f H Hp. apply elem_of_cons in H as [[= ->]|H].
  - vm_compute in Hp. injection Hp as <-. split; [done|]. repeat constructor.
  - by apply elem_of_list_singleton in H.
Qed.
Example C71_case : exists f fs, only_in [("a.go", "package p"); ("root.go", part_text)] "Part" f (RStruct fs) /\ "Part" ∉ go_prims /\ length fs = 1 /\ Forall (fun d => d.1 <> "Part" -> mentions "Part" d.2 = false) (rf_types f).
Proof.
  eexists (RFile "p" [] [_; _]), _. split_and!.
  - exists [RFile "p" [] []], [], "p". split_and!; [repeat constructor; vm_compute; reflexivity|repeat constructor|vm_compute; reflexivity|repeat constructor].
  - unfold go_prims. rewrite !elem_of_cons. intros H. repeat (destruct H as [H|H]; [discriminate H|]). by apply elem_of_nil in H.
  - done.
  - repeat constructor; cbn; done.
Qed.
Example C71_unknown_case : forall f t, ~ only_in [("a.go", "package p"); ("b.go", "package q")] "Part" f t.
Proof.
  intros f t (fs1 & fs2 & pkg & HP & Hpk & Hd & Ho). assert (E : go_files [("a.go", "package p"); ("b.go", "package q")] = ["package p"; "package q"]) by (vm_compute; reflexivity).
  rewrite E in HP. clear Hd Ho. revert HP Hpk. generalize (fs1 ++ f :: fs2). intros fs HP Hpk.
  inversion HP as [|? a ? l Ha HP']; subst. inversion HP' as [|? b ? l' Hb HP'']; subst. vm_compute in Ha, Hb. injection Ha as <-. injection Hb as <-. apply Forall_cons in Hpk as [H1 Hpk]. apply Forall_cons in Hpk as [H2 _]. cbn in H1, H2. congruence.
Qed.
(** A struct that has a field of that name is taken instead, with this field only. *)
Theorem C71_other_refuted : exists dir f fs gs, only_in dir "Part" f (RStruct fs) /\ struct_in_dir dir "Part" = Some (RStruct gs) /\ fs <> gs.
Proof.
  exists [("root.go", clash_text)]. eexists (RFile "p" [] [_; _]), _, _. split_and!.
  - exists [], [], "p". split_and!; [repeat constructor; vm_compute; reflexivity|repeat constructor|vm_compute; reflexivity|constructor].
  - vm_compute. reflexivity.
  - discriminate.
Qed.
Print Assumptions C71_other_refuted.

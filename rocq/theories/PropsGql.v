(** Properties of generated GraphQL files: C50 and C60 to C63. *)
From stdpp Require Import strings list gmap.
From Coq Require Import Ascii ZArith.
From Verif Require Import GoStr GoStrL Val Conv Schema Inst Load SpecConv SpecPath SpecWalk WalkL SpecLoad SpecGen SpecNamed SpecGql Gen Avro Gql GenP GenT NamedK NamedU GqlB GqlC GqlD GqlE World Cases CaseGen CaseNamed CaseGql SpecDoc.

(** C60. Whatever the order in which maps are gone through, the files are those the schemas declare: the types of the
    members of allOf and oneOf, or of the schema itself, with a field for each property and a type for each object. *)
Theorem C60_document_partial W o_quote o_trim A ord ord' file name pkg schema cs os own :
  a_noNested (ga A) = true -> map_order ord -> key_order ord' ->
  doc_parts (exported W) (go_lower W) (a_structNames (ga A)) (a_fieldNames (ga A)) (ga_types A) (a_pointers (ga A)) (trim_space o_trim) file schema cs os own ->
  (a_embed (ga A) = true -> Forall (fun m => n_allOf m = []) (n_oneOf schema)) ->
  q_build W o_quote o_trim A ord ord' file name pkg schema =
    Ok (document (exported W) (go_lower W) (a_structNames (ga A)) (ga_types A) (q o_quote) (trim_space o_trim) (ga_import A) (ga_any A) (ga_files A) file name pkg schema cs os own).
Proof. exact (build_eq W o_quote o_trim A ord ord' file name pkg schema cs os own). Qed.
Print Assumptions C60_document_partial.
(** Each type of the document is in the files. *)
Theorem C60_types_written title lower structs_map types_map quote trim import any files file name pkg schema cs os own t :
  t ∈ doc_types title lower structs_map types_map name pkg file schema cs os own ->
  written (document title lower structs_map types_map quote trim import any files file name pkg schema cs os own) (newline +:+ show_type title quote trim import t.1.1 t.1.2 t.2).
Proof. exact (doc_type_in title lower structs_map types_map quote trim import any files file name pkg schema cs os own t). Qed.
Print Assumptions C60_types_written.
(** There is one type for each object of a schema. *)
Theorem C60_one_each title rename types_map pointers trim P G dead reqs ps ds Ss : qdeclares_all title rename types_map pointers trim P G dead reqs ps ds Ss -> NoDup ps.*1 ->
  exists l, map qs_key Ss = map (SpecNamed.type_name title P) l /\ NoDup l /\ forall σ, σ ∈ l <-> object_in ps σ.
Proof. exact (types_objects title rename types_map pointers trim P G dead reqs ps ds Ss). Qed.
Print Assumptions C60_one_each.
Example C60_case : a_noNested (ga item_args) = true /\
  doc_parts (exported W0) (go_lower W0) (a_structNames (ga item_args)) (a_fieldNames (ga item_args)) (ga_types item_args) (a_pointers (ga item_args)) (trim_space no_text) "item" item_schema item_cs item_os item_own /\
  Forall (fun m => n_allOf m = []) (n_oneOf item_schema) /\ map (fun t => qs_name t.2) (doc_types (exported W0) (go_lower W0) no_names no_names "item" "item" "item" item_schema item_cs item_os item_own) =
    ["Item"; "BaseAuthors"; "BaseAuthorsHome"; "article"; "ArticlePlace"; "video"] /\
  build item_args other_order backwards "item" "item" "item" item_schema =
    Ok (document (exported W0) (go_lower W0) no_names no_names (q no_text) (trim_space no_text) "example.com/item" true true "item" "item" "item" item_schema item_cs item_os item_own).
Proof. split_and!; [done|exact item_declared|repeat constructor|vm_compute; reflexivity|vm_compute; reflexivity]. Qed.
(** The field with the length of a list can have the name of a property. Then there are no files, or the property has no field; which depends on the order. *)
Theorem C60_totals_refuted : exists schema, named (default [] (n_props schema)) /\ "totalTags" ∈ (default [] (n_props schema)).*1 /\
  build plain_gql same_order as_is "root" "root" "pkg" schema = Err /\
  exists files, build plain_gql other_order as_is "root" "root" "pkg" schema = Ok files /\ ~ written files "totalTags: String".
Proof.
  exists (schema_of [("tags", arr_schema (typed "string" []) []); ("totalTags", typed "string" [])] []). split; [named_ok|]. split; [cbn; set_solver|]. split; [vm_compute; reflexivity|].
  eexists. split; [vm_compute; reflexivity|]. apply not_written. vm_compute. reflexivity.
Qed.
Print Assumptions C60_totals_refuted.
(** The same holds for two objects on ways whose names are the same when put together. *)
Theorem C60_shared_refuted : exists schema, named (default [] (n_props schema)) /\ build_text plain_gql same_order schema <> "" /\
  build_text plain_gql same_order schema <> build_text plain_gql other_order schema.
Proof.
  exists (schema_of [("a", obj_of [("bC", obj_of [("x", typed "string" [])] [])] []); ("aB", obj_of [("c", obj_of [("y", typed "number" [])] [])] [])] []).
  split; [named_ok|]. split; vm_compute; discriminate.
Qed.
Print Assumptions C60_shared_refuted.

(** C50. Of a schema that names no types. The value of a scalar property is never null, unless the schema says that it may be, it is not
    required and the option Pointers is used. *)
Theorem C50_scalar_partial W o_quote o_trim A ord ord' file name pkg schema own files σ k r req i t b :
  a_noNested (ga A) = true -> map_order ord -> key_order ord' ->
  one_schema (exported W) (go_lower W) (a_structNames (ga A)) (a_fieldNames (ga A)) (ga_types A) (a_pointers (ga A)) (trim_space o_trim) file schema own ->
  q_build W o_quote o_trim A ord ord' file name pkg schema = Ok files ->
  prop_at schema σ k r req -> d_inst false r = Ok i -> one_type i t -> scalar_name t (bool_decide (n_format i = "date-time")) = Some b ->
  written files (plain_line (q o_quote) (trim_space o_trim) k (b +:+ (if nullable i && a_pointers (ga A) && negb req then "" else "!")) (n_desc i)).
Proof. exact (fun Hn Ho Ho' H1 Hb => one_scalar W o_quote o_trim A ord ord' file name pkg schema own files Hn Ho Ho' H1 Hb σ k r req i t b). Qed.
Print Assumptions C50_scalar_partial.
(** Times and objects without properties can always be null. *)
Theorem C50_time_partial W o_quote o_trim A ord ord' file name pkg schema own files σ k r req i :
  a_noNested (ga A) = true -> map_order ord -> key_order ord' ->
  one_schema (exported W) (go_lower W) (a_structNames (ga A)) (a_fieldNames (ga A)) (ga_types A) (a_pointers (ga A)) (trim_space o_trim) file schema own ->
  q_build W o_quote o_trim A ord ord' file name pkg schema = Ok files ->
  prop_at schema σ k r req -> d_inst false r = Ok i -> one_type i "string" -> n_format i = "date-time" ->
  written files (plain_line (q o_quote) (trim_space o_trim) k "DateTime" (n_desc i)).
Proof. exact (fun Hn Ho Ho' H1 Hb => one_time W o_quote o_trim A ord ord' file name pkg schema own files Hn Ho Ho' H1 Hb σ k r req i). Qed.
Print Assumptions C50_time_partial.
Theorem C50_any_partial W o_quote o_trim A ord ord' file name pkg schema own files σ k r req i :
  a_noNested (ga A) = true -> map_order ord -> key_order ord' ->
  one_schema (exported W) (go_lower W) (a_structNames (ga A)) (a_fieldNames (ga A)) (ga_types A) (a_pointers (ga A)) (trim_space o_trim) file schema own ->
  q_build W o_quote o_trim A ord ord' file name pkg schema = Ok files ->
  prop_at schema σ k r req -> d_inst false r = Ok i -> one_type i "object" -> n_props i = Some [] ->
  written files (plain_line (q o_quote) (trim_space o_trim) k "Any" (n_desc i)).
Proof. exact (fun Hn Ho Ho' H1 Hb => one_any W o_quote o_trim A ord ord' file name pkg schema own files Hn Ho Ho' H1 Hb σ k r req i). Qed.
Print Assumptions C50_any_partial.
(** Other objects can be null if they are not required and the option Pointers is used. *)
Theorem C50_object_partial W o_quote o_trim A ord ord' file name pkg schema own files σ k r req i kp ps :
  a_noNested (ga A) = true -> map_order ord -> key_order ord' ->
  one_schema (exported W) (go_lower W) (a_structNames (ga A)) (a_fieldNames (ga A)) (ga_types A) (a_pointers (ga A)) (trim_space o_trim) file schema own ->
  q_build W o_quote o_trim A ord ord' file name pkg schema = Ok files ->
  prop_at schema σ k r req -> d_inst false r = Ok i -> one_type i "object" -> n_props i = Some (kp :: ps) ->
  exists T, (T <> "DateTime" -> written files (plain_line (q o_quote) (trim_space o_trim) k (T +:+ pointer_mark (a_pointers (ga A)) req) (n_desc i))) /\
    exists text, type_start T text /\ written files text.
Proof. exact (fun Hn Ho Ho' H1 Hb => one_object W o_quote o_trim A ord ord' file name pkg schema own files Hn Ho Ho' H1 Hb σ k r req i kp ps). Qed.
Print Assumptions C50_object_partial.
(** So can lists. Their members can be null when the list can, if they are objects, and never if they are scalars. *)
Theorem C50_list_scalar_partial W o_quote o_trim A ord ord' file name pkg schema own files σ k r req i x j t b :
  a_noNested (ga A) = true -> map_order ord -> key_order ord' ->
  one_schema (exported W) (go_lower W) (a_structNames (ga A)) (a_fieldNames (ga A)) (ga_types A) (a_pointers (ga A)) (trim_space o_trim) file schema own ->
  q_build W o_quote o_trim A ord ord' file name pkg schema = Ok files ->
  prop_at schema σ k r req -> d_inst false r = Ok i -> one_type i "array" -> n_items i = Some x ->
  d_inst false x = Ok j -> one_type j t -> scalar_name t (bool_decide (n_format j = "date-time")) = Some b ->
  written files (list_line (q o_quote) (trim_space o_trim) k ("[" +:+ b +:+ "!]" +:+ pointer_mark (a_pointers (ga A)) req) (n_desc i)).
Proof. exact (fun Hn Ho Ho' H1 Hb => one_list_scalar W o_quote o_trim A ord ord' file name pkg schema own files Hn Ho Ho' H1 Hb σ k r req i x j t b). Qed.
Print Assumptions C50_list_scalar_partial.
Theorem C50_list_object_partial W o_quote o_trim A ord ord' file name pkg schema own files σ k r req i x j kp ps :
  a_noNested (ga A) = true -> map_order ord -> key_order ord' ->
  one_schema (exported W) (go_lower W) (a_structNames (ga A)) (a_fieldNames (ga A)) (ga_types A) (a_pointers (ga A)) (trim_space o_trim) file schema own ->
  q_build W o_quote o_trim A ord ord' file name pkg schema = Ok files ->
  prop_at schema σ k r req -> d_inst false r = Ok i -> one_type i "array" -> n_items i = Some x ->
  d_inst false x = Ok j -> one_type j "object" -> n_props j = Some (kp :: ps) ->
  exists T, (T <> "DateTime" -> written files (list_line (q o_quote) (trim_space o_trim) k
      ("[" +:+ T +:+ pointer_mark (a_pointers (ga A)) req +:+ "]" +:+ pointer_mark (a_pointers (ga A)) req) (n_desc i))) /\
    exists text, type_start T text /\ written files text.
Proof. exact (fun Hn Ho Ho' H1 Hb => one_list_object W o_quote o_trim A ord ord' file name pkg schema own files Hn Ho Ho' H1 Hb σ k r req i x j kp ps). Qed.
Print Assumptions C50_list_object_partial.
Example C50_case : a_noNested (ga gql_args) = true /\
  one_schema (exported W0) (go_lower W0) (a_structNames (ga gql_args)) (a_fieldNames (ga gql_args)) (ga_types gql_args) (a_pointers (ga gql_args)) (trim_space no_text) "root" gql_schema gql_own /\
  prop_at gql_schema [] "count" (types_schema ["integer"; "null"] []) false /\ prop_at gql_schema [] "title" (typed "string" [("description", jstr "The title")]) true /\
  prop_at gql_schema [] "authors" (arr_schema author []) true /\ prop_at gql_schema [Nm "authors"; Star] "home" home_schema false /\
  exists files, build gql_args other_order backwards "root" "root" "pkg" gql_schema = Ok files /\
    written files (plain_line (q no_text) (trim_space no_text) "count" "Int" "") /\
    written files (plain_line (q no_text) (trim_space no_text) "title" "String!" "The title") /\
    written files (plain_line (q no_text) (trim_space no_text) "born" "DateTime" "") /\
    written files (plain_line (q no_text) (trim_space no_text) "more" "Any" "") /\
    written files (list_line (q no_text) (trim_space no_text) "tags" "[String!]" "") /\
    written files (list_line (q no_text) (trim_space no_text) "authors" "[RootAuthors!]!" "") /\
    written files (plain_line (q no_text) (trim_space no_text) "home" "RootAuthorsHome" "").
Proof.
  split; [done|]. split. { split; [done|]. split; [done|]. split; [exact gql_declared|]. apply without_targets. vm_compute. reflexivity. }
  assert (H1 : forall k r b, (k, r) ∈ gql_props -> bool_decide (k ∈ n_required gql_schema) = b -> prop_at gql_schema [] k r b) by (intros k r b Hin <-; by constructor).
  split; [apply H1; [do 1 right; left|vm_compute; reflexivity]|]. split; [apply H1; [left|vm_compute; reflexivity]|]. split; [apply H1; [do 3 right; left|vm_compute; reflexivity]|]. split.
  { refine (prop_below gql_schema [Nm "authors"; Star] author (inst_of author) [("name", typed "string" []); ("home", home_schema)] "home" home_schema _ _ _ _ _); [|vm_compute; reflexivity|onet|vm_compute; reflexivity|right; left].
    eapply swinst_prop; [do 3 right; left|]. eapply winst_item; [refine (bool_decide_eq_false_1 _ _); vm_compute; reflexivity|refine (bool_decide_eq_true_1 _ _); vm_compute; reflexivity|vm_compute; reflexivity|constructor]. }
  eexists. split; [vm_compute; reflexivity|]. split_and!; (eexists _, _; split; [left|]; apply str_in_contains; vm_compute; reflexivity).
Qed.
(** Properties that may be null are written as if they could not: strings, numbers and times with and without the option, arrays and objects. *)
Theorem C50_null_refuted : exists schema, one_schema (exported W0) (go_lower W0) no_names no_names no_names false (trim_space no_text) "root" schema (part_for plain_gql false "root" schema) /\
  (forall k, k ∈ ["s"; "l"; "o"] -> exists r i, (k, r) ∈ default [] (n_props schema) /\ d_inst false r = Ok i /\ nullable i = true /\ k ∉ n_required schema) /\
  exists files, build plain_gql same_order as_is "root" "root" "pkg" schema = Ok files /\
    written files (plain_line (q no_text) (trim_space no_text) "s" "String!" "") /\
    written files (list_line (q no_text) (trim_space no_text) "l" "[String!]!" "") /\
    written files (plain_line (q no_text) (trim_space no_text) "o" "RootO!" "").
Proof.
  set (s := types_schema ["string"; "null"] []). set (l := types_schema ["array"; "null"] [("items", s)]). set (o := types_schema ["object"; "null"] [("properties", TObj [("x", s)])]).
  exists (schema_of [("s", s); ("l", l); ("o", o)] []). split; [|split].
  - split; [done|]. split; [done|]. split; [apply part_found; vm_compute; reflexivity|]. apply without_targets. vm_compute. reflexivity.
  - intros k Hk. repeat (apply elem_of_cons in Hk as [->|Hk]); [exists s|exists l|exists o|by apply elem_of_nil in Hk]; eexists; (split; [cbn; set_solver|]); (split; [vm_compute; reflexivity|]); (split; [vm_compute; reflexivity|]); cbn; set_solver.
  - eexists. split; [vm_compute; reflexivity|]. split_and!; (eexists _, _; split; [left|]; apply str_in_contains; vm_compute; reflexivity).
Qed.
Print Assumptions C50_null_refuted.
(** And some that are required and may not be null are written as if they could; with the option Pointers too. *)
Theorem C50_required_refuted : exists schema, one_schema (exported W0) (go_lower W0) no_names no_names no_names true (trim_space no_text) "root" schema (part_for item_args false "root" schema) /\
  (forall k, k ∈ ["t"; "m"] -> exists r i, (k, r) ∈ default [] (n_props schema) /\ d_inst false r = Ok i /\ nullable i = false /\ k ∈ n_required schema) /\
  exists files, build item_args same_order as_is "root" "root" "pkg" schema = Ok files /\
    written files (plain_line (q no_text) (trim_space no_text) "t" "DateTime" "") /\
    written files (plain_line (q no_text) (trim_space no_text) "m" "Any" "").
Proof.
  set (t := typed "string" [("format", jstr "date-time")]). set (m := obj_of [] []).
  exists (schema_of [("t", t); ("m", m)] ["t"; "m"]). split; [|split].
  - split; [done|]. split; [done|]. split; [apply part_found; vm_compute; reflexivity|]. apply without_targets. vm_compute. reflexivity.
  - intros k Hk. repeat (apply elem_of_cons in Hk as [->|Hk]); [exists t|exists m|by apply elem_of_nil in Hk]; eexists; (split; [cbn; set_solver|]); (split; [vm_compute; reflexivity|]); (split; [vm_compute; reflexivity|]); cbn; set_solver.
  - eexists. split; [vm_compute; reflexivity|]. split_and!; (eexists _, _; split; [left|]; apply str_in_contains; vm_compute; reflexivity).
Qed.
Print Assumptions C50_required_refuted.

(** C61. When the package has the name of the schema, each type that is said to implement an interface has all its fields, with types that fit. *)
Theorem C61_implements_partial W A name pkg file schema cs os own kind impl J : n_oneOf schema <> [] ->
  default (exported W name) (ga_types A name) = default (exported W pkg) (ga_types A pkg) ->
  (kind, impl, J) ∈ doc_types (exported W) (go_lower W) (a_structNames (ga A)) (ga_types A) name pkg file schema cs os own -> impl <> "" ->
  exists I, ("interface", "", I) ∈ doc_types (exported W) (go_lower W) (a_structNames (ga A)) (ga_types A) name pkg file schema cs os own /\ qs_name I = impl /\ conforms J I.
Proof. exact (doc_interfaces W A name pkg file schema cs os own kind impl J). Qed.
Print Assumptions C61_implements_partial.
Example C61_case : n_oneOf item_schema <> [] /\ map (fun t => (t.1, qs_name t.2)) (filter (fun t => t.1.2 <> "") (doc_types (exported W0) (go_lower W0) no_names no_names "item" "item" "item" item_schema item_cs item_os item_own)) =
  [("type", "Item", "article"); ("type", "Item", "video")].
Proof. split; [done|]. vm_compute. reflexivity. Qed.
(** Otherwise the interface is not there. *)
Theorem C61_name_refuted : exists files, doc_parts (exported W0) (go_lower W0) no_names no_names no_names true (trim_space no_text) "item" item_schema item_cs item_os item_own /\
  build item_args same_order as_is "item" "item" "content" item_schema = Ok files /\ written files "type article implements Item " /\ ~ written files "interface Item ".
Proof.
  eexists. split; [exact item_declared|]. split; [vm_compute; reflexivity|]. split.
  - eexists _, _. split; [right; left|]. apply str_in_contains. vm_compute. reflexivity.
  - apply not_written. vm_compute. reflexivity.
Qed.
Print Assumptions C61_name_refuted.
(** And a member of oneOf that has a property of the interface too can give its field another type. *)
Theorem C61_redeclared_refuted : exists schema files, build item_args same_order as_is "item" "item" "item" schema = Ok files /\
  (exists t, ("item.graphqls", t) ∈ files /\ contains t "interface Item " /\ contains t (plain_line (q no_text) (trim_space no_text) "id" "String!" "")) /\
  exists t, ("item_article.graphqls", t) ∈ files /\ contains t "type article implements Item " /\ contains t (plain_line (q no_text) (trim_space no_text) "id" "Int!" "") /\
    ~ contains t (plain_line (q no_text) (trim_space no_text) "id" "String!" "").
Proof.
  exists (made_of [base_file] [from_file "./article.json" [("id", typed "integer" [])] []]). eexists. split; [vm_compute; reflexivity|]. split.
  - eexists. split; [left|]. split; apply str_in_contains; vm_compute; reflexivity.
  - eexists. split; [right; left|]. split; [apply str_in_contains; vm_compute; reflexivity|]. split; [apply str_in_contains; vm_compute; reflexivity|]. apply str_in_not. vm_compute. reflexivity.
Qed.
Print Assumptions C61_redeclared_refuted.

(** C62. A field refers to a scalar, to a type that the schema names, or to a type of the document. *)
Theorem C62_types_there_partial title lower structs_map rename types_map pointers trim name pkg file schema cs os own :
  doc_parts title lower structs_map rename types_map pointers trim file schema cs os own ->
  forall t d n, t ∈ doc_types title lower structs_map types_map name pkg file schema cs os own -> d ∈ qs_fields t.2 -> refers_to (qd_type d) = Some n ->
  n ∈ given_types \/ (exists m, m ∈ schema :: n_allOf schema ++ n_oneOf schema /\ target_in (default [] (n_props m)) n) \/
  exists t', t' ∈ doc_types title lower structs_map types_map name pkg file schema cs os own /\ qs_name t'.2 = n.
Proof. exact (doc_refs title lower structs_map rename types_map pointers trim name pkg file schema cs os own). Qed.
Print Assumptions C62_types_there_partial.
Example C62_case : doc_parts (exported W0) (go_lower W0) no_names no_names no_names true (trim_space no_text) "item" item_schema item_cs item_os item_own /\
  exists t d, t ∈ doc_types (exported W0) (go_lower W0) no_names no_names "item" "item" "item" item_schema item_cs item_os item_own /\ qs_name t.2 = "article" /\ d ∈ qs_fields t.2 /\ refers_to (qd_type d) = Some "BaseAuthors".
Proof.
  split; [exact item_declared|]. set (l := doc_types _ _ _ _ _ _ _ _ _ _ _). vm_compute in l. eexists _, _. split; [unfold l; do 3 right; left|]. split; [done|]. split; [left|]. done.
Qed.
(** With EmbedAllOf, the types for objects of schemas included in a member of oneOf are missing. *)
Theorem C62_embed_refuted : exists schema files, build (GArgs (Args false true true true no_names no_names) no_names "p" false true) same_order as_is "item" "item" "item" schema = Ok files /\
  written files ": ExtraPlace" /\ ~ written files "type ExtraPlace ".
Proof.
  set (m := from_file "./extra.json" [("place", home_schema)] []).
  exists (made_of [base_file] [Inst true [m] [] "" None false "" "./article.json" [] None [] (Some [("body", typed "string" [])]) "" [] "" "" (Some ["object"])]).
  eexists. split; [vm_compute; reflexivity|]. split; [eexists _, _; split; [left|]; apply str_in_contains; vm_compute; reflexivity|]. apply not_written. vm_compute. reflexivity.
Qed.
Print Assumptions C62_embed_refuted.
(** And the fields of those schemas are also in the types for the members of oneOf after it. *)
Theorem C60_embed_refuted : exists schema files, build (GArgs (Args false true true true no_names no_names) no_names "p" true true) same_order as_is "item" "item" "item" schema = Ok files /\
  (forall m p, m ∈ n_oneOf schema -> file_of m = "video" -> p ∈ default [] (n_props m) ++ (n_allOf m ≫= fun c => default [] (n_props c)) -> p.1 <> "place") /\
  exists t, ("item_video.graphqls", t) ∈ files /\ contains t "  place: ".
Proof.
  set (m := from_file "./extra.json" [("place", home_schema)] []).
  exists (made_of [base_file] [Inst true [m] [] "" None false "" "./article.json" [] None [] (Some [("body", typed "string" [])]) "" [] "" "" (Some ["object"]); video_file]).
  eexists. split; [vm_compute; reflexivity|]. split.
  - intros x p Hx Hf Hp. apply elem_of_cons in Hx as [->|Hx]; [by vm_compute in Hf|]. apply elem_of_list_singleton in Hx as ->. cbn in Hp. apply elem_of_list_singleton in Hp as ->. done.
  - eexists. split; [right; right; left|]. apply str_in_contains. vm_compute. reflexivity.
Qed.
Print Assumptions C60_embed_refuted.

(** C63. Each type is for the struct that the Go generator makes for the same object: it has a field with the names and the type of each field that is stored. *)
Theorem C63_go_partial W o_trim A file name pkg schema own gs Gs t : n_allOf schema = [] -> n_oneOf schema = [] ->
  declares_part (exported W) (go_lower W) (a_structNames (ga A)) (a_fieldNames (ga A)) (ga_types A) (a_pointers (ga A)) (trim_space o_trim) false file schema own ->
  ndeclares_all (exported W) (a_fieldNames (ga A)) (a_pointers (ga A)) (exported W (go_struct (exported W) (a_structNames (ga A)) file)) (n_required schema) (default [] (n_props schema)) gs Gs ->
  t ∈ doc_types (exported W) (go_lower W) (a_structNames (ga A)) (ga_types A) name pkg file schema [] [] own ->
  exists fs, (qs_key t.2, fs) ∈ (go_struct (exported W) (a_structNames (ga A)) file, by_name gs) :: Gs /\
    go_fields (is_total (exported W) (a_fieldNames (ga A)) (trim_space o_trim)) (target_in (default [] (n_props schema))) (p_S own) (qs_fields t.2) fs.
Proof. exact (doc_go W o_trim A file name pkg schema own gs Gs t). Qed.
Print Assumptions C63_go_partial.
Definition go_own : part := part_for gql_args false "root" (schema_of named_props named_req).
Example C63_case : let schema := schema_of named_props named_req in
  n_allOf schema = [] /\ n_oneOf schema = [] /\
  declares_part (exported W0) (go_lower W0) (a_structNames (ga gql_args)) (a_fieldNames (ga gql_args)) (ga_types gql_args) (a_pointers (ga gql_args)) (trim_space no_text) false "root" schema go_own /\
  ndeclares_all (exported W0) (a_fieldNames (ga gql_args)) (a_pointers (ga gql_args)) (exported W0 (go_struct (exported W0) (a_structNames (ga gql_args)) "root")) (n_required schema) named_props named_decls named_structs /\
  map (fun t => qs_key t.2) (doc_types (exported W0) (go_lower W0) no_names no_names "root" "pkg" "root" schema [] [] go_own) = ["Root"; "RootPets"; "RootPetsHome"].
Proof. split_and!; [done|done|apply part_found; vm_compute; reflexivity|exact named_declared|vm_compute; reflexivity]. Qed.

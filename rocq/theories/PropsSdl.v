(** Properties of generated GraphQL files as a reader of GraphQL sees them: C74. *)
From stdpp Require Import strings list gmap.
From Coq Require Import Ascii ZArith.
From Verif Require Import GoStr GoStrL Val Conv Schema Inst Load SpecConv SpecPath SpecWalk WalkL SpecLoad SpecGen SpecNamed SpecGql Gen Avro Gql GenP GenT NamedK NamedU GqlB GqlC GqlD GqlE World Cases CaseGen CaseNamed CaseGql SpecDesc SpecSdl SpecDoc SpecRead SdlM.

(** C74. The generated files are GraphQL documents, with the definitions that the schemas stand for: if names are GraphQL names, descriptions can
    be read back, each type has a field, and the texts that the schema gives for types and arguments are types and arguments. *)
Theorem C74_documents_partial W o_quote o_trim A ord ord' file name pkg schema cs os own defss :
  a_noNested (ga A) = true -> map_order ord -> key_order ord' ->
  doc_parts (exported W) (go_lower W) (a_structNames (ga A)) (a_fieldNames (ga A)) (ga_types A) (a_pointers (ga A)) (trim_space o_trim) file schema cs os own ->
  (a_embed (ga A) = true -> Forall (fun m => n_allOf m = []) (n_oneOf schema)) ->
  mapM (defs_of (exported W) (trim_space o_trim) (ga_import A))
    (doc_files (exported W) (go_lower W) (a_structNames (ga A)) (ga_types A) (ga_any A) (ga_files A) file name pkg schema cs os own) = Some defss ->
  exists files, q_build W o_quote o_trim A ord ord' file name pkg schema = Ok files /\
    map (fun f => (f.1, parse_gql f.2)) files =
      zip_with (fun e ds => (e.1.1, Some ds)) (doc_files (exported W) (go_lower W) (a_structNames (ga A)) (ga_types A) (ga_any A) (ga_files A) file name pkg schema cs os own) defss.
Proof. exact (build_read W o_quote o_trim A ord ord' file name pkg schema cs os own defss). Qed.
Print Assumptions C74_documents_partial.
Definition type_summary (d : definition) : string * list string * nat := match d with DScalar _ n _ => (n, [], 0) | DType _ _ n is _ fs => (n, is, length fs) end.
Example C74_case : a_noNested (ga item_args) = true /\
  doc_parts (exported W0) (go_lower W0) (a_structNames (ga item_args)) (a_fieldNames (ga item_args)) (ga_types item_args) (a_pointers (ga item_args)) (trim_space no_text) "item" item_schema item_cs item_os item_own /\
  Forall (fun m => n_allOf m = []) (n_oneOf item_schema) /\
  exists defss, mapM (defs_of (exported W0) (trim_space no_text) "example.com/item") (doc_files (exported W0) (go_lower W0) no_names no_names true true "item" "item" "item" item_schema item_cs item_os item_own) = Some defss /\
    map (map type_summary) defss =
      [[("Any", [], 0); ("Item", [], 3); ("BaseAuthors", [], 2); ("BaseAuthorsHome", [], 1)]; [("article", ["Item"], 6); ("ArticlePlace", [], 1)]; [("video", ["Item"], 4)]] /\
    exists files, build item_args other_order backwards "item" "item" "item" item_schema = Ok files /\ map (fun f => parse_gql f.2) files = map Some defss.
Proof.
  split; [done|]. split; [exact item_declared|]. split; [repeat constructor|].
  exists (default [] (mapM (defs_of (exported W0) (trim_space no_text) "example.com/item") (doc_files (exported W0) (go_lower W0) no_names no_names true true "item" "item" "item" item_schema item_cs item_os item_own))).
  split; [vm_compute; reflexivity|]. split; [vm_compute; reflexivity|].
  exists (match build item_args other_order backwards "item" "item" "item" item_schema with Ok files => files | _ => [] end). split; vm_compute; reflexivity.
Qed.
(** Descriptions, reasons and arguments are read as they are in the schema. *)
Definition sdl_schema : instance := schema_of
  [("title", typed "string" [("description", jstr ("DEPRECATED: see \headline" +:+ newline +:+ "The title," +:+ newline +:+ "  in ""English"""))]);
   ("related", typed "graphql-hydration" [("target", jstr "[Item!]"); ("graphql-arguments", TArr [jstr """How many"""; jstr "count: Int = 10 @check(max: 20), kinds: [String!]"])])] ["title"].
Definition sdl_own : part := part_for plain_gql false "root" sdl_schema.
Example C74_texts_case : doc_parts (exported W0) (go_lower W0) (a_structNames (ga plain_gql)) (a_fieldNames (ga plain_gql)) (ga_types plain_gql) (a_pointers (ga plain_gql)) (trim_space no_text) "root" sdl_schema [] [] sdl_own /\
  mapM (defs_of (exported W0) (trim_space no_text) "example.com/pkg") (doc_files (exported W0) (go_lower W0) no_names no_names false false "root" "root" "pkg" sdl_schema [] [] sdl_own) =
    Some [[DType "type" None "Root" [] [Directive "goModel" [("model", GStr "example.com/pkg.Root")]]
      [Field None "related" [Input (Some "How many") "count" (TyName "Int" false) (Some (GInt "10")) [Directive "check" [("max", GInt "20")]];
                             Input None "kinds" (TyList (TyName "String" true) false) None []] (TyList (TyName "Item" true) false) [];
       Field (Some ("The title," +:+ newline +:+ "  in ""English""")) "title" [] (TyName "String" true) [Directive "deprecated" [("reason", GStr "see \headline")]]]]].
Proof. split; [apply doc_found; vm_compute; reflexivity|vm_compute; reflexivity]. Qed.

(** Otherwise a file need not be a document: of a schema without properties, or with a property that has no GraphQL name, *)
Definition root_read (A : gargs) (schema : instance) : option (list definition) :=
  match build A same_order as_is "root" "root" "pkg" schema with Ok [f] => parse_gql f.2 | _ => None end.
Definition root_text (A : gargs) (schema : instance) : string :=
  match build A same_order as_is "root" "root" "pkg" schema with Ok [f] => f.2 | _ => "" end.
Theorem C74_empty_refuted : exists schema, n_props schema = Some [] /\ root_text plain_gql schema = header +:+ newline +:+ "type Root {" +:+ newline +:+ "}" +:+ newline /\ root_read plain_gql schema = None.
Proof. exists (schema_of [] []). split; [done|]. split; vm_compute; reflexivity. Qed.
Print Assumptions C74_empty_refuted.
Theorem C74_names_refuted : exists schema, named (default [] (n_props schema)) /\ root_text plain_gql schema <> "" /\ root_read plain_gql schema = None.
Proof. exists (schema_of [("first-name", typed "string" [])] []). split; [named_ok|]. split; vm_compute; [discriminate|reflexivity]. Qed.
Print Assumptions C74_names_refuted.
(** or with a quote in a description. *)
Theorem C74_descriptions_refuted : exists schema, named (default [] (n_props schema)) /\ root_text plain_gql schema <> "" /\ root_read plain_gql schema = None.
Proof. exists (schema_of [("title", typed "string" [("description", jstr "The ""title""")])] []). split; [named_ok|]. split; vm_compute; [discriminate|reflexivity]. Qed.
Print Assumptions C74_descriptions_refuted.
(** Without the option NoNestedStructs, objects with properties are written as blocks, which GraphQL does not have. *)
Definition nested_gql : gargs := GArgs (Args false false false false no_names no_names) no_names "example.com/pkg" false false.
Theorem C74_nested_refuted : exists schema, named (default [] (n_props schema)) /\ root_text nested_gql schema <> "" /\ root_read nested_gql schema = None /\ root_read plain_gql schema <> None.
Proof. exists (schema_of [("place", home_schema)] []). split; [named_ok|]. split_and!; vm_compute; [discriminate|reflexivity|discriminate]. Qed.
Print Assumptions C74_nested_refuted.

(** C76: whole runs of the generator, with GraphQL, Avro and MessagePack files. *)
From stdpp Require Import strings list gmap.
From Verif Require Import GoStr GoStrL Val Conv Schema Inst Load FlatL SpecPath SpecLoad SpecGen SpecNamed SpecFiles WalkL Gen GenL GenP World Cases CaseGen CaseLoad Files FilesL CaseFiles.
From Verif Require Import Gql Avro GoSrc Mapper CaseGo SpecAvro SpecGo SpecEmbed SpecWhole WholeL EmbedL Whole CaseWhole.

(** C76. Without GraphQL, Avro and MessagePack a run makes the Go files of C53, and nothing else. *)
Theorem C76_plain W F o_abs o_fmt o_quote o_trim o_quote_avro o_unquote o_tag o_types o_gogen o_declared o_join o_msgp A pkg ord ord' n fuel og og' sp d :
  r_graphql A = false -> r_avro A = false -> r_msgp A = false ->
  run W F o_abs o_fmt o_quote o_trim o_quote_avro o_unquote o_tag o_types o_gogen o_declared o_join o_msgp A pkg ord ord' n fuel og og' sp d =
    (fun x => (Disk x.1 (d_gql d) (d_avro d), x.2)) <$> build_structs W F o_abs o_fmt (ga (r_gql A)) pkg ord ord' n sp (d_out d).
Proof. exact (run_plain W F o_abs o_fmt o_quote o_trim o_quote_avro o_unquote o_tag o_types o_gogen o_declared o_join o_msgp A pkg ord ord' n fuel og og' sp d). Qed.
Print Assumptions C76_plain.
Example C76_plain_case : exists d, run_with shelf_files (whole_args media_args false false false) "shelf.json" nothing = Some (d, Ok tt) /\
  d = Disk (map (fun w => (w_file w, w_text w)) shelf_wanted) [] [].
Proof. eexists. split; [vm_compute; reflexivity|vm_compute; reflexivity]. Qed.

(** If there is no schema nothing is written. *)
Theorem C76_no_schema W F o_abs o_fmt o_quote o_trim o_quote_avro o_unquote o_tag o_types o_gogen o_declared o_join o_msgp A pkg ord ord' n fuel og og' sp d :
  (forall doc i, f_file F (o_abs sp) = Some doc -> d_inst false doc <> Ok i) ->
  exists r, run W F o_abs o_fmt o_quote o_trim o_quote_avro o_unquote o_tag o_types o_gogen o_declared o_join o_msgp A pkg ord ord' n fuel og og' sp d = Some (d, r) /\ r <> Ok tt.
Proof. exact (run_no_schema W F o_abs o_fmt o_quote o_trim o_quote_avro o_unquote o_tag o_types o_gogen o_declared o_join o_msgp A pkg ord ord' n fuel og og' sp d). Qed.
Print Assumptions C76_no_schema.
Example C76_no_schema_case : forall doc i, f_file shelf_files (in_s "other.json") = Some doc -> d_inst false doc <> Ok i.
Proof. by vm_compute. Qed.

(** Whatever the outcome, in the output directory only files of these names are changed: for each member of allOf and oneOf, and for the schema
    itself if it has properties or no members, the Go file, which has the name of the file of the schema, and with Avro three files
    that have the name of the struct in lower case; with MessagePack two files for the package. With GraphQL, files whose names begin with the
    name of the schema; with Avro, a directory for each struct. *)
Theorem C76_only_these W F o_abs o_fmt o_quote o_trim o_quote_avro o_unquote o_tag o_types o_gogen o_declared o_join o_msgp A pkg ord ord' n fuel og og' sp doc i d d' r
    (title := exported W) (members := member title (a_structNames (ga (r_gql A))) i (o_abs sp)) :
  f_file F (o_abs sp) = Some doc -> d_inst false doc = Ok i ->
  run W F o_abs o_fmt o_quote o_trim o_quote_avro o_unquote o_tag o_types o_gogen o_declared o_join o_msgp A pkg ord ord' n fuel og og' sp d = Some (d', r) ->
  (forall f, ~ ((exists ref name, members ref name /\
                   f ∈ names_for title (go_lower W) (r_avro A) (if has_prefix "/" ref then o_abs ref else f_rel F sp ref) name) \/
                (r_msgp A = true /\ exists p, f = p +:+ "_msgp.go" \/ f = p +:+ "_msgp_test.go")) ->
     assocd f (d_out d') = assocd f (d_out d)) /\
  (forall f, ~ (r_graphql A = true /\ gql_name sp f) -> assocd f (d_gql d') = assocd f (d_gql d)) /\
  (forall p, ~ (r_avro A = true /\ exists ref name, members ref name /\ p = sub_name (low title (go_lower W) name +:+ ".avsc")) ->
     assocd p (d_avro d') = assocd p (d_avro d)).
Proof. exact (run_frame W F o_abs o_fmt o_quote o_trim o_quote_avro o_unquote o_tag o_types o_gogen o_declared o_join o_msgp A pkg ord ord' n fuel og og' sp doc i d d' r). Qed.
Print Assumptions C76_only_these.
Example C76_only_these_case : f_file shelf_files (in_s "shelf.json") = Some shelf_doc /\ d_inst false shelf_doc = Ok (inst_of shelf_doc) /\
  brief (run_with shelf_files (whole_args media_args true true true) "shelf.json" nothing) =
    Some (["base.go"; "base.avsc"; "base_avro.go"; "base_avro_test.go"; "image.go"; "image.avsc"; "image_avro.go"; "image_avro_test.go";
           "clip.go"; "video.avsc"; "video_avro.go"; "video_avro_test.go"; "pkg_msgp.go"; "pkg_msgp_test.go"], ["shelf.graphqls"], ["base"; "image"; "video"], Ok tt).
Proof. split_and!; vm_compute; reflexivity. Qed.

(** A run that fails has stopped at the first thing that failed: either in the files for GraphQL, and no Go file was touched; or at some member,
    and the files of all members before it are as they are after a run for these members only, and besides them nothing but the files of that
    member was touched; or after all members, in MessagePack. *)
Theorem C76_stops W F o_abs o_fmt o_quote o_trim o_quote_avro o_unquote o_tag o_types o_gogen o_declared o_join o_msgp A pkg ord ord' n fuel og og' sp doc i d d' r
    (ms := members_of W o_abs A sp (map n_ref (n_allOf i)) (map n_ref (n_oneOf i)) (sort_strings (default [] (n_props i)).*1))
    (built := build_members W F o_abs o_fmt o_quote_avro o_unquote o_tag o_types o_gogen o_declared o_join A pkg ord ord' n fuel 0 sp) :
  f_file F (o_abs sp) = Some doc -> d_inst false doc = Ok i ->
  run W F o_abs o_fmt o_quote o_trim o_quote_avro o_unquote o_tag o_types o_gogen o_declared o_join o_msgp A pkg ord ord' n fuel og og' sp d = Some (d', r) -> r <> Ok tt ->
  (r_graphql A = true /\ (forall f, assocd f (d_out d') = assocd f (d_out d)) /\ (forall p, assocd p (d_avro d') = assocd p (d_avro d))) \/
  exists dg, (r_graphql A = false /\ dg = d \/ r_graphql A = true /\ build_gql W F o_abs o_quote o_trim A pkg n og og' sp d = Some (dg, Ok tt)) /\
   ((exists before m after d1, ms = before ++ m :: after /\ built before dg = Some (d1, Ok tt) /\
      (forall f, f ∉ names_for (exported W) (go_lower W) (r_avro A) (child_path F o_abs sp m.1.1) m.1.2 -> assocd f (d_out d') = assocd f (d_out d1)) /\
      (forall f, assocd f (d_gql d') = assocd f (d_gql d1)) /\
      (forall p, ~ (r_avro A = true /\ p = sub_name (low (exported W) (go_lower W) m.1.2 +:+ ".avsc")) -> assocd p (d_avro d') = assocd p (d_avro d1))) \/
    (r_msgp A = true /\ built ms dg = Some (d', Ok tt))).
Proof. exact (run_fails W F o_abs o_fmt o_quote o_trim o_quote_avro o_unquote o_tag o_types o_gogen o_declared o_join o_msgp A pkg ord ord' n fuel og og' sp doc i d d' r). Qed.
Print Assumptions C76_stops.
Example C76_stops_case : f_file broken_files (in_s "shelf.json") = Some shelf_doc /\ d_inst false shelf_doc = Ok (inst_of shelf_doc) /\
  brief (run_with broken_files (whole_args media_args false true true) "shelf.json" nothing) =
    Some (["base.go"; "base.avsc"; "base_avro.go"; "base_avro_test.go"; "image.go"; "image.avsc"; "image_avro.go"; "image_avro_test.go"], [], ["base"; "image"], Err).
Proof. split_and!; vm_compute; reflexivity. Qed.
(** So a run that fails leaves files behind; for GraphQL, a file that only has a heading. *)
Theorem C76_atomic_refuted : exists F A sp d, run_with F A sp nothing = Some (d, Err) /\ d_out d = [] /\ d_gql d = [("shelf.graphqls", q_header)].
Proof. exists broken_files, (whole_args media_args true false false), "shelf.json". eexists. split_and!; [vm_compute; reflexivity..]. Qed.
Print Assumptions C76_atomic_refuted.

(** With GraphQL, if the files of C50 can be made for the schema, then they are there with these texts whatever happens later, and no other file for GraphQL is touched ... *)
Theorem C76_graphql W F o_abs o_fmt o_quote o_trim o_quote_avro o_unquote o_tag o_types o_gogen o_declared o_join o_msgp A pkg ord ord' n fuel og og' sp doc i d d' r schema files
    (path := if has_prefix "/" sp then o_abs sp else f_rel F sp sp) :
  f_file F (o_abs sp) = Some doc -> d_inst false doc = Ok i -> r_graphql A = true ->
  run W F o_abs o_fmt o_quote o_trim o_quote_avro o_unquote o_tag o_types o_gogen o_declared o_join o_msgp A pkg ord ord' n fuel og og' sp d = Some (d', r) ->
  load_schema F (sub_name sp) (negb (a_embed (ga (r_gql A)))) n path = Some (Ok schema) ->
  q_build W o_quote o_trim (r_gql A) og og' (sub_name path) (sub_name sp) pkg schema = Ok files -> NoDup files.*1 ->
  (forall f t, (f, t) ∈ files -> assocd f (d_gql d') = Some t) /\ (forall f, f ∉ files.*1 -> assocd f (d_gql d') = assocd f (d_gql d)).
Proof. exact (run_gql W F o_abs o_fmt o_quote o_trim o_quote_avro o_unquote o_tag o_types o_gogen o_declared o_join o_msgp A pkg ord ord' n fuel og og' sp doc i d d' r schema files). Qed.
Print Assumptions C76_graphql.
(** ... and if they cannot be made, the run fails, and no other file is touched. *)
Theorem C76_no_graphql W F o_abs o_fmt o_quote o_trim o_quote_avro o_unquote o_tag o_types o_gogen o_declared o_join o_msgp A pkg ord ord' n fuel og og' sp doc i d schema
    (path := if has_prefix "/" sp then o_abs sp else f_rel F sp sp) :
  f_file F (o_abs sp) = Some doc -> d_inst false doc = Ok i -> r_graphql A = true ->
  load_schema F (sub_name sp) (negb (a_embed (ga (r_gql A)))) n path = Some (Ok schema) ->
  (forall files, q_build W o_quote o_trim (r_gql A) og og' (sub_name path) (sub_name sp) pkg schema <> Ok files) ->
  exists d' r, run W F o_abs o_fmt o_quote o_trim o_quote_avro o_unquote o_tag o_types o_gogen o_declared o_join o_msgp A pkg ord ord' n fuel og og' sp d = Some (d', r) /\
    r <> Ok tt /\ forall f, assocd f (d_out d') = assocd f (d_out d).
Proof. exact (run_gql_bad W F o_abs o_fmt o_quote o_trim o_quote_avro o_unquote o_tag o_types o_gogen o_declared o_join o_msgp A pkg ord ord' n fuel og og' sp doc i d schema). Qed.
Print Assumptions C76_no_graphql.
Example C76_graphql_case : f_file shelf_files (in_s "shelf.json") = Some shelf_doc /\ d_inst false shelf_doc = Ok (inst_of shelf_doc) /\
  exists schema files, load_schema shelf_files (sub_name "shelf.json") true 3 (f_rel shelf_files "shelf.json" "shelf.json") = Some (Ok schema) /\
    q_build W0 id id (r_gql (whole_args media_args true true true)) same_order as_is "shelf" "shelf" "pkg" schema = Ok files /\ files.*1 = ["shelf.graphqls"] /\
    d_gql <$> (fst <$> run_with shelf_files (whole_args media_args true true true) "shelf.json" nothing) = Some files.
Proof. split_and!; [vm_compute; reflexivity..|]. eexists _, _. split_and!; [vm_compute; reflexivity..]. Qed.
(** The path of the schema is taken to be relative to its own directory: for GraphQL, a schema in a directory below is not found. *)
Theorem C76_relative_refuted : exists F sp d, f_file F (in_s sp) <> None /\
  (exists fs, run_with F (whole_args plain_args false false false) sp nothing = Some (fs, Ok tt) /\ (d_out fs).*1 = ["item.go"]) /\
  run_with F (whole_args plain_args true false false) sp nothing = Some (d, Err) /\
  exists fs, run_with F (whole_args plain_args true false false) (in_s sp) nothing = Some (fs, Ok tt) /\ (d_out fs).*1 = ["item.go"].
Proof.
  exists below_files, "sub/item.json". eexists. split_and!; [by vm_compute|eexists; split; [vm_compute; reflexivity..]|vm_compute; reflexivity|eexists; split; [vm_compute; reflexivity..]].
Qed.
Print Assumptions C76_relative_refuted.

(** C76, Avro. If a run succeeds, with nested structs, then each Go file has its text, and the file for the Avro schema of each struct
    whose Avro fields are [docs] has the text of a record with these fields after the two metadata fields. The structs that can be embedded are
    those of earlier files: members of allOf come before the schema itself and members of oneOf. Needed: formatting keeps declarations, names
    of files do not clash. Missing: flat structs, structs embedded twice, embedded structs in files that are not named after them. *)
Theorem C76_avro_partial W F o_abs o_fmt o_quote o_trim o_quote_avro o_unquote o_tag o_types o_gogen o_declared o_join o_msgp A pkg ord ord' es_of ds_of n fuel og og' sp doc i ws d d'
    (SA := ga (r_gql A)) (title := exported W) (lower := go_lower W) (formatted := fun t t' => o_fmt t = Some t')
    (loaded := fun path ty schema => load_schema F ty (negb (a_embed SA)) n path = Some (Ok schema)) :
  (forall j, map_order (ord j)) -> (forall j, key_order (ord' j)) -> a_noNested SA = false -> r_avro A = true -> identifier pkg = true ->
  (forall t t' x, o_fmt t = Some t' -> parse_go t = Some x -> parse_go (o_types t') = Some x) ->
  f_file F (o_abs sp) = Some doc -> d_inst false doc = Ok i ->
  files_of title (a_structNames SA) (a_fieldNames SA) (a_descTag SA) (a_noNested SA) (a_pointers SA) (a_embed SA) pkg
    (fun ref => if has_prefix "/" ref then o_abs ref else f_rel F sp ref) formatted loaded i (o_abs sp) ws ->
  (forall w, w ∈ ws -> made_as title (a_structNames SA) (a_fieldNames SA) (a_descTag SA) (a_pointers SA) (a_embed SA) es_of ds_of pkg formatted loaded w) ->
  NoDup (map w_base ws) -> NoDup (map (fun w => low title lower (w_name w)) ws) ->
  (forall w w', w ∈ ws -> w' ∈ ws -> w_file w ∉ avro_names title lower (w_name w')) ->
  run W F o_abs o_fmt o_quote o_trim o_quote_avro o_unquote o_tag o_types o_gogen o_declared o_join o_msgp A pkg ord ord' n fuel og og' sp d = Some (d', Ok tt) ->
  (forall w, w ∈ ws -> (r_msgp A = true -> forall p, w_base w <> p +:+ "_msgp" /\ w_base w <> p +:+ "_msgp_test") -> assocd (w_file w) (d_out d') = Some (w_text w)) /\
  forall before w after docs seen, ws = before ++ w :: after -> avro_struct_ok (a_descTag SA) (title (w_name w)) (es_of w) (ds_of w) = true ->
    avro_struct (a_descTag SA) (structs_in title lower (a_descTag SA) es_of ds_of before) [] [] (es_of w) (by_name (ds_of w)) docs seen -> NoDup seen -> docs <> [] ->
    exists s, assocd (low title lower (w_name w) +:+ ".avsc") (d_out d') = Some s /\ text (record_doc [] (title (w_name w)) (write_time :: deleted :: docs)) s.
Proof.
  exact (fun Ho Ho' Hn Ha Hp Hk => run_avro W F o_abs o_fmt o_quote o_trim o_quote_avro o_unquote o_tag o_types o_gogen o_declared o_join o_msgp A pkg ord ord' Ho Ho' Hn Ha Hp Hk es_of ds_of n fuel og og' sp doc i ws d d').
Qed.
Print Assumptions C76_avro_partial.
Example C76_avro_case : (forall j, map_order (order_same j)) /\ (forall j, key_order (keys_same j)) /\
  (forall t t' x, fmt_same t = Some t' -> parse_go t = Some x -> parse_go (id t') = Some x) /\
  files_of (exported W0) (a_structNames media_args) (a_fieldNames media_args) false false false false "pkg"
    (fun ref => if has_prefix "/" ref then in_s ref else f_rel shelf_files "shelf.json" ref)
    (fun text text' => fmt_same text = Some text') (fun path ty schema => load_schema shelf_files ty true 3 path = Some (Ok schema))
    (inst_of shelf_doc) (in_s "shelf.json") shelf_wanted /\
  (forall w, w ∈ shelf_wanted -> made_as (exported W0) (a_structNames media_args) (a_fieldNames media_args) false false false w_embeds shelf_fields "pkg"
    (fun text text' => fmt_same text = Some text') (fun path ty schema => load_schema shelf_files ty true 3 path = Some (Ok schema)) w) /\
  NoDup (map w_base shelf_wanted) /\ NoDup (map (fun w => low (exported W0) (go_lower W0) (w_name w)) shelf_wanted) /\
  (forall w w', w ∈ shelf_wanted -> w' ∈ shelf_wanted -> w_file w ∉ avro_names (exported W0) (go_lower W0) (w_name w')) /\
  (exists before w after, shelf_wanted = before ++ w :: after /\ w_base w = "image" /\ avro_struct_ok false (exported W0 (w_name w)) (w_embeds w) (shelf_fields w) = true /\
    avro_struct false (structs_in (exported W0) (go_lower W0) false w_embeds shelf_fields before) [] [] (w_embeds w) (by_name (shelf_fields w)) [text_doc ["Base"] "id"; text_doc [] "src"] ["Base"]) /\
  exists d, run_with shelf_files (whole_args media_args true true true) "shelf.json" nothing = Some (d, Ok tt) /\ is_Some (assocd "image.avsc" (d_out d)).
Proof.
  split_and!; [intros j; exact same_map_order|intros j; exact as_is_order|by intros t t' x [= <-]|exact shelf_files_of|exact shelf_made|nodup|vm_compute; nodup| | |].
  - intros w w' Hw Hw'. refine (bool_decide_eq_true_1 _ _). unfold shelf_wanted in *.
    repeat (apply elem_of_cons in Hw as [->|Hw]; [repeat (apply elem_of_cons in Hw' as [->|Hw']; [vm_compute; reflexivity|]); by apply elem_of_nil in Hw'|]). by apply elem_of_nil in Hw.
  - eexists [_], _, [_]. split_and!; [reflexivity|reflexivity|vm_compute; reflexivity|exact image_avro].
  - eexists. split; [vm_compute; reflexivity|]. eexists. vm_compute. reflexivity.
Qed.
(** Structs whose names differ in letters only have their own Go files, but one Avro schema. *)
Theorem C76_letters_refuted : exists F d, run_with F (whole_args plain_args false true false) "two.json" nothing = Some (d, Ok tt) /\
  is_Some (assocd "item.go" (d_out d)) /\ is_Some (assocd "ITEM.go" (d_out d)) /\ (forall f, f ∈ (d_out d).*1 -> has_prefix "item" f = false -> f = "ITEM.go") /\
  str_in """name"":""ITEM""" (default "" (assocd "item.avsc" (d_out d))) = true /\ str_in """name"":""Item""" (default "" (assocd "item.avsc" (d_out d))) = false.
Proof.
  exists letters_files. eexists. split_and!; [vm_compute; reflexivity|vm_compute; eauto|vm_compute; eauto| |vm_compute; reflexivity|vm_compute; reflexivity].
  intros f Hf Hp. vm_compute in Hf. repeat (apply elem_of_cons in Hf as [->|Hf]; [first [reflexivity|vm_compute in Hp; discriminate Hp]|]). by apply elem_of_nil in Hf.
Qed.
Print Assumptions C76_letters_refuted.
(** If a member of allOf is renamed, it is not found in the file named after it, and the Avro schema of each member of oneOf, which embeds it, has the
    words "embedded struct not found" in place of its fields. *)
Theorem C76_renamed_refuted : exists F A d, run_with F (whole_args A false false false) "shelf.json" nothing = Some (d, Ok tt) /\ (d_out d).*1 = ["base.go"; "image.go"; "clip.go"] /\
  str_in "{""type"":""embedded struct not found""}" (file_in "image.avsc" (run_with F (whole_args A false true false) "shelf.json" nothing)) = true /\
  str_in """id""" (file_in "image.avsc" (run_with F (whole_args A false true false) "shelf.json" nothing)) = false.
Proof. exists shelf_files, core_args. eexists. split_and!; [vm_compute; reflexivity..]. Qed.
Print Assumptions C76_renamed_refuted.
(** A schema with properties, allOf and oneOf, whose structs are not embedded: the Avro records of members of oneOf have the fields of allOf twice. *)
Theorem C76_twice_refuted : exists F, outcome (run_with F (whole_args media_args false true false) "media.json" nothing) = Some (Ok tt) /\
  str_in "{""name"":""id"",""namespace"":""Base"",""type"":[""null"",""string""]},{""name"":""id"",""namespace"":""Media"",""type"":[""null"",""string""]}"
    (file_in "image.avsc" (run_with F (whole_args media_args false true false) "media.json" nothing)) = true.
Proof. exists media_files. split; vm_compute; reflexivity. Qed.
Print Assumptions C76_twice_refuted.
(** C70 with embedded structs: [G] are the structs that are found in the directory, each as the first type in the file that is named after it. *)
Theorem C70_embeds_partial W o_quote o_unquote A root_name ord schema embeds es ds G docs seen : a_noNested A = false -> map_order ord -> n_items schema = None ->
  NoDup (default [] (n_props schema)).*1 ->
  declares_all (exported W) (a_fieldNames A) (a_pointers A) (n_required schema) (default [] (n_props schema)) ds -> NoDup (map d_go ds) ->
  embeds_as (exported W) (a_structNames A) (a_embed A) (n_allOf schema) es ->
  identifier (exported W root_name) = true -> ascii_text (exported W root_name) = true -> forallb identifier (embeds ++ es) = true ->
  forallb (writable (a_descTag A)) ds = true -> forallb (avro_ok (a_descTag A)) ds = true -> ds <> [] ->
  avro_struct (a_descTag A) G [] [] (embeds ++ es) (by_name ds) docs seen -> NoDup seen -> docs <> [] ->
  exists g, new_file W A ord schema root_name embeds = Ok g /\
  forall pkg ord' dir file text', identifier pkg = true -> key_order ord' -> assocd file dir = Some text' -> parse_go text' = parse_go (file_text W A ord' pkg g) ->
  (forall e es ds, G e = Some (es, ds) -> declares_struct (a_descTag A) (go_lower W) dir e es ds /\ ascii_text e = true /\ forallb (avro_ok (a_descTag A)) ds = true /\ forallb (writable (a_descTag A)) ds = true) ->
  exists s m, text (record_doc [] (exported W root_name) (write_time :: deleted :: docs)) s /\
    forall fuel, m <= fuel -> avro_schema o_unquote W o_quote fuel dir (exported W root_name) file = Some (Ok s).
Proof. exact (avro_embeds W o_quote o_unquote A root_name ord schema embeds es ds G docs seen). Qed.
Print Assumptions C70_embeds_partial.
Example C70_embeds_case : let ds := texts ["src"] in
  avro_struct false (structs_in (exported W0) (go_lower W0) false w_embeds shelf_fields [nth 0 shelf_wanted (Wanted "" "" "" [] "")]) [] [] ["Base"] (by_name ds) [text_doc ["Base"] "id"; text_doc [] "src"] ["Base"] /\
  declares_struct false (go_lower W0) (map (fun w => (w_file w, w_text w)) shelf_wanted) "Base" [] (texts ["id"]).
Proof.
  split; [exact image_avro|]. eexists _, _, _, _. split_and!; [vm_compute; reflexivity|vm_compute; reflexivity|vm_compute; reflexivity|vm_compute; reflexivity].
Qed.

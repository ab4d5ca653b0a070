(** C78: what is left when a run of the generator is interrupted, and what a repetition of the run does. *)
From stdpp Require Import strings list gmap.
From Coq Require Import Ascii Lia.
From Verif Require Import GoStr GoStrL Val Conv Schema Inst Load FlatL SpecPath SpecLoad SpecGen SpecNamed SpecFiles WalkL Gen GenL GenP World Cases CaseGen CaseLoad Files FilesL CaseFiles.
From Verif Require Import Gql Avro GoSrc Mapper CaseGo SpecAvro SpecGo SpecEmbed SpecWhole WholeL EmbedL Whole CaseWhole Crash CrashL CaseCrash.

(** The writes of a run, in order, are all that it does. *)
Theorem C78_writes W F o_abs o_fmt o_quote o_trim o_quote_avro o_unquote o_tag o_types o_gogen o_declared o_join o_msgp A pkg ord ord' n fuel og og' sp d :
  run W F o_abs o_fmt o_quote o_trim o_quote_avro o_unquote o_tag o_types o_gogen o_declared o_join o_msgp A pkg ord ord' n fuel og og' sp d =
  match run_log W F o_abs o_fmt o_quote o_trim o_quote_avro o_unquote o_tag o_types o_gogen o_declared o_join o_msgp A pkg ord ord' n fuel og og' sp d with
  | Some (ws, r) => Some (apply_writes ws d, r)
  | None => None
  end.
Proof. exact (run_is_log W F o_abs o_fmt o_quote o_trim o_quote_avro o_unquote o_tag o_types o_gogen o_declared o_join o_msgp A pkg ord ord' n fuel og og' sp d). Qed.
Print Assumptions C78_writes.
Example C78_writes_case : names_written (desk_log (whole_args flat_args true true true) nothing) =
    Some (["desk.graphqls"; "desk.graphqls"; "desk.graphqls"; "base.go"; "base.avsc"; "avro/base"; "base_avro.go"; "base_avro_test.go";
           "image.go"; "image.avsc"; "avro/image"; "image_avro.go"; "image_avro_test.go"; "pkg_msgp.go"; "pkg_msgp_test.go"], Ok tt).
Proof. vm_compute. reflexivity. Qed.

(** Wherever a run is interrupted, between two writes or in a write, only files of the schema are touched: the Go files and the Avro files of its
    members, the GraphQL files of the schema, and with MessagePack the files of that. *)
Theorem C78_only_these W F o_abs o_fmt o_quote o_trim o_quote_avro o_unquote o_tag o_types o_gogen o_declared o_join o_msgp A pkg ord ord' n fuel og og' sp doc i d d1
    (title := exported W) (members := member title (a_structNames (ga (r_gql A))) i (o_abs sp)) :
  f_file F (o_abs sp) = Some doc -> d_inst false doc = Ok i ->
  interrupted W F o_abs o_fmt o_quote o_trim o_quote_avro o_unquote o_tag o_types o_gogen o_declared o_join o_msgp A pkg ord ord' n fuel og og' sp d d1 ->
  (forall f, ~ ((exists ref name, members ref name /\
                   f ∈ names_for title (go_lower W) (r_avro A) (if has_prefix "/" ref then o_abs ref else f_rel F sp ref) name) \/
                (r_msgp A = true /\ exists p, f = p +:+ "_msgp.go" \/ f = p +:+ "_msgp_test.go")) ->
     content d1 (POut f) = content d (POut f)) /\
  (forall f, ~ (r_graphql A = true /\ gql_name sp f) -> content d1 (PGql f) = content d (PGql f)) /\
  (forall p f, ~ (r_avro A = true /\ exists ref name, members ref name /\ p = sub_name (low title (go_lower W) name +:+ ".avsc")) ->
     content d1 (PAvro p f) = content d (PAvro p f)).
Proof. exact (interrupted_only W F o_abs o_fmt o_quote o_trim o_quote_avro o_unquote o_tag o_types o_gogen o_declared o_join o_msgp A pkg ord ord' n fuel og og' sp doc i d d1). Qed.
Print Assumptions C78_only_these.
(** the examples: the run with everything is interrupted in the text of image.go *)
Example C78_only_these_case (A := whole_args flat_args true true true) (d1 := state_in 8 11 (desk_log A nothing) nothing) :
  f_file desk_files (in_s "desk.json") = Some desk_doc /\ d_inst false desk_doc = Ok (inst_of desk_doc) /\ desk_interrupted A nothing d1 /\
  content d1 (POut "image.go") = Some "package pkg" /\ content d1 (POut "image.avsc") = None.
Proof. split_and!; [vm_compute; reflexivity|vm_compute; reflexivity|by apply desk_stopped; eexists _, _; split; [vm_compute; reflexivity|cbn; lia]|vm_compute; reflexivity..]. Qed.

(** A run is interrupted at one point: either in the files for GraphQL, and nothing else was touched; or at some member, and the files of all
    members before it are as they are after a run for these members only, and besides them nothing but the files of that member was touched; or
    after all members, in MessagePack. *)
Theorem C78_point W F o_abs o_fmt o_quote o_trim o_quote_avro o_unquote o_tag o_types o_gogen o_declared o_join o_msgp A pkg ord ord' n fuel og og' sp doc i d d1
    (ms := members_of W o_abs A sp (map n_ref (n_allOf i)) (map n_ref (n_oneOf i)) (sort_strings (default [] (n_props i)).*1))
    (built := build_members W F o_abs o_fmt o_quote_avro o_unquote o_tag o_types o_gogen o_declared o_join A pkg ord ord' n fuel 0 sp) :
  f_file F (o_abs sp) = Some doc -> d_inst false doc = Ok i ->
  interrupted W F o_abs o_fmt o_quote o_trim o_quote_avro o_unquote o_tag o_types o_gogen o_declared o_join o_msgp A pkg ord ord' n fuel og og' sp d d1 ->
  (r_graphql A = true /\ (forall x, ~ (exists f, x = PGql f /\ gql_name sp f) -> content d1 x = content d x)) \/
  exists dg, (r_graphql A = false /\ dg = d \/ r_graphql A = true /\ build_gql W F o_abs o_quote o_trim A pkg n og og' sp d = Some (dg, Ok tt)) /\
   ((exists before m after d2, ms = before ++ m :: after /\ built before dg = Some (d2, Ok tt) /\
      forall x, ~ match x with
                  | POut f => f ∈ names_for (exported W) (go_lower W) (r_avro A) (child_path F o_abs sp m.1.1) m.1.2
                  | PGql _ => False
                  | PAvro p _ => r_avro A = true /\ p = sub_name (low (exported W) (go_lower W) m.1.2 +:+ ".avsc")
                  end -> content d1 x = content d2 x) \/
    (r_msgp A = true /\ exists d2, built ms dg = Some (d2, Ok tt) /\
      forall x, ~ (exists p, x = POut (p +:+ "_msgp.go") \/ x = POut (p +:+ "_msgp_test.go")) -> content d1 x = content d2 x)).
Proof. exact (interrupted_point W F o_abs o_fmt o_quote o_trim o_quote_avro o_unquote o_tag o_types o_gogen o_declared o_join o_msgp A pkg ord ord' n fuel og og' sp doc i d d1). Qed.
Print Assumptions C78_point.
Example C78_point_case (A := whole_args flat_args true true true) (d1 := state_in 8 11 (desk_log A nothing) nothing) :
  f_file desk_files (in_s "desk.json") = Some desk_doc /\ d_inst false desk_doc = Ok (inst_of desk_doc) /\ desk_interrupted A nothing d1 /\
  (d_out d1).*1 = ["base.go"; "base.avsc"; "base_avro.go"; "base_avro_test.go"; "image.go"] /\
  map (fun f => content d1 (POut f)) ["base.go"; "base.avsc"; "base_avro.go"; "base_avro_test.go"] =
    map (fun f => Some (file_in f (desk_run A nothing))) ["base.go"; "base.avsc"; "base_avro.go"; "base_avro_test.go"].
Proof. split_and!; [vm_compute; reflexivity|vm_compute; reflexivity|by apply desk_stopped; eexists _, _; split; [vm_compute; reflexivity|cbn; lia]|vm_compute; reflexivity..]. Qed.

(** Without Avro a run that was interrupted is just repeated: in the end all files are as they are after a run that is not interrupted, and the
    outcome is the same. With MessagePack this is so if the run was not interrupted in the files of that. For the repetition with Avro, and after an
    interruption in the files of MessagePack, see below. *)
Theorem C78_repeat_partial W F o_abs o_fmt o_quote o_trim o_quote_avro o_unquote o_tag o_types o_gogen o_declared o_join o_msgp A pkg ord ord' n fuel og og' sp d d1 d' r :
  r_avro A = false -> (r_msgp A = true -> forall a b, (forall f, assocd f a = assocd f b) -> o_msgp a = o_msgp b) ->
  run W F o_abs o_fmt o_quote o_trim o_quote_avro o_unquote o_tag o_types o_gogen o_declared o_join o_msgp A pkg ord ord' n fuel og og' sp d = Some (d', r) ->
  interrupted W F o_abs o_fmt o_quote o_trim o_quote_avro o_unquote o_tag o_types o_gogen o_declared o_join o_msgp A pkg ord ord' n fuel og og' sp d d1 ->
  (r_msgp A = true -> forall p, content d1 (POut (p +:+ "_msgp.go")) = content d (POut (p +:+ "_msgp.go")) /\
                                content d1 (POut (p +:+ "_msgp_test.go")) = content d (POut (p +:+ "_msgp_test.go"))) ->
  exists d'', run W F o_abs o_fmt o_quote o_trim o_quote_avro o_unquote o_tag o_types o_gogen o_declared o_join o_msgp A pkg ord ord' n fuel og og' sp d1 = Some (d'', r) /\
    forall x, content d'' x = content d' x.
Proof. exact (interrupted_again W F o_abs o_fmt o_quote o_trim o_quote_avro o_unquote o_tag o_types o_gogen o_declared o_join o_msgp A pkg ord ord' n fuel og og' sp d d1 d' r). Qed.
Print Assumptions C78_repeat_partial.
Example C78_repeat_case (A := whole_args flat_args true false false) (d1 := state_in 4 11 (desk_log A nothing) nothing) :
  desk_interrupted A nothing d1 /\ content d1 (POut "image.go") = Some "package pkg" /\
  brief (desk_run A nothing) = Some (["base.go"; "image.go"], ["desk.graphqls"], [], Ok tt) /\ desk_run A d1 = desk_run A nothing.
Proof. split_and!; [by apply desk_stopped; eexists _, _; split; [vm_compute; reflexivity|cbn; lia]|vm_compute; reflexivity..]. Qed.

(** Without Avro and MessagePack a run does not look at what is there: from any two directories it writes the same texts to the same files, and
    leaves the others. *)
Theorem C78_forgets W F o_abs o_fmt o_quote o_trim o_quote_avro o_unquote o_tag o_types o_gogen o_declared o_join o_msgp A pkg ord ord' n fuel og og' sp d e d' r :
  r_avro A = false -> r_msgp A = false ->
  run W F o_abs o_fmt o_quote o_trim o_quote_avro o_unquote o_tag o_types o_gogen o_declared o_join o_msgp A pkg ord ord' n fuel og og' sp d = Some (d', r) ->
  exists e', run W F o_abs o_fmt o_quote o_trim o_quote_avro o_unquote o_tag o_types o_gogen o_declared o_join o_msgp A pkg ord ord' n fuel og og' sp e = Some (e', r) /\
    forall x, content e' x = content d' x \/ (content d' x = content d x /\ content e' x = content e x).
Proof. exact (run_forgets W F o_abs o_fmt o_quote o_trim o_quote_avro o_unquote o_tag o_types o_gogen o_declared o_join o_msgp A pkg ord ord' n fuel og og' sp d e d' r). Qed.
Print Assumptions C78_forgets.
Example C78_forgets_case : brief (desk_run (whole_args flat_args false false false) (Disk [("other.go", "x"); ("image.go", "old")] [] [])) =
    Some (["other.go"; "image.go"; "base.go"], [], [], Ok tt).
Proof. vm_compute. reflexivity. Qed.

(** With Avro a run that was interrupted while it wrote image.go fails whenever it is repeated, until someone removes the file: the types of a
    member are looked up in all files of the directory, and one of them is no Go file. *)
Theorem C78_avro_refuted : exists d1 d' d'', desk_interrupted (whole_args flat_args false true false) nothing d1 /\
  desk_run (whole_args flat_args false true false) nothing = Some (d', Ok tt) /\
  desk_run (whole_args flat_args false true false) d1 = Some (d'', Err) /\ content d1 (POut "image.go") = Some "" /\ content d'' (POut "image.go") = Some "".
Proof. exact desk_avro_fails. Qed.
Print Assumptions C78_avro_refuted.
(** With MessagePack the same goes for a run that was interrupted in a file of MessagePack. *)
Theorem C78_msgp_refuted : exists d1 d' d'', desk_interrupted (whole_args flat_args false false true) nothing d1 /\
  desk_run (whole_args flat_args false false true) nothing = Some (d', Ok tt) /\
  desk_run (whole_args flat_args false false true) d1 = Some (d'', Err) /\ content d1 (POut "pkg_msgp.go") = Some "pack" /\ content d'' (POut "pkg_msgp.go") = Some "pack".
Proof. exact desk_msgp_fails. Qed.
Print Assumptions C78_msgp_refuted.

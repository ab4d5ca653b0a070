(** C77: the command. *)
From stdpp Require Import strings list gmap.
From Verif Require Import GoStr Val Conv Schema Load Gen Files Gql Whole CaseWhole SpecFlags Main SpecMain MainL CaseMain.

(** C77. A command line with options and then the path of a schema makes the generator run with what the options say, and nothing else. The second
    argument is the output directory; "" without it. The exit code is 0 if the generator succeeds and 4 if it fails. *)
Theorem C77_runs disk o_abs build args ss input more inp out (d : disk) :
  options_of args ss (input :: more) -> ~ no_import ss -> o_abs input = Some inp -> match more with [] => out = "" | output :: _ => o_abs output = Some out end ->
  exists b, asks ss inp out b /\
    main disk o_abs build args d = match build b d with Some (d', Ok _) => Some (d', 0) | Some (d', Err) => Some (d', 4) | Some (d', Panic) => Some (d', 2) | None => None end.
Proof. exact (main_runs disk o_abs build args ss input more inp out d). Qed.
Print Assumptions C77_runs.
Example C77_runs_case : options_of line line_options ["shelf.json"; "out"] /\ ~ no_import line_options /\ abs_in "shelf.json" = Some "/s/shelf.json" /\ abs_in "out" = Some "/s/out" /\
  told (command line) = Some (["base.go"; "image.go"; "clip.go"], ["shelf.graphqls"], [], 0) /\
  told (command ["-avro"; "--importPath"; "x/y"; "missing.json"]) = Some ([], [], [], 4).
Proof.
  split_and!; [exact line_options_of| |vm_compute; reflexivity..]. intros [_ H]. assert (E : "x/y" = ""); [|done]. eapply text_fun; [left|exact H]. eexists (take 4 line_options), []. split; [vm_compute; reflexivity|apply not_elem_of_nil].
Qed.

(** What the options say is one thing. *)
Theorem C77_determined ss input output b c : asks ss input output b -> asks ss input output c -> b = c.
Proof. exact (asks_fun ss input output b c). Qed.
Print Assumptions C77_determined.
Example C77_determined_case : exists b, asks line_options "/s/shelf.json" "/s/out" b /\ b_embed b = false /\ b_graphql b = true /\ b_import b = "x/y" /\ b_structs b !! "clip" = Some "Video" /\ b_no_nested b = false.
Proof.
  destruct (options_parsed _ _ _ line_options_of) as (o & _ & Ho). exists (args_for o "/s/shelf.json" "/s/out"). split; [eapply asked; [exact line_options_of|done]|].
  assert (E : set_options line_options defaults = Some o) by done. vm_compute in E. injection E as <-. split_and!; vm_compute; reflexivity.
Qed.

(** Without a schema, and with Avro or GraphQL without an import path, the exit code is 1 and no file is touched. *)
Theorem C77_usage disk o_abs build args ss rest (d : disk) : options_of args ss rest -> rest = [] \/ no_import ss -> main disk o_abs build args d = Some (d, 1).
Proof. exact (main_usage disk o_abs build args ss rest d). Qed.
Print Assumptions C77_usage.
Example C77_usage_case : no_import [("avro", "true")] /\ options_of ["-avro"; "shelf.json"] [("avro", "true")] ["shelf.json"].
Proof.
  assert (H : last_value [("avro", "true")] "avro" "true") by (exists [], []; split; [done|apply not_elem_of_nil]). split.
  - split; [left; left; exists "true"; split; [done|listed_in]|right; split; [unlisted|done]].
  - exists ["shelf.json"]. split_and!; [change ["-avro"; "shelf.json"] with (["-" +:+ "avro"] ++ ["shelf.json"]); apply starts_cons; [apply writes_switch; [by left|listed_in]|apply starts_nil]|apply ends_word; left; intros [x E]; done|].
    apply Forall_cons. split; [|by apply Forall_nil]. split; cbn; intros K; [listed_in|exfalso; revert K; unlisted].
Qed.

(** If a path cannot be made absolute the exit code is 2 or 3 and no file is touched. *)
Theorem C77_paths disk o_abs build args ss input more (d : disk) : options_of args ss (input :: more) -> ~ no_import ss ->
  (o_abs input = None -> main disk o_abs build args d = Some (d, 2)) /\
  (forall output more', o_abs input <> None -> more = output :: more' -> o_abs output = None -> main disk o_abs build args d = Some (d, 3)).
Proof. exact (main_paths disk o_abs build args ss input more d). Qed.
Print Assumptions C77_paths.
Example C77_paths_case : told (command [""]) = Some ([], [], [], 2) /\ told (command ["shelf.json"; ""]) = Some ([], [], [], 3) /\ options_of ["shelf.json"; ""] [] ["shelf.json"; ""].
Proof.
  split_and!; [vm_compute; reflexivity..|]. exists ["shelf.json"; ""]. split_and!; [apply starts_nil|apply ends_word; left; intros [x E]; done|by apply Forall_nil].
Qed.

(** A request for help after options that are good: the exit code is 0 and no file is touched. *)
Theorem C77_help disk o_abs build args ss w more (d : disk) : starts args ss (w :: more) -> Forall valid ss -> help w -> main disk o_abs build args d = Some (d, 0).
Proof. exact (main_help disk o_abs build args ss w more d). Qed.
Print Assumptions C77_help.
Example C77_help_case : help "--help" /\ told (command ["-graphql"; "-h"; "shelf.json"]) = Some ([], [], [], 0).
Proof. split; [|vm_compute; reflexivity]. exists "--", "help". split_and!; [by right|listed_in|by left]. Qed.

(** Every other command line has an option that is not known, or whose value is missing or cannot be: the exit code is 2 and no file is touched. *)
Theorem C77_bad disk o_abs build args (d : disk) : ~ (exists ss rest, options_of args ss rest) -> ~ (exists ss w more, starts args ss (w :: more) /\ Forall valid ss /\ help w) ->
  main disk o_abs build args d = Some (d, 2).
Proof. exact (main_bad disk o_abs build args d). Qed.
Print Assumptions C77_bad.
Example C77_bad_case : Forall (fun args => ~ (exists ss rest, options_of args ss rest) /\ ~ (exists ss w more, starts args ss (w :: more) /\ Forall valid ss /\ help w) /\
    told (command args) = Some ([], [], [], 2))
  [["-other"; "shelf.json"]; ["-avro=yes"; "shelf.json"]; ["-rename"; "clip"; "shelf.json"]; ["-importPath"]; ["---"]; ["-=x"]].
Proof.
  repeat (apply Forall_cons; split; [split_and!; [intros (ss & rest & H); destruct (options_parsed _ _ _ H) as (o & E & _); by vm_compute in E| |vm_compute; reflexivity]|]); [..|by apply Forall_nil].
  all: intros (ss & w & more & H1 & Hv & Hh); destruct (proj2 (all_valid ss (starts_names _ _ _ H1) defaults) Hv) as [o Ho]; pose proof (parse_starts _ _ _ defaults H1) as E; rewrite Ho, (parse_help w more o Hh) in E; by vm_compute in E.
Qed.

(** BuildStructs and BuildStructsRename do what the command does with -embedAllOf=false. *)
Theorem C77_build_structs schema out : asks [("embedAllOf", "false")] schema out (struct_args schema out false ∅).
Proof. exact (struct_args_asked schema out). Qed.
Print Assumptions C77_build_structs.
Example C77_build_structs_case : exists b, asks [("embedAllOf", "false")] "/s/shelf.json" "" b /\ outcome (build_in b nothing) = Some (Ok tt).
Proof. eexists. split; [apply struct_args_asked|vm_compute; reflexivity]. Qed.

(** Refuted: options after the path of the schema count. They do not: here "-msgp" is the output directory and no MessagePack file is made. *)
Theorem C77_order_refuted : exists args ss, starts (rev args) ss ["shelf.json"] /\ Forall valid ss /\ says_switch ss "msgp" true /\
  exists d, command args = Some (d, 0) /\ "pkg_msgp.go" ∉ (d_out d).*1 /\ told (command (rev args)) = Some ((d_out d).*1 ++ ["pkg_msgp.go"; "pkg_msgp_test.go"], [], [], 0).
Proof.
  exists ["shelf.json"; "-msgp"], [("msgp", "true")]. split_and!.
  - change (rev ["shelf.json"; "-msgp"]) with (["-" +:+ "msgp"] ++ ["shelf.json"]). apply starts_cons; [apply writes_switch; [by left|listed_in]|apply starts_nil].
  - apply Forall_cons. split; [|by apply Forall_nil]. split; cbn; intros K; [listed_in|exfalso; revert K; unlisted].
  - left. exists "true". split; [|listed_in]. exists [], []. split; [done|apply not_elem_of_nil].
  - eexists. split_and!; [vm_compute; reflexivity|unlisted|vm_compute; reflexivity].
Qed.
Print Assumptions C77_order_refuted.
(** Refuted: a switch can be set with "-name value". The switch is on, the value is taken as the path of the schema, and the path as the output directory. *)
Theorem C77_switch_value_refuted : exists n v w, n ∈ switches /\ v ∈ off /\ options_of ["-" +:+ n; v; w] [(n, "true")] [v; w] /\
  command ["-" +:+ n; v; w] = Some (nothing, 4) /\ told (command ["-" +:+ n +:+ "=" +:+ v; w]) = Some (["base.go"; "image.go"; "clip.go"], [], [], 0).
Proof.
  exists "embedAllOf", "false", "shelf.json". split_and!; [listed_in|listed_in| |vm_compute; reflexivity..]. exists ["false"; "shelf.json"]. split_and!.
  - change ["-" +:+ "embedAllOf"; "false"; "shelf.json"] with (["-" +:+ "embedAllOf"] ++ ["false"; "shelf.json"]). apply starts_cons; [apply writes_switch; [by left|listed_in]|apply starts_nil].
  - apply ends_word. left. intros [x E]. done.
  - apply Forall_cons. split; [|by apply Forall_nil]. split; cbn; intros K; [listed_in|exfalso; revert K; unlisted].
Qed.
Print Assumptions C77_switch_value_refuted.
(** Refuted: arguments that mean nothing are refused. Those after the output directory are not looked at. *)
Theorem C77_extra_refuted : exists args extra, extra <> [] /\ command (args ++ extra) = command args /\ told (command args) = Some (["base.go"; "image.go"; "clip.go"], [], [], 0).
Proof. exists ["shelf.json"; "out"], ["-graphql"; "x"]. split_and!; [done|vm_compute; reflexivity..]. Qed.
Print Assumptions C77_extra_refuted.

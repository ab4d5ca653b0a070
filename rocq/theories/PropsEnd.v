(** C84: runs of the generator for schemas with a broken member. *)
From stdpp Require Import strings list gmap.
From Verif Require Import GoStr GoStrL Val Conv Schema Inst Load SpecPath SpecRef SpecDang SpecWhole WalkL Gen Files Gql Avro GoSrc Mapper Whole World Cases CaseFiles CaseLoad CaseDang CaseWhole CaseEnd.
From Verif Require Import SpecFlags FlagsL Main SpecMain CaseGen CaseMapper CaseGo CaseGql CaseMain.
From Verif Require Import EndL EndM.

(** C84. If one of the schemas for which structs are to be made (a member of allOf or oneOf, or the schema itself) is
    broken - its file is missing or it has a reference to nothing, directly or through other files - then no run
    succeeds, whatever the options, and files that only belong to that member are as they were before. *)
Theorem C84_run W F o_abs o_fmt o_quote o_trim o_quote_avro o_unquote o_tag o_types o_gogen o_declared o_join o_msgp A pkg ord ord' n fuel og og' sp doc i ref name d d' r
    (members := member (exported W) (a_structNames (ga (r_gql A))) i (o_abs sp))
    (path := fun ref => if has_prefix "/" ref then o_abs ref else f_rel F sp ref) :
  f_file F (o_abs sp) = Some doc -> d_inst false doc = Ok i ->
  members ref name -> broken F name (negb (a_embed (ga (r_gql A)))) (path ref) ->
  run W F o_abs o_fmt o_quote o_trim o_quote_avro o_unquote o_tag o_types o_gogen o_declared o_join o_msgp A pkg ord ord' n fuel og og' sp d = Some (d', r) ->
  r <> Ok tt /\
  (forall f, (forall ref' name', members ref' name' -> f ∈ names_for (exported W) (go_lower W) (r_avro A) (path ref') name' -> ref' = ref /\ name' = name) ->
    assocd f (d_out d') = assocd f (d_out d)).
Proof. exact (run_broken W F o_abs o_fmt o_quote o_trim o_quote_avro o_unquote o_tag o_types o_gogen o_declared o_join o_msgp A pkg ord ord' n fuel og og' sp doc i ref name d d' r). Qed.
Print Assumptions C84_run.
(** a schema with three members; the second has a property that refers to nothing. The Go file of the first member is made. *)
Example C84_case : f_file end_files (in_s "root.json") = Some end_doc /\ d_inst false end_doc = Ok (inst_of end_doc) /\
  member (exported W0) (fun _ => None) (inst_of end_doc) (in_s "root.json") "bad.json" "bad" /\
  (forall name fl, broken end_files name fl "/s/bad.json") /\
  brief (run_with end_files (whole_args end_args false false true) "root.json" nothing) = Some (["good.go"], [], [], Err).
Proof.
  split; [by vm_compute|]. split; [by vm_compute|]. split; [apply bad_member|]. split; [apply bad_broken|]. vm_compute. reflexivity.
Qed.
(** The command that generates code then exits with a code that is not zero. *)
Theorem C84_command W F o_abs o_fmt o_quote o_trim o_quote_avro o_unquote o_tag o_types o_gogen o_declared o_join o_msgp ord ord' n fuel og og'
    abs wd base args ss input more inp out b doc i ref name d d' code
    (gen := fun _ _ A pkg sp => run W F o_abs o_fmt o_quote o_trim o_quote_avro o_unquote o_tag o_types o_gogen o_declared o_join o_msgp A pkg ord ord' n fuel og og' sp) :
  options_of args ss (input :: more) -> ~ no_import ss -> abs input = Some inp -> match more with [] => out = "" | output :: _ => abs output = Some out end ->
  asks ss inp out b ->
  f_file F (o_abs inp) = Some doc -> d_inst false doc = Ok i ->
  member (exported W) (fun n => b_structs b !! n) i (o_abs inp) ref name ->
  broken F name (negb (b_embed b)) (if has_prefix "/" ref then o_abs ref else f_rel F inp ref) ->
  main disk abs (build_with wd base gen) args d = Some (d', code) -> code <> 0.
Proof. exact (command_broken W F o_abs o_fmt o_quote o_trim o_quote_avro o_unquote o_tag o_types o_gogen o_declared o_join o_msgp ord ord' n fuel og og' abs wd base args ss input more inp out b doc i ref name d d' code). Qed.
Print Assumptions C84_command.
Definition end_build := build_with (Some "/s") base_in
  (fun _ _ A pkg sp => run W0 end_files in_s fmt_same id id id no_unquote (fun _ => "") id gogen (fun _ => shelf_avro) (join "/") msgp A pkg order_same keys_same 3 20 same_order as_is sp).
Example C84_command_case : options_of ["root.json"; "out"] [] ["root.json"; "out"] /\ ~ no_import [] /\ abs_in "root.json" = Some "/s/root.json" /\
  told (main disk abs_in end_build ["root.json"; "out"] nothing) = Some (["good.go"], [], [], 4).
Proof.
  split_and!; [exists ["root.json"; "out"]; split_and!; [apply starts_nil|apply ends_word; left; intros [x E]; done|by apply Forall_nil]| |vm_compute; reflexivity..].
  intros [[H|H] _]; (destruct H as [(v & (ss1 & ss2 & H & _) & _)|[_ H]]; [by destruct ss1|assert (E := proj2 H eq_refl); apply (bool_decide_eq_true_2 _) in E; vm_compute in E; discriminate E]).
Qed.

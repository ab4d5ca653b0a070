(** C53: what generation needs of the members of a schema. *)
From stdpp Require Import strings list gmap.
From Verif Require Import GoStr GoStrL Val Conv Schema Inst Load FlatL SpecPath SpecLoad SpecGen SpecNamed SpecFiles WalkL Gen GenL GenP World Cases CaseGen CaseLoad Files FilesL CaseFiles NeedL.

(** C53. Whatever the schema, the options and the iteration orders are: if generation succeeds, every member of allOf and oneOf is a reference to
    a file that can be read and is a valid schema. So with a member that is written in place, whose reference is empty and stands for the
    directory, it never succeeds. *)
Theorem C53_needs_files W F o_abs o_fmt A pkg ord ord' n sp doc i fs fs' : f_file F (o_abs sp) = Some doc -> d_inst false doc = Ok i ->
  build_structs W F o_abs o_fmt A pkg ord ord' n sp fs = Some (fs', Ok tt) -> forall m, m ∈ n_allOf i ++ n_oneOf i ->
  is_Some (f_file F (if has_prefix "/" (n_ref m) then o_abs (n_ref m) else f_rel F sp (n_ref m))) /\
  f_valid F (if has_prefix "/" (n_ref m) then o_abs (n_ref m) else f_rel F sp (n_ref m)) = true.
Proof. exact (needs_files W F o_abs o_fmt A pkg ord ord' n sp doc i fs fs'). Qed.
Print Assumptions C53_needs_files.
Example C53_needs_files_case : f_file media_files (in_s "media.json") = Some media_doc /\ d_inst false media_doc = Ok (inst_of media_doc) /\
  (exists fs', build_structs W0 media_files in_s fmt_same media_args "pkg" order_other keys_other 3 "media.json" [] = Some (fs', Ok tt)) /\
  2 <= length (n_allOf (inst_of media_doc) ++ n_oneOf (inst_of media_doc)).
Proof. split_and!; [vm_compute; reflexivity|vm_compute; reflexivity|eexists; vm_compute; reflexivity|vm_compute; lia]. Qed.

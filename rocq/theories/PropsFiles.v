(** C53: the Go files made from a schema. *)
From stdpp Require Import strings list gmap.
From Verif Require Import GoStr GoStrL Val Conv Schema Inst Load FlatL SpecPath SpecLoad SpecGen SpecNamed SpecFiles WalkL Gen GenL GenP World Cases CaseGen CaseLoad Files FilesL CaseFiles.

(** C53. If the file [sp] holds the schema [i], and [ws] are the files it stands for, with distinct names, then generation succeeds, each
    of these files has its text, and no other file is changed. Missing: schemas whose names collide (refuted below); see C39 and C43 for what has a text. *)
Theorem C53_files_partial W F o_abs o_fmt A pkg ord ord' n sp doc i ws fs :
  (forall j, map_order (ord j)) -> (forall j, key_order (ord' j)) -> f_file F (o_abs sp) = Some doc -> d_inst false doc = Ok i ->
  files_of (exported W) (a_structNames A) (a_fieldNames A) (a_descTag A) (a_noNested A) (a_pointers A) (a_embed A) pkg
    (fun ref => if has_prefix "/" ref then o_abs ref else f_rel F sp ref)
    (fun text text' => o_fmt text = Some text') (fun path ty schema => load_schema F ty (negb (a_embed A)) n path = Some (Ok schema)) i (o_abs sp) ws ->
  NoDup (map w_base ws) ->
  exists fs', build_structs W F o_abs o_fmt A pkg ord ord' n sp fs = Some (fs', Ok tt) /\
    (forall w, w ∈ ws -> assocd (w_file w) fs' = Some (w_text w)) /\
    (forall f, (forall w, w ∈ ws -> f <> w_file w) -> assocd f fs' = assocd f fs).
Proof. exact (fun Ho Ho' => files_made W F o_abs o_fmt A pkg ord ord' Ho Ho' n sp doc i ws fs). Qed.
Print Assumptions C53_files_partial.
Example C53_case : (forall j, map_order (order_other j)) /\ (forall j, key_order (keys_other j)) /\ f_file media_files (in_s "media.json") = Some media_doc /\
  files_of (exported W0) (a_structNames media_args) (a_fieldNames media_args) false false false false "pkg"
    (fun ref => if has_prefix "/" ref then in_s ref else f_rel media_files "media.json" ref)
    (fun text text' => fmt_same text = Some text') (fun path ty schema => load_schema media_files ty true 3 path = Some (Ok schema))
    (inst_of media_doc) (in_s "media.json") media_wanted /\
  NoDup (map w_base media_wanted) /\
  build_structs W0 media_files in_s fmt_same media_args "pkg" order_other keys_other 3 "media.json" [("old.go", "x")] =
    Some (("old.go", "x") :: map (fun w => (w_file w, w_text w)) media_wanted, Ok tt).
Proof.
  split_and!; [intros j; exact other_map_order|intros j; exact backwards_order|by vm_compute|exact media_files_of|nodup|vm_compute; reflexivity].
Qed.
(** Whatever the schemas are: on success the new files are those named after the members of allOf and oneOf, and after the schema itself if it
    has properties or no members. *)
Theorem C53_names W F o_abs o_fmt A pkg ord ord' n sp doc i fs fs' : f_file F (o_abs sp) = Some doc -> d_inst false doc = Ok i ->
  build_structs W F o_abs o_fmt A pkg ord ord' n sp fs = Some (fs', Ok tt) ->
  forall f, is_Some (assocd f fs') <-> is_Some (assocd f fs) \/
    exists ref, (ref ∈ map n_ref (n_allOf i) ++ map n_ref (n_oneOf i) \/ (has_own i /\ ref = o_abs sp)) /\
      f = sub_name (if has_prefix "/" ref then o_abs ref else f_rel F sp ref) +:+ ".go".
Proof. exact (files_named W F o_abs o_fmt A pkg ord ord' n sp doc i fs fs'). Qed.
Print Assumptions C53_names.
(** A member that is not a reference to a file ends generation with an error. *)
Theorem C53_inline_refuted : exists F doc i, f_file F "/s/inline.json" = Some doc /\ d_inst false doc = Ok i /\ default [] (n_props i) <> [] /\
  (exists m, n_allOf i = [m] /\ n_ref m = "" /\ default [] (n_props m) <> []) /\
  build_structs W0 F in_s fmt_same plain_args "pkg" order_same keys_same 3 "inline.json" [] = Some ([], Err).
Proof.
  exists (files_in [("/s/inline.json", inline_doc)]), inline_doc, (inst_of inline_doc). split_and!; [vm_compute; reflexivity|vm_compute; reflexivity|by vm_compute| |vm_compute; reflexivity].
  eexists. split_and!; [vm_compute; reflexivity|vm_compute; reflexivity|by vm_compute].
Qed.
Print Assumptions C53_inline_refuted.
(** Two members that are named alike get one file. *)
Theorem C53_same_refuted : exists F doc i text, f_file F "/s/same.json" = Some doc /\ d_inst false doc = Ok i /\ map n_ref (n_oneOf i) = ["a/item.json"; "b/item.json"] /\
  build_structs W0 F in_s fmt_same plain_args "pkg" order_same keys_same 3 "same.json" [] = Some ([("item.go", text)], Ok tt) /\
  str_in "json:""y" text = true /\ str_in "json:""x" text = false.
Proof.
  exists same_files, same_doc, (inst_of same_doc), (media_text "item" [] ["y"]).
  split_and!; vm_compute; reflexivity.
Qed.
Print Assumptions C53_same_refuted.
(** A member without properties gets a file without a struct, although other structs are embedded. *)
Theorem C53_empty_refuted : exists F doc i a text, f_file F "/s/empty.json" = Some doc /\ d_inst false doc = Ok i /\ map n_ref (n_oneOf i) = ["none.json"] /\
  build_structs W0 F in_s fmt_same plain_args "pkg" order_same keys_same 3 "empty.json" [] = Some ([("empty.go", a); ("none.go", text)], Ok tt) /\
  str_in "struct" text = false.
Proof.
  exists empty_files, empty_doc, (inst_of empty_doc), (media_text "Empty" [] ["a"]), (show_file false "pkg" "None" ["Empty"] []). split_and!; vm_compute; reflexivity.
Qed.
Print Assumptions C53_empty_refuted.

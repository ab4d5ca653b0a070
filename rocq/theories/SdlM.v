(** Generated files are read back. *)
From stdpp Require Import strings list gmap.
From Coq Require Import Ascii ZArith.
From Verif Require Import GoStr GoStrL Val Conv Schema Inst Load SpecConv SpecPath SpecWalk WalkL SpecLoad SpecGen SpecNamed SpecGql Gen Avro Gql GenP GenT NamedK NamedU GqlB GqlC GqlD GqlE SpecDesc SpecSdl SpecDoc SpecRead SdlL.

Lemma build_read W o_quote o_trim A ord ord' file name pkg schema cs os own defss :
  a_noNested (ga A) = true -> map_order ord -> key_order ord' ->
  doc_parts (exported W) (go_lower W) (a_structNames (ga A)) (a_fieldNames (ga A)) (ga_types A) (a_pointers (ga A)) (trim_space o_trim) file schema cs os own ->
  (a_embed (ga A) = true -> Forall (fun m => n_allOf m = []) (n_oneOf schema)) ->
  mapM (defs_of (exported W) (trim_space o_trim) (ga_import A))
    (doc_files (exported W) (go_lower W) (a_structNames (ga A)) (ga_types A) (ga_any A) (ga_files A) file name pkg schema cs os own) = Some defss ->
  exists files, q_build W o_quote o_trim A ord ord' file name pkg schema = Ok files /\
    map (fun f => (f.1, parse_gql f.2)) files =
      zip_with (fun e ds => (e.1.1, Some ds)) (doc_files (exported W) (go_lower W) (a_structNames (ga A)) (ga_types A) (ga_any A) (ga_files A) file name pkg schema cs os own) defss.
Proof.
  intros H1 H2 H3 H4 H5 Hm. eexists. split; [by apply build_eq|]. by apply document_read.
Qed.

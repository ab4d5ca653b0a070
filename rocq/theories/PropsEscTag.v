(** C69: descriptions with escapes. Vocabulary: SpecGo.v, SpecEsc.v. *)
From stdpp Require Import strings list gmap.
From Coq Require Import Ascii ZArith.
From Verif Require Import GoStr Val Conv Schema Inst SpecGen SpecNamed Gen Avro GoSrc SpecGo SpecEsc World CaseGo EscTagL.

(** C69. A description in which every double quote and every backslash has a backslash before it is read as the text without these backslashes.
    *)
Theorem C69_escaped o_unquote A desc go json req ty d : a_descTag A = true -> desc_ok true desc = true -> quotable json = true ->
  first_line desc = escaped d ->
  exists lit, src_field (a_descTag A) (GDecl desc go json req (Some ty)) = [RField [go] (src_type (a_descTag A) ty) (Some lit)] /\
    reads_back o_unquote lit (json +:+ json_option req ty) d.
Proof. exact (tag_escaped o_unquote A desc go json req ty d). Qed.
Print Assumptions C69_escaped.
Example C69_escaped_case : a_descTag tag_args = true /\ desc_ok true "The \""full\"" name" = true /\ quotable "name" = true /\
  first_line "The \""full\"" name" = escaped "The ""full"" name" /\
  reads_back no_unquote "`json:""name"" description:""The \""full\"" name""`" "name" "The ""full"" name".
Proof. split_and!; [vm_compute; reflexivity..|]. split; vm_compute; reflexivity. Qed.

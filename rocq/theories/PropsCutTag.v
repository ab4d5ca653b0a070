(** C69: what is read of descriptions with double quotes. Vocabulary: SpecGo.v. *)
From stdpp Require Import strings list gmap.
From Coq Require Import Ascii ZArith.
From Verif Require Import GoStr Val Conv Schema Inst SpecGen SpecNamed Gen Avro GoSrc SpecGo GoStrL World CaseGo CutTagL.

(** C69. Of a description without backslashes in a tag the readers of the tag find what is before the first double quote, and nothing else: so
    they find the first line of the description exactly if it has no double quote. The name is found in any case. *)
Theorem C69_exactly o_unquote A desc go json req ty : a_descTag A = true -> desc_ok true desc = true -> quotable json = true ->
  free_of backslash (first_line desc) = true ->
  exists lit d, src_field (a_descTag A) (GDecl desc go json req (Some ty)) = [RField [go] (src_type (a_descTag A) ty) (Some lit)] /\
    reads_back o_unquote lit (json +:+ json_option req ty) d /\ free_of dquote d = true /\
    (first_line desc = d \/ exists b, first_line desc = d +:+ String dquote b).
Proof. exact (tag_exactly o_unquote A desc go json req ty). Qed.
Print Assumptions C69_exactly.
Example C69_exactly_case : a_descTag tag_args = true /\ desc_ok true "The ""full"" name" = true /\ quotable "name" = true /\
  free_of backslash (first_line "The ""full"" name") = true /\
  reads_back no_unquote "`json:""name,omitempty"" description:""The ""full"" name""`" "name,omitempty" "The ".
Proof. split_and!; [vm_compute; reflexivity..|]. split; vm_compute; reflexivity. Qed.

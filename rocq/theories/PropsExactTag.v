(** C69: exactly which descriptions are read back. Vocabulary: SpecGo.v. *)
From stdpp Require Import strings list gmap.
From Coq Require Import Ascii ZArith.
From Verif Require Import GoStr Val Conv Schema Inst SpecGen SpecNamed Gen Avro GoSrc SpecGo GoStrL World CaseGo ExactTagL.

(** C69. The first line of a description is read back from its tag exactly if it has no double quote and no backslash (what `quotable` adds to
    what a raw string can hold, a first line having no line end). The hypothesis on [o_unquote], the reader of numeric escapes, is that they are
    longer than what they stand for. *)
Theorem C69_read_back o_unquote A desc go json req ty lit : a_descTag A = true -> desc_ok true desc = true -> quotable json = true ->
  (forall u v t, first_line desc = u +:+ v -> o_unquote u = Some t -> String.length t < String.length u) ->
  src_field (a_descTag A) (GDecl desc go json req (Some ty)) = [RField [go] (src_type (a_descTag A) ty) (Some lit)] ->
  reads_back o_unquote lit (json +:+ json_option req ty) (first_line desc) <-> quotable (first_line desc) = true.
Proof. exact (tag_iff o_unquote A desc go json req ty lit). Qed.
Print Assumptions C69_read_back.
Example C69_read_back_case : a_descTag tag_args = true /\ desc_ok true "matches \t" = true /\ quotable "name" = true /\
  (forall u v t, first_line "matches \t" = u +:+ v -> no_unquote u = Some t -> String.length t < String.length u) /\
  quotable (first_line "matches \t") = false /\ quotable (first_line "matches t") = true.
Proof. split_and!; done. Qed.

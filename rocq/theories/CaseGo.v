(** Schemas for the examples and refutations of PropsGo. *)
From stdpp Require Import strings list gmap.
From Coq Require Import Ascii ZArith.
From Verif Require Import GoStr Val Conv Schema Inst Load SpecPath SpecLoad SpecConv SpecGen SpecNamed WalkL Gen GenP World Cases CaseGen CaseNamed Avro GoSrc SpecAvro SpecGo.

Definition no_unquote (_ : string) : option string := None.
(** descriptions are put in tags *)
Definition tag_args : args := Args true false false false no_names no_names.
Definition described (desc : string) : instance := schema_of [("name", typed "string" [("description", jstr desc)])] [].
Definition described_as (desc : string) : list gdecl := [GDecl desc "Name" "name" false (Some TString)].
(** an object, and a property with the name of its struct *)
Definition clash_props : list (string * tree) := [("address", obj_of [("city", typed "string" [])] []); ("rootAddress", typed "string" [])].
Definition gen_text : string := text_of gen_args same_order as_is (schema_of gen_props ["name"]).
Definition named_text : string := text_of named_args same_order as_is (schema_of named_props named_req).
(** the Avro schema of the struct Root of a text that is alone in its directory *)
Definition avro_of (t : string) : string := match avro_schema no_unquote W0 id 20 [("root.go", t)] "Root" "root.go" with Some (Ok s) => s | _ => "" end.
(** files with two structs *)
Definition part_text : string := "package p; type Root struct { Parts []Part }; type Part struct { Id string }".
Definition clash_text : string := "package p; type Root struct { Part int64 }; type Part struct { Id string }".

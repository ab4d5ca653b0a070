(** The public calls of a Transformer: transformer.go 79-182 and the schema's validator. *)
From stdpp Require Import strings list gmap.
From Coq Require Import ZArith.
From Verif Require Import GoStr Val Conv Instr Heap.

(** The libraries the calls use. [e_json] is json.Unmarshal into interface{}, None its error; [e_xml] is
    xmlquery.Parse, giving the root node; [e_valid] is gojsonschema's Validate of the schema on a document:
    None an error, else the list of result errors and result.Valid(). Texts json.Marshal prints are
    identified with the documents they denote. *)
Record env := Env {
  e_json : string -> option tree;
  e_xml : string -> option nat;
  e_valid : tree -> option (list string * bool)
}.

Section api.
Context (W : oracles) (E : env) (perm : nat -> nat -> list nat).

(** jsonschema/validator.go 56-71 *)
Definition validate (doc : tree) : res bool :=
  match e_valid E doc with
  | None => Err
  | Some (_ :: _, _) => Err
  | Some ([], v) => Ok v
  end.
(** transformer.go 129-146 *)
Definition base_json (root : itr) (raw : string) : M tree :=
  match e_json E raw with
  | None => mfail
  | Some doc => base_json_transform W perm FJson root doc
  end.
(** transformer.go 165-182 *)
Definition base_xml (root : itr) (raw : string) : M tree :=
  match e_xml E raw with
  | None => mfail
  | Some n => base_xml_transform W perm FXml root n
  end.
(** transformer.go 112-127 *)
Definition json_transform (root : itr) (raw : string) : M tree :=
  doc <-- base_json root raw ;;
  valid <-- mlift (validate doc) ;;
  if valid : bool then mret doc else mfail.
(** transformer.go 148-163 *)
Definition xml_transform (root : itr) (raw : string) : M tree :=
  doc <-- base_xml root raw ;;
  valid <-- mlift (validate doc) ;;
  if valid : bool then mret doc else mfail.
(** transformer.go 89-97; the format is one of the two constants, set at construction *)
Definition transform (f : fmt) (root : itr) (raw : string) : M tree :=
  match f with FJson => json_transform root raw | FXml => xml_transform root raw end.
(** transformer.go 102-110 *)
Definition transform_no_validation (f : fmt) (root : itr) (raw : string) : M tree :=
  match f with FJson => base_json root raw | FXml => base_xml root raw end.
End api.

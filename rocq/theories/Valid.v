(** jsonschema/validator.go: loading a validator and the answers it gives. *)
From stdpp Require Import strings list.
From Verif Require Import GoStr.

(** 36-50: the key under which the schema of a path is cached, on systems other than Windows; [o_abs] is filepath.Abs, None its error *)
Definition schema_ref (o_abs : string -> option string) (path : string) : option string := (fun p => "file://" +:+ p) <$> o_abs path.
(** 56-71: Validate. [result] is what gojsonschema says of the document: None an error, else the texts of its result errors, in the order in which it
    found them, and result.Valid(). [sort] is sort.Slice with the comparison of 64-66. The answer is the truth value and the text of the error;
    the text of an error of gojsonschema itself is [lib]. *)
Definition validate (sort : list string -> list string) (lib : string) (result : option (list string * bool)) : bool * option string :=
  match result with
  | None => (false, Some lib)
  | Some ([], valid) => (valid, None)
  | Some (errors, _) => (false, Some ("invalid schema: [" +:+ join " " (sort errors) +:+ "]"))
  end.

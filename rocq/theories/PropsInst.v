(** C73: schema documents read keyword by keyword. Vocabulary: SpecInst.v. *)
From stdpp Require Import strings list gmap.
From Verif Require Import GoStr Val Schema Inst Den SpecInst InstR.

(** C73. A schema document is read into an Instance whose every field is what the document says under the keyword of the field: its value
    if the keyword is there, the zero value if it is missing or null (additionalProperties: the value the field had before), a single type
    as a list of one, the subschemas of allOf, anyOf and oneOf in their order and by the same rules. This Instance is the only one. A document
    with a value of the wrong kind under a keyword, at any depth of allOf, anyOf and oneOf, is an error. *)
Theorem C73_keywords addl t : distinct_keys t ->
  match d_inst addl t with
  | Ok i => reads addl t i /\ forall j, reads addl t j -> j = i
  | Err => forall i, ~ reads addl t i
  | Panic => False
  end.
Proof. exact (reads_total t addl). Qed.
Print Assumptions C73_keywords.

Definition doc73 : tree := TObj
  [("type", TS (SStr "object")); ("required", TArr [TS (SStr "a"); TS (SStr "b")]); ("x-other", TArr []);
   ("properties", TObj [("a", TObj [("type", TS (SStr "string"))]); ("b", TS SNil)]);
   ("allOf", TArr [TObj [("$ref", TS (SStr "#/definitions/d")); ("additionalProperties", TS (SBool true))];
                   TObj [("oneOf", TArr [TS SNil; TObj [("fromRef", TS (SStr "f.json")); ("type", TArr [TS (SStr "null"); TS (SStr "number")])]])]]);
   ("definitions", TObj [("d", TObj [])]); ("description", TS SNil)].
Example C73_case : distinct_keys doc73 /\
  d_inst true doc73 = Ok (Inst true
    [Inst true [] [] "" None false "" "" [] None [] None "#/definitions/d" [] "" "" None;
     Inst false [] [] "" None false "" "" [] None
       [Inst false [] [] "" None false "" "" [] None [] None "" [] "" "" None;
        Inst false [] [] "" None false "" "f.json" [] None [] None "" [] "" "" (Some ["null"; "number"])] None "" [] "" "" None]
    [] "" (Some (TObj [("d", TObj [])])) false "" "" [] None []
    (Some [("a", TObj [("type", TS (SStr "string"))]); ("b", TS SNil)]) "" ["a"; "b"] "" "" (Some ["object"])) /\
  d_inst true (TObj [("type", TS (SStr "object")); ("allOf", TArr [TObj [("oneOf", TArr [TObj [("required", TS (SBool true))]])]])]) = Err.
Proof.
  split_and!; [|reflexivity..]. cbn.
  repeat match goal with |- _ /\ _ => split | |- True => exact I | |- NoDup _ => apply (bool_decide_unpack _); vm_compute; exact I end.
Qed.

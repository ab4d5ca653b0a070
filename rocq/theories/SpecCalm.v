(** When XML transforms cannot crash (C23): the XPaths of a schema, and what the XPath library makes of them. *)
From stdpp Require Import strings list gmap.
From Verif Require Import GoStr Val Conv Instr Heap Schema Build SpecPath SpecSchema SpecTrans.

(** The library compiles the expression. xmlquery.Find panics for expressions that it does not compile. *)
Definition compiles (W : oracles) (x : string) : Prop := forall node, o_xfind W node x <> None.
(** An XPath that the library compiles, also with the predicates [*] and [not()] (around a star) after it, and that is not
    rewritten like a JSONPath: it does not begin with "@." or "@[" and does not contain "[*]". *)
Definition findable1 (W : oracles) (x : string) : Prop :=
  has_prefix "@." x = false /\ has_prefix "@[" x = false /\ str_in "[*]" x = false /\
  compiles W x /\ compiles W (x +:+ "[*]") /\ compiles W (x +:+ "[not(*)]").
(** the XPaths of all transforms of the schema *)
Definition findable (W : oracles) (tid : string) (props : option (list (string * tree))) (items : option tree) : Prop :=
  forall σ r me delim is, sinst (default [] props) items σ r -> transform_section W tid r me delim is ->
    Forall (fun i => findable1 W (i_xpath i)) is.

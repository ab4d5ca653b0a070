(** Names of the members of transform sections (C85). *)
From stdpp Require Import strings list gmap.
From Verif Require Import GoStr Val GoJson.

(** the name is none of these, in whatever case *)
Definition foreign_to (o_fold : string -> string) (names : list string) (k : string) : Prop := forall n, n ∈ names -> fold_name o_fold n <> fold_name o_fold k.
(** no name occurs twice, and each is one of [names] or foreign to them *)
Definition exactly (o_fold : string -> string) (names : list string) (kvs : list (string * tree)) : Prop :=
  NoDup kvs.*1 /\ Forall (fun kv => kv.1 ∈ names \/ foreign_to o_fold names kv.1) kvs.
(** ... in an operation, in an entry and its operations, in the method's options, and in a whole section *)
Definition exact_operation o_fold (t : tree) : Prop := forall kvs, t = TObj kvs -> exactly o_fold ["type"; "args"] kvs.
Definition exact_entry o_fold (t : tree) : Prop := forall kvs, t = TObj kvs -> exactly o_fold ["jsonPath"; "xmlPath"; "operations"] kvs /\
  forall l, ("operations", TArr l) ∈ kvs -> Forall (exact_operation o_fold) l.
Definition exact_options o_fold (t : tree) : Prop := forall kvs, t = TObj kvs -> exactly o_fold ["concatenateDelimiter"] kvs.
Definition exact_section o_fold (t : tree) : Prop := forall kvs, t = TObj kvs -> exactly o_fold ["from"; "method"; "methodOptions"] kvs /\
  (forall l, ("from", TArr l) ∈ kvs -> Forall (exact_entry o_fold) l) /\ (forall v, ("methodOptions", v) ∈ kvs -> exact_options o_fold v).

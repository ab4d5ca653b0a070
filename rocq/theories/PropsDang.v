(** Property C81: references to nothing are reported. *)
From stdpp Require Import strings list gmap.
From Coq Require Import Ascii ZArith.
From Verif Require Import GoStr GoStrL Val Schema Inst Load SpecRef SpecDang World Cases CaseLoad DangL CaseDang.
From Verif Require Den.

(** C81. A schema file that is missing or no schema, or that has anywhere a reference to a place without an
    object, to a URL that cannot be fetched, or to a file for which this holds in turn, is never loaded: *)
Theorem C81_reported F ty fl path : broken F ty fl path -> forall n i, load_schema F ty fl n path <> Some (Ok i).
Proof. exact (broken_fails F ty fl path). Qed.
Print Assumptions C81_reported.
Example C81_case :
  broken dang "" true "/s/first.json" /\ load_schema dang "" true 4 "/s/first.json" = Some Err /\
  broken dang "" true "/s/third.json" /\ load_schema dang "" true 4 "/s/third.json" = Some Err.
Proof. split; [apply first_broken|]. split; [by vm_compute|]. split; [apply third_broken|by vm_compute]. Qed.

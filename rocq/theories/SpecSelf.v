(** Documents with references that go round in a circle. *)
From stdpp Require Import strings list gmap.
From Verif Require Import GoStr Val Schema Inst Load SpecRef.
From Verif Require Den.

(** In the document [data] at [path] are references that never end: some references [r] of the document, each to an object of the document, at [τ], which is
    itself another of these references or contains one, below a member named in [N]. (None of these references has a member named in [N] beside
    it, which would replace the one referred to, and the member in which references are recorded is not one of [N].) *)
Definition endless_references (F : files) (path : string) (data : tree) : Prop := exists (S : string -> list string -> Prop) (N : string -> Prop),
  ~ N "fromRef" /\ (exists r τ, S r τ) /\
  forall r τ, S r τ -> own_ref F path r τ /\
    exists ρ r' τ' o, S r' τ' /\ reach data (τ ++ ρ) o /\ assoc "$ref" o = Some (TS (SStr r')) /\
      match ρ with [] => True | k :: _ => N k end /\ (forall k, N k -> assoc k o = None).
(** the documents that references lead to have no member twice *)
Definition sound_sources (F : files) (lf : string -> option (res instance)) : Prop :=
  (forall q i, lf q = Some (Ok i) -> Den.distinct_keys (m_inst i)) /\ (forall u t, f_http F u = Some t -> Den.distinct_keys t).

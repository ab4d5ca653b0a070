(** References in a document. *)
From stdpp Require Import strings list gmap.
From Coq Require Import Ascii ZArith.
From Verif Require Import GoStr GoStrL Val Schema Inst Load.
From Verif Require Den.

(** the object with members [o] is at [π] in [t], below objects and below arrays that are members of objects *)
Inductive reach : tree -> list string -> list (string * tree) -> Prop :=
| reach_here o : reach (TObj o) [] o
| reach_member kvs k o π out : assoc k kvs = Some (TObj o) -> reach (TObj o) π out -> reach (TObj kvs) (k :: π) out
| reach_item kvs k l i o π out : assoc k kvs = Some (TArr l) -> l !! i = Some (TObj o) -> reach (TObj o) π out ->
    reach (TObj kvs) (k :: item_key i :: π) out.
(** the object at [π] in [t] is a reference to [r] *)
Definition ref_at (t : tree) (π : list string) (r : string) : Prop :=
  exists o, reach t π o /\ assoc "$ref" o = Some (TS (SStr r)).

(** A local reference to the value at [τ]: #/a/b *)
Definition simple_path (τ : list string) : Prop := τ <> [] /\ Forall (fun c => c <> "" /\ free_of "/" c = true) τ.
Definition local_ref (τ : list string) : string := "#/" +:+ join "/" τ.
(** a reference to a file, or to a value in a file: name#/a/b *)
Definition file_part (f : string) : Prop := f <> "" /\ free_of "#" f = true /\ has_prefix "http" f = false.
Definition file_ref (f : string) (τ : list string) : string := match τ with [] => f | _ => f +:+ local_ref τ end.

(** Nothing between the top of [t] and [τ] is a reference *)
Definition not_below_ref (t : tree) (τ : list string) : Prop :=
  forall π ρ r, τ = π ++ ρ -> π <> [] -> ρ <> [] -> ~ ref_at t π r.

(** The references of the document [data] at [path] form no cycle: there are ranks such that each reference
    is to an object in another file that loads, or to an object of the document that is not below a
    reference, and the references in that object have a smaller rank. *)
Section acyclic.
Context (F : files) (lf : string -> option (res instance)) (path : string).
Definition own_ref (r : string) (τ : list string) : Prop :=
  simple_path τ /\ (r = local_ref τ \/ exists f, file_part f /\ f_rel F path f = path /\ r = file_ref f τ).
Definition other_ref (r : string) (src : tree) (τ : list string) : Prop :=
  exists f i, file_part f /\ f_rel F path f <> path /\ lf (f_rel F path f) = Some (Ok i) /\ src = m_inst i /\
    (τ = [] \/ simple_path τ) /\ r = file_ref f τ.
Inductive known (data : tree) (rk : string -> nat) (K : string -> Prop) (r : string) : Prop :=
| known_own τ o : own_ref r τ -> pget τ data = Some (TObj o) -> not_below_ref data τ ->
    (forall π r', ref_at (TObj o) π r' -> K r' /\ rk r' < rk r) -> known data rk K r
| known_other src τ o : other_ref r src τ -> pget τ src = Some (TObj o) -> Den.distinct_keys (TObj o) ->
    (forall π r', ref_at (TObj o) π r' -> K r' /\ rk r' < rk r) -> known data rk K r.
Definition ranked (data : tree) (rk : string -> nat) (K : string -> Prop) : Prop :=
  (forall π r, ref_at data π r -> K r) /\ (forall r, K r -> known data rk K r).
End acyclic.

(** [over a b]: the members of [a], and those of [b] that [a] does not have *)
Definition over (a b : option tree) : option tree := match a with Some _ => a | None => b end.

(** C42: the fields of a generated file, at any depth. *)
From stdpp Require Import strings list.
From Verif Require Import GoStr Val Gen.

(** [f] is one of the fields [fs] or a field inside one of them *)
Inductive field_in (f : field) : list (string * field) -> Prop :=
| field_here k fs : (k, f) ∈ fs -> field_in f fs
| field_below k g fs : (k, g) ∈ fs -> field_in f (f_fields g) -> field_in f fs.
(** [f] is a field of one of the structs of the file *)
Definition file_field (g : gofile) (f : field) : Prop :=
  field_in f (g_fields (gf_root g)) \/ exists k s, (k, s) ∈ gf_nested g /\ field_in f (g_fields s).
(** A slice of slices, and the names that do not look like one *)
Definition slice_of_slices (ty : string) : Prop := exists t, ty = "[][]" +:+ t.
Definition no_bracket (t : string) : Prop := forall s, t <> "[" +:+ s.

(** What loading a schema means: merging members, and the name of a referenced file. *)
From stdpp Require Import strings list gmap.
From Coq Require Import Ascii.
From Verif Require Import GoStr GoStrL Val Schema Inst.

(** the first of some property lists that has the name [k] *)
Fixpoint first_found (k : string) (ls : list (list (string * tree))) : option tree :=
  match ls with
  | [] => None
  | l :: ls' => match assoc k l with Some v => Some v | None => first_found k ls' end
  end.
Fixpoint first_some {A} (l : list (option A)) : option A :=
  match l with [] => None | Some a :: _ => Some a | None :: l' => first_some l' end.
Definition props_of (i : instance) : list (string * tree) := default [] (n_props i).

(** [l'] are the elements of [l] with property [P], in order *)
Inductive picks {A} (P : A -> Prop) : list A -> list A -> Prop :=
| picks_nil : picks P [] []
| picks_take x l l' : P x -> picks P l l' -> picks P (x :: l) (x :: l')
| picks_skip x l l' : ~ P x -> picks P l l' -> picks P (x :: l) l'.

(** the last element of the path [ref], without its extensions, is [t]: dir/t.ext *)
Definition file_name (ref t : string) : Prop :=
  exists dir base slashes,
    (ref = base +:+ slashes \/ ref = dir +:+ "/" +:+ base +:+ slashes) /\
    str_all (fun a => bool_decide (a = "/"%char)) slashes = true /\
    base <> "" /\ free_of "/" base = true /\
    free_of "." t = true /\ (base = t \/ exists ext, base = t +:+ "." +:+ ext).

(** [out] is [i] with the members [ms] merged in: a property is that of the first of [i] and [ms] that has it,
    required is the concatenation, items the first one present *)
Definition absorbed (i : instance) (ms : list instance) (out : instance) : Prop :=
  (forall k, assoc k (props_of out) = first_found k (map props_of (i :: ms))) /\
  n_required out = concat (map n_required (i :: ms)) /\
  n_items out = first_some (map n_items (i :: ms)) /\
  (Forall (fun m => NoDup (props_of m).*1) (i :: ms) -> NoDup (props_of out).*1) /\
  (ms <> [] -> is_Some (n_props out)) /\ (ms = [] -> out = i).
(** all other members of [out] are those of [i] *)
Definition same_rest (i out : instance) : Prop :=
  n_addl out = n_addl i /\ n_allOf out = n_allOf i /\ n_anyOf out = n_anyOf i /\ n_desc out = n_desc i /\
  n_defs out = n_defs i /\ n_embed out = n_embed i /\ n_format out = n_format i /\ n_fromRef out = n_fromRef i /\
  n_gargs out = n_gargs i /\ n_oneOf out = n_oneOf i /\ n_ref out = n_ref i /\ n_schema out = n_schema i /\
  n_target out = n_target i /\ n_type out = n_type i.

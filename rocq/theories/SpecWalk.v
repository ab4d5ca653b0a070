(** What walking a schema means. *)
From stdpp Require Import strings list gmap.
From Verif Require Import GoStr Val Schema Inst SpecPath SpecSchema.

(** the type names written in an instance: `"type": "x"` or `"type": ["x", ...]` *)
Definition names_in (l : list tree) : list string := omap (fun t => match t with TS (SStr s) => Some s | _ => None end) l.
Definition type_names (r : tree) : list string :=
  match jlookup "type" r with
  | Some (TS (SStr s)) => [s]
  | Some (TArr l) => names_in l
  | _ => []
  end.

(** The instances Walk visits: an instance that names the type object is an object, else one that names
    the type array is an array. *)
Inductive winst : tree -> list seg -> tree -> Prop :=
| winst_here raw : winst raw [] raw
| winst_prop raw ps k p σ r :
    "object" ∈ type_names raw -> jlookup "properties" raw = Some (TObj ps) ->
    (k, p) ∈ ps -> winst p σ r -> winst raw (Nm k :: σ) r
| winst_item raw i σ r :
    "object" ∉ type_names raw -> "array" ∈ type_names raw -> jlookup "items" raw = Some i ->
    winst i σ r -> winst raw (Star :: σ) r.
Inductive swinst (props : list (string * tree)) (items : option tree) : list seg -> tree -> Prop :=
| swinst_prop k p σ r : (k, p) ∈ props -> winst p σ r -> swinst props items (Nm k :: σ) r
| swinst_item i σ r : items = Some i -> winst i σ r -> swinst props items (Star :: σ) r.

(** names are distinct and not empty *)
Definition named (ps : list (string * tree)) : Prop := NoDup ps.*1 /\ Forall (fun kp => kp.1 <> "") ps.
Definition props_named (r : tree) : Prop := forall ps, jlookup "properties" r = Some (TObj ps) -> named ps.

(** Calling a callback on a list of locations with what is found there, until one call fails; [final] is
    the outcome if none does. *)
Fixpoint calls {X S} (fn : string -> X -> S -> S * res unit) (vs : list (list seg * X)) (final : res unit) (s : S) : S * res unit :=
  match vs with
  | [] => (s, final)
  | (σ, x) :: vs' =>
    match fn (path_of σ) x s with
    | (s', Ok _) => calls fn vs' final s'
    | (s', Err) => (s', Err)
    | (s', Panic) => (s', Panic)
    end
  end.
(** no location twice, and the location of the parent before each other location than the top ones *)
Definition once {X} (vs : list (list seg * X)) : Prop := NoDup vs.*1.
Definition parents_first {X} (vs : list (list seg * X)) : Prop :=
  forall vs1 σ s x vs2, vs = vs1 ++ (σ ++ [s], x) :: vs2 -> σ = [] \/ σ ∈ vs1.*1.

(** what an instance must have so that WalkRaw does not complain about it *)
Definition raw_fine (r : tree) : Prop :=
  exists ty nl, field_type r = Ok (ty, nl) /\
    (ty = "object" -> exists ps, jlookup "properties" r = Some (TObj ps)) /\
    (ty = "array" -> is_Some (jlookup "items" r)).
(** the same for Walk *)
Definition inst_fine (r : tree) : Prop :=
  (exists i, d_inst false r = Ok i) /\
  ("object" ∈ type_names r -> exists ps, jlookup "properties" r = Some (TObj ps)) /\
  ("object" ∉ type_names r -> "array" ∈ type_names r -> is_Some (jlookup "items" r)).
(** a callback that records its calls *)
Definition record {X} (p : string) (x : X) (s : list (string * X)) : list (string * X) * res unit := (s ++ [(p, x)], Ok tt).

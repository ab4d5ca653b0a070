(** Schemas as the properties speak of them: instances, their locations, kinds and sections. *)
From stdpp Require Import strings list gmap.
From Coq Require Import ZArith.
From Verif Require Import GoStr Val Conv Instr Heap Schema Build SpecPath Den.

(** [inst raw σ r]: [r] is the instance found in schema [raw] at the relative location [σ] *)
Inductive inst : tree -> list seg -> tree -> Prop :=
| inst_here raw : inst raw [] raw
| inst_prop raw nl ps k p σ r :
    field_type raw = Ok ("object", nl) -> jlookup "properties" raw = Some (TObj ps) ->
    (k, p) ∈ ps -> inst p σ r -> inst raw (Nm k :: σ) r
| inst_item raw nl i σ r :
    field_type raw = Ok ("array", nl) -> jlookup "items" raw = Some i ->
    inst i σ r -> inst raw (Star :: σ) r.
(** the instances of a whole schema: of its properties, and of its items *)
Inductive sinst (props : list (string * tree)) (items : option tree) : list seg -> tree -> Prop :=
| sinst_prop k p σ r : (k, p) ∈ props -> inst p σ r -> sinst props items (Nm k :: σ) r
| sinst_item i σ r : items = Some i -> inst i σ r -> sinst props items (Star :: σ) r.

Section spec.
Context (W : oracles) (tid : string).

(** the transform section of an instance for transform [tid], its paths anchored at [parent] *)
Definition section (raw : tree) (parent : string) : res (option ptis) :=
  match jlookup "transform" raw ≫= jlookup tid with
  | None | Some (TS (SStr "")) => Ok None
  | Some t =>
    rbind (dec_tis W t) (fun d =>
    match all_some d.2 with
    | None => Panic
    | Some is => Ok (Some (d.1.1, d.1.2, rebase parent <$> is))
    end)
  end.
(** the default of an instance; null and absent are the same *)
Definition dflt_of (raw : tree) : tree := default (TS SNil) (jlookup "default" raw).
(** the scalar type, with the date-time format *)
Definition leaf_type (raw : tree) (jt : string) : res string :=
  if decide (jt = "string") then
    match jlookup "format" raw with
    | None => Ok jt
    | Some (TS (SStr fm)) => Ok (if decide (fm = "date-time") then "date-time" else jt)
    | Some _ => Err
    end
  else Ok jt.

(** [reads σ raw p]: instance [raw] at location [σ], with everything below it, reads as [p] *)
Inductive reads : list seg -> tree -> pitr -> Prop :=
| reads_leaf σ raw jt nl jt' ts :
    field_type raw = Ok (jt, nl) -> jt <> "array" ->
    (jt = "object" -> jlookup "properties" raw = Some (TObj [])) ->
    leaf_type raw jt = Ok jt' -> section raw (parent_path (path_of σ) KScalar) = Ok ts ->
    distinct_keys (dflt_of raw) ->
    reads σ raw (PScal (path_of σ) jt' (dflt_of raw) ts)
| reads_obj σ raw nl ps d ts cs :
    field_type raw = Ok ("object", nl) -> jlookup "properties" raw = Some (TObj ps) -> ps <> [] ->
    section raw (parent_path (path_of σ) KObject) = Ok ts ->
    match d with None => dflt_of raw = TS SNil | Some kvs => dflt_of raw = TObj kvs end ->
    distinct_keys (dflt_of raw) ->
    NoDup ps.*1 -> Forall (fun kp => plain_name kp.1) ps ->
    reads_all σ ps cs ->
    reads σ raw (PObj (path_of σ) d ts cs)
| reads_arr σ raw nl i d ts c :
    field_type raw = Ok ("array", nl) -> jlookup "items" raw = Some i ->
    section raw (parent_path (path_of σ) KArray) = Ok ts ->
    match d with None => dflt_of raw = TS SNil | Some l => dflt_of raw = TArr l end ->
    distinct_keys (dflt_of raw) ->
    reads (σ ++ [Star]) i c ->
    reads σ raw (PArr (path_of σ) d ts c)
with reads_all : list seg -> list (string * tree) -> list (string * pitr) -> Prop :=
| reads_nil σ : reads_all σ [] []
| reads_cons σ k p ps c cs : reads (σ ++ [Nm k]) p c -> reads_all σ ps cs ->
    reads_all σ ((k, p) :: ps) ((k, c) :: cs).
End spec.
Scheme reads_ind2 := Induction for reads Sort Prop
  with reads_all_ind2 := Induction for reads_all Sort Prop.
Combined Scheme reads_mutind from reads_ind2, reads_all_ind2.

(** the node of a transformer at a location *)
Fixpoint node_at (i : itr) (σ : list seg) : option itr :=
  match σ with
  | [] => Some i
  | Nm k :: σ' => match i with IObj _ _ _ cs => c ← get_child k cs; node_at c σ' | _ => None end
  | Star :: σ' => match i with IArr _ _ _ (Some c) => node_at c σ' | _ => None end
  | Ix _ :: _ => None
  end.

(** What a JSON document becomes under a schema whose arrays have transforms or defaults (C67). *)
From stdpp Require Import strings list gmap.
From Coq Require Import ZArith.
From Verif Require Import GoStr Val Conv Instr Heap Schema Build SpecPath Den SpecSchema SpecProj.

(** Schemas as in SpecProj, in which moreover the arrays that are not inside other arrays may have a
    default [d] and a transform [ts]. *)
Inductive jsch := JLeaf (jt : string) (d : tree) (ts : option sec) | JRec (members : list (string * jsch))
  | JLst (d : option (list tree)) (ts : option sec) (item : sch).

Section shape.
Context (W : oracles) (tid : string).
(** [jshape raw s]: the raw schema [raw] is the schema [s] *)
Inductive jshape : tree -> jsch -> Prop :=
| jshape_leaf raw jt nl jt' ts :
    field_type raw = Ok (jt, nl) -> jt <> "array" ->
    (jt = "object" -> jlookup "properties" raw = Some (TObj [])) ->
    leaf_type raw jt = Ok jt' -> distinct_keys (dflt_of raw) -> sec_of W tid raw ts ->
    jshape raw (JLeaf jt' (dflt_of raw) ts)
| jshape_rec raw nl ps cs :
    field_type raw = Ok ("object", nl) -> jlookup "properties" raw = Some (TObj ps) -> ps <> [] ->
    bare tid raw ->
    NoDup ps.*1 -> Forall (fun kp => ident kp.1 = true) ps -> jshape_all ps cs ->
    jshape raw (JRec cs)
| jshape_lst raw nl i d ts c :
    field_type raw = Ok ("array", nl) -> jlookup "items" raw = Some i ->
    match d with None => dflt_of raw = TS SNil | Some l => dflt_of raw = TArr l end ->
    distinct_keys (dflt_of raw) -> sec_of W tid raw ts -> shape W tid i c ->
    jshape raw (JLst d ts c)
with jshape_all : list (string * tree) -> list (string * jsch) -> Prop :=
| jshape_nil : jshape_all [] []
| jshape_cons k p ps c cs : jshape p c -> jshape_all ps cs -> jshape_all ((k, p) :: ps) ((k, c) :: cs).
End shape.
Scheme jshape_ind2 := Induction for jshape Sort Prop
  with jshape_all_ind2 := Induction for jshape_all Sort Prop.
Combined Scheme jshape_mutind from jshape_ind2, jshape_all_ind2.
(** a whole schema, given by its Properties *)
Definition jshaped (W : oracles) (tid : string) (ps : list (string * tree)) (s : jsch) : Prop :=
  exists cs, s = JRec cs /\ NoDup ps.*1 /\ Forall (fun kp => ident kp.1 = true) ps /\ jshape_all W tid ps cs.

(** The document with [b] stored under the member names [w]: objects that are missing on the way, or null,
    are made; anything else that is not an object is in the way. *)
Definition set_key (k : string) (b : tree) (kvs : list (string * tree)) : list (string * tree) :=
  (k, b) :: filter (fun kv => kv.1 <> k) kvs.
Fixpoint stored (w : list string) (b : tree) (t : tree) : option tree :=
  match w, t with
  | k :: w', TObj kvs =>
    match w' with
    | [] => Some (TObj (set_key k b kvs))
    | _ =>
      t' ← stored w' b (match tmap kvs !! k with None | Some (TS SNil) => TObj [] | Some u => u end);
      Some (TObj (set_key k t' kvs))
    end
  | _, _ => None
  end.

(** The output. An array has the items of the transform's value, else those of the input value, else those
    of the default. Items that do not come from their place in the input are stored there first (second
    component true); then the item schema is applied to what is found there. *)
Section project.
Context (W : oracles) (doc : tree).
Definition base_items (d : option (list tree)) (ts : option sec) (parent v : option tree) : option (list tree * bool) :=
  match transformed W doc "array" parent ts with
  | Err | Panic => None
  | Ok g =>
    if negb (is_nil tview g) then Some (elems (Some (gtree g)), true) else
    match v with
    | None | Some (TS SNil) => Some (default [] d, bool_decide (is_Some d))
    | Some _ => Some (elems v, false)
    end
  end.
(** [ρ]: where the value is; [parent], [v]: as in SpecProj *)
Fixpoint jproject (s : jsch) (ρ : list string) (parent v : option tree) : option tree :=
  match s with
  | JLeaf jt d ts => resolve W doc jt d ts parent v
  | JRec cs =>
    obj_of <$> all_of (List.map (fun kc => match kc with (k, c) => pair k <$> jproject c (ρ ++ [k]) v (v ≫= member k) end) cs)
  | JLst d ts c =>
    b ← base_items d ts parent v;
    doc' ← (if b.2 : bool then stored ρ (TArr b.1) doc else Some doc);
    let at_item i := locate (Nm <$> ρ) doc' ≫= item i in
    arr_of <$> all_of (imap (fun i _ => project W doc' c (at_item i) (at_item i)) b.1)
  end.
(** the arrays made by transforms and defaults are short enough that their indices are Go ints *)
Fixpoint sized (s : jsch) (parent v : option tree) : Prop :=
  match s with
  | JLeaf _ _ _ => True
  | JRec cs =>
    (fix all (cs : list (string * jsch)) : Prop :=
       match cs with [] => True | (k, c) :: cs' => sized c v (v ≫= member k) /\ all cs' end) cs
  | JLst d ts _ => forall l, base_items d ts parent v = Some (l, true) -> small (TArr l)
  end.
End project.

(** ** Separation *)
(** where arrays with a transform or a default are stored *)
Fixpoint stores (s : jsch) (ρ : list string) : list (list string) :=
  match s with
  | JLeaf _ _ _ => []
  | JRec cs => List.concat (List.map (fun kc => match kc with (k, c) => stores c (ρ ++ [k]) end) cs)
  | JLst None None _ => []
  | JLst _ _ _ => [ρ]
  end.
(** neither place is inside the other *)
Definition apart {A} (a b : list A) : Prop := ~ a `prefix_of` b /\ ~ b `prefix_of` a.
(** the places the entries of a transform read, relative ones starting at [ρp] *)
Definition places (ρp : list string) (ts : option sec) : list (list seg) :=
  match ts with
  | None => []
  | Some (_, _, from) => List.map (fun xo : src * list op => match xo.1 with Rel τ => (Nm <$> ρp) ++ τ | Abs τ => τ end) from
  end.
(** the absolute places an item schema reads *)
Fixpoint abs_places (s : sch) : list (list seg) :=
  match s with
  | Leaf _ _ (Some (_, _, from)) => from ≫= (fun xo : src * list op => match xo.1 with Rel _ => [] | Abs τ => [τ] end)
  | Leaf _ _ None => []
  | Rec cs => List.concat (List.map (fun kc => match kc with (_, c) => abs_places c end) cs)
  | Lst c => abs_places c
  end.
(** No part of the schema reads what is stored for another part, nor an object something is stored into.
    [ws]: where arrays are stored; [ρ], [ρp]: where the part and the enclosing object are. *)
Fixpoint separate (ws : list (list string)) (s : jsch) (ρ ρp : list string) : Prop :=
  match s with
  | JLeaf _ _ ts => forall τ w, τ ∈ places ρp ts -> w ∈ ws -> apart (Nm <$> w) τ
  | JRec cs =>
    (fix all (cs : list (string * jsch)) : Prop :=
       match cs with [] => True | (k, c) :: cs' => separate ws c (ρ ++ [k]) ρ /\ all cs' end) cs
  | JLst _ ts c => forall τ w, τ ∈ places ρp ts ++ abs_places c -> w ∈ ws ->
      apart (Nm <$> w) τ \/ (w = ρ /\ (Nm <$> w) `prefix_of` τ)
  end.

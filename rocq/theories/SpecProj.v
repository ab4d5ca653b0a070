(** The projection of a document to a schema without transforms and defaults (C16), and the notion of
    the value at a location of a document. *)
From stdpp Require Import strings list gmap.
From Coq Require Import ZArith.
From Verif Require Import GoStr Val Conv Instr Heap Schema Build SpecPath Den SpecSchema.

(** member [k] of an object; item [i] of an array (or, as the JSONPath library has it, the member whose
    name is the number [i]) *)
Definition member (k : string) (t : tree) : option tree :=
  match t with TObj kvs => tmap kvs !! k | _ => None end.
Definition item (i : nat) (t : tree) : option tree :=
  match t with
  | TArr l => l !! i
  | TObj kvs => tmap kvs !! itoa (Z.of_nat i)
  | _ => None
  end.
(** the value at a location *)
Fixpoint locate (ρ : list seg) (t : tree) : option tree :=
  match ρ with
  | [] => Some t
  | Nm k :: ρ' => member k t ≫= locate ρ'
  | Ix i :: ρ' => item i t ≫= locate ρ'
  | Star :: _ => None
  end.
(** arrays short enough that their indices are Go ints *)
Fixpoint small (t : tree) : Prop :=
  match t with
  | TArr l => (Z.of_nat (length l) <= 2 ^ 63)%Z /\
      (fix all (l : list tree) : Prop := match l with [] => True | t :: l' => small t /\ all l' end) l
  | TObj kvs => (fix all (l : list (string * tree)) : Prop :=
                   match l with [] => True | (_, t) :: l' => small t /\ all l' end) kvs
  | _ => True
  end.

(** Schemas whose transforms are on scalars and use plain paths: relative ones (`@.a.b[0]`) and absolute
    ones (`$.a.b`). Objects and arrays have neither transforms nor defaults. *)
Inductive src := Rel (τ : list seg) | Abs (τ : list seg).
Definition src_str (x : src) : string :=
  match x with Rel τ => "@" +:+ segs τ | Abs τ => "$" +:+ segs τ end.
Definition src_ok (x : src) : Prop :=
  match x with Rel τ => τ <> [] /\ Forall concrete τ | Abs τ => Forall concrete τ end.
(** method, delimiter and the entries: source and operations *)
Definition sec : Type := meth * string * list (src * list op).
Inductive sch := Leaf (jt : string) (d : tree) (ts : option sec) | Rec (members : list (string * sch)) | Lst (item : sch).

Section shape.
Context (W : oracles) (tid : string).
(** the transform section of an instance *)
Definition sec_of (raw : tree) (ts : option sec) : Prop :=
  match ts with
  | None => jlookup "transform" raw ≫= jlookup tid = None
  | Some (me, delim, from) =>
    exists t is, jlookup "transform" raw ≫= jlookup tid = Some t /\ t <> TS (SStr "") /\
      dec_tis W t = Ok (me, delim, Some <$> is) /\
      Forall2 (fun i xo => i_jpath i = src_str xo.1 /\ i_ops i = xo.2 /\ src_ok xo.1) is from /\
      (me = MLast -> length from <= 1)
  end.
Definition bare (raw : tree) : Prop := jlookup "default" raw = None /\ jlookup "transform" raw ≫= jlookup tid = None.
(** [shape raw s]: the raw schema [raw] is the schema [s] *)
Inductive shape : tree -> sch -> Prop :=
| shape_leaf raw jt nl jt' ts :
    field_type raw = Ok (jt, nl) -> jt <> "array" ->
    (jt = "object" -> jlookup "properties" raw = Some (TObj [])) ->
    leaf_type raw jt = Ok jt' -> distinct_keys (dflt_of raw) -> sec_of raw ts ->
    shape raw (Leaf jt' (dflt_of raw) ts)
| shape_rec raw nl ps cs :
    field_type raw = Ok ("object", nl) -> jlookup "properties" raw = Some (TObj ps) -> ps <> [] ->
    bare raw ->
    NoDup ps.*1 -> Forall (fun kp => ident kp.1 = true) ps -> shape_all ps cs ->
    shape raw (Rec cs)
| shape_lst raw nl i c :
    field_type raw = Ok ("array", nl) -> jlookup "items" raw = Some i ->
    bare raw -> shape i c ->
    shape raw (Lst c)
with shape_all : list (string * tree) -> list (string * sch) -> Prop :=
| shape_nil : shape_all [] []
| shape_cons k p ps c cs : shape p c -> shape_all ps cs -> shape_all ((k, p) :: ps) ((k, c) :: cs).
End shape.
Scheme shape_ind2 := Induction for shape Sort Prop
  with shape_all_ind2 := Induction for shape_all Sort Prop.
Combined Scheme shape_mutind from shape_ind2, shape_all_ind2.

(** a whole schema, given by its Properties or by its Items *)
Definition shaped (W : oracles) (tid : string) (props : option (list (string * tree))) (items : option tree) (s : sch) : Prop :=
  match s, props, items with
  | Rec cs, Some ps, None => NoDup ps.*1 /\ Forall (fun kp => ident kp.1 = true) ps /\ shape_all W tid ps cs
  | Lst c, None, Some i => shape W tid i c
  | _, _, _ => False
  end.

(** The output: null stands for an absent value, None for a failure. [root] is the whole input document,
    [v] the input value at the schema's location, if there is one, and [parent] the value relative paths
    start from: the enclosing object, or the item itself for scalar items of arrays. Objects and arrays
    left without content are absent. *)
Definition elems (v : option tree) : list tree :=
  match v with
  | None | Some (TS SNil) => []
  | Some (TArr l) => l
  | Some t => [t]
  end.
Section project.
Context (W : oracles) (root : tree).
(** the value an entry takes from its source *)
Definition source (parent : option tree) (x : src) : option tree :=
  match x with Rel τ => parent ≫= locate τ | Abs τ => locate τ root end.
(** converted if possible, and handed to the operations *)
Definition entry (jt : string) (parent : option tree) (xo : src * list op) : res (gval tree) :=
  match source parent xo.1 with
  | None | Some (TS SNil) => Ok (GS SNil)
  | Some t =>
    match convert W tview jt (GV t) with
    | None => Panic
    | Some (v, e) =>
      let value := if e : bool then GV t else v in
      if is_nil tview value then Ok (GS SNil) else ops_run W tview xo.2 value
    end
  end.
Fixpoint first_of (l : list (res (gval tree))) : res (gval tree) :=
  match l with
  | [] => Ok (GS SNil)
  | r :: l' => rbind r (fun g => if is_nil tview g then first_of l' else Ok g)
  end.
Fixpoint concat_of (delim : string) (acc : gval tree) (l : list (res (gval tree))) : res (gval tree) :=
  match l with
  | [] => Ok acc
  | r :: l' => rbind r (fun g => rbind (Conv.concat tview acc g delim) (fun a => concat_of delim a l'))
  end.
Definition transformed (jt : string) (parent : option tree) (ts : option sec) : res (gval tree) :=
  match ts with
  | None => Ok (GS SNil)
  | Some (me, delim, from) =>
    let l := entry jt parent <$> from in
    match me with MConcat => concat_of delim (GS SNil) l | _ => first_of l end
  end.
(** the transform's value, else the converted input value, else the default *)
Definition resolve (jt : string) (d : tree) (ts : option sec) (parent v : option tree) : option tree :=
  match transformed jt parent ts with
  | Err | Panic => None
  | Ok g =>
    if negb (is_nil tview g) then Some (gtree g) else
    match v with
    | None => Some d
    | Some t =>
      match convert W tview jt (GV t) with
      | None => None
      | Some (g, e) =>
        if is_nil tview g then Some d else
        if e : bool then None else Some (gtree g)
      end
    end
  end.
Fixpoint project (s : sch) (parent v : option tree) : option tree :=
  match s with
  | Leaf jt d ts => resolve jt d ts parent v
  | Rec cs =>
    obj_of <$> all_of (List.map (fun kc => match kc with (k, c) => pair k <$> project c v (v ≫= member k) end) cs)
  | Lst c =>
    arr_of <$> all_of (imap (fun i _ => project c (v ≫= item i) (v ≫= item i)) (elems v))
  end.
End project.

(** schemas without transforms and defaults *)
Fixpoint untransformed (s : sch) : Prop :=
  match s with
  | Leaf _ d ts => d = TS SNil /\ ts = None
  | Rec cs => (fix all (cs : list (string * sch)) : Prop :=
                 match cs with [] => True | (_, c) :: cs' => untransformed c /\ all cs' end) cs
  | Lst c => untransformed c
  end.
(** documents whose values have the schema's types already, null and absent values allowed *)
Fixpoint fits (s : sch) (t : tree) : Prop :=
  t = TS SNil \/
  match s, t with
  | Leaf jt _ _, TS sc =>
    match sc with
    | SBool _ => jt = "boolean"
    | SF _ => jt = "number" \/ jt = "integer"
    | SStr _ => jt = "string"
    | _ => False
    end
  | Rec cs, TObj kvs =>
    (fix all (cs : list (string * sch)) : Prop :=
       match cs with
       | [] => True
       | (k, c) :: cs' => match member k t with Some v => fits c v | None => True end /\ all cs'
       end) cs
  | Lst c, TArr l =>
    (fix all (l : list tree) : Prop := match l with [] => True | t :: l' => fits c t /\ all l' end) l
  | _, _ => False
  end.
(** the part of a document the schema mentions *)
Fixpoint pick (s : sch) (t : tree) : tree :=
  match s with
  | Leaf _ _ _ => t
  | Rec cs => obj_of (List.map (fun kc => match kc with (k, c) =>
                (k, match member k t with Some v => pick c v | None => TS SNil end) end) cs)
  | Lst c => match t with TArr l => arr_of (pick c <$> l) | _ => TS SNil end
  end.

(** The modifier in force inside nested arrays: [nested m σ ρ] says that with modifier [m] the instance
    at schema location [σ] is being produced for the input location [ρ]. An array extends the modifier for
    item [i] as instance.go 199-201 and 237-239 do. *)
Definition item_mod (m : modifier) (path : string) (i : nat) : modifier :=
  path_replace (apply_mod m path +:+ "[*]") (apply_mod m path +:+ idx_str i) m.
Inductive nested : modifier -> list seg -> list seg -> Prop :=
| nested_root : nested [] [] []
| nested_member m σ ρ k : nested m σ ρ -> nested m (σ ++ [Nm k]) (ρ ++ [Nm k])
| nested_item m σ ρ i : nested m σ ρ -> nested (item_mod m (path_of σ) i) (σ ++ [Star]) (ρ ++ [Ix i]).

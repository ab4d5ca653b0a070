(** What a JSON document becomes under a schema whose objects have transforms (C82). *)
From stdpp Require Import strings list gmap.
From Coq Require Import ZArith.
From Verif Require Import GoStr Val Conv Instr Heap Schema Build SpecPath Den SpecSchema SpecProj SpecArr.
From Verif Require Import SpecDef.

(** Schemas as in SpecProj, in which moreover the objects that are not inside arrays may have a transform that
    selects one place [sel] of the document. *)
Inductive osch := OLeaf (jt : string) (d : tree) (ts : option sec) | OLst (item : sch)
  | ORec (sel : option src) (members : list (string * osch)).
(** the place is given by member names, and is not the whole document *)
Definition by_names (x : src) : Prop :=
  match x with Rel τ | Abs τ => τ <> [] /\ Forall (fun s => exists k, s = Nm k /\ ident k = true) τ end.

Section shape.
Context (W : oracles) (tid : string).
(** [oshape raw s]: the raw schema [raw] is the schema [s] *)
Inductive oshape : tree -> osch -> Prop :=
| oshape_leaf raw jt nl jt' ts :
    field_type raw = Ok (jt, nl) -> jt <> "array" ->
    (jt = "object" -> jlookup "properties" raw = Some (TObj [])) ->
    leaf_type raw jt = Ok jt' -> distinct_keys (dflt_of raw) -> sec_of W tid raw ts ->
    oshape raw (OLeaf jt' (dflt_of raw) ts)
| oshape_lst raw nl i c :
    field_type raw = Ok ("array", nl) -> jlookup "items" raw = Some i -> bare tid raw -> shape W tid i c ->
    oshape raw (OLst c)
| oshape_rec raw nl ps sel cs :
    field_type raw = Ok ("object", nl) -> jlookup "properties" raw = Some (TObj ps) -> ps <> [] ->
    dflt_of raw = TS SNil ->
    match sel with
    | None => sec_of W tid raw None
    | Some x => exists delim, sec_of W tid raw (Some (MFirst, delim, [(x, [])])) /\ by_names x
    end ->
    NoDup ps.*1 -> Forall (fun kp => ident kp.1 = true) ps -> oshape_all ps cs ->
    oshape raw (ORec sel cs)
with oshape_all : list (string * tree) -> list (string * osch) -> Prop :=
| oshape_nil : oshape_all [] []
| oshape_cons k p ps c cs : oshape p c -> oshape_all ps cs -> oshape_all ((k, p) :: ps) ((k, c) :: cs).
End shape.
Scheme oshape_ind2 := Induction for oshape Sort Prop
  with oshape_all_ind2 := Induction for oshape_all Sort Prop.
Combined Scheme oshape_mutind from oshape_ind2, oshape_all_ind2.
(** a whole schema, given by its Properties *)
Definition oshaped (W : oracles) (tid : string) (ps : list (string * tree)) (s : osch) : Prop :=
  exists cs, s = ORec None cs /\ NoDup ps.*1 /\ Forall (fun kp => ident kp.1 = true) ps /\ oshape_all W tid ps cs.

(** The output. An object has the members of the selected object, those the schema does not mention included, except
    that the properties of the schema that have a value of their own take their place. Nothing and null select the
    object without members; any other value is an error. What is selected is no source for the values of the
    properties: these come from the places in the document they would come from without the transform. *)
Section project.
Context (W : oracles) (doc : tree).
Definition chosen (sel : option src) (parent : option tree) : option (list (string * tree)) :=
  match sel with
  | None => Some []
  | Some x =>
    match source doc parent x with
    | None | Some (TS SNil) => Some []
    | Some (TObj kvs) => Some kvs
    | Some _ => None
    end
  end.
Fixpoint oproject (s : osch) (parent v : option tree) : option tree :=
  match s with
  | OLeaf jt d ts => resolve W doc jt d ts parent v
  | OLst c => project W doc (Lst c) parent v
  | ORec sel cs =>
    kvs ← chosen sel parent;
    (fun r => obj_or_nil (overlay kvs r)) <$>
      all_of (List.map (fun kc => match kc with (k, c) => pair k <$> oproject c v (v ≫= member k) end) cs)
  end.
End project.

(** ** Separation *)
Definition name_of (s : seg) : string := match s with Nm k => k | _ => "" end.
(** the place a transform selects, relative ones starting at [ρp] *)
Definition goal (ρp : list string) (x : src) : list string :=
  match x with Rel τ => ρp ++ (name_of <$> τ) | Abs τ => name_of <$> τ end.
(** the places that are selected by the schema [s] of what is at [ρ] in the object at [ρp] ... *)
Fixpoint selections (s : osch) (ρ ρp : list string) : list (list string) :=
  match s with
  | OLeaf _ _ _ | OLst _ => []
  | ORec sel cs =>
    option_list (goal ρp <$> sel) ++ List.concat (List.map (fun kc => match kc with (k, c) => selections c (ρ ++ [k]) ρ end) cs)
  end.
(** ... and the members of selected objects that properties take the place of *)
Fixpoint replaced (s : osch) (ρ ρp : list string) : list (list string) :=
  match s with
  | OLeaf _ _ _ | OLst _ => []
  | ORec sel cs =>
    match sel with Some x => List.map (fun kc : string * osch => goal ρp x ++ [kc.1]) cs | None => [] end ++
    List.concat (List.map (fun kc => match kc with (k, c) => replaced c (ρ ++ [k]) ρ end) cs)
  end.
(** What is at [τ] contains nothing that is selected, and is no part of a member that is replaced, except those of [o]. *)
Definition clear (ws wr o : list (list string)) (τ : list seg) : Prop :=
  (forall w, w ∈ ws -> ~ τ `prefix_of` (Nm <$> w)) /\
  (forall d, d ∈ wr -> d ∉ o -> ~ (Nm <$> d) `prefix_of` τ).
(** Everything that is read is clear. A property that takes the place of a member may read that member. *)
Fixpoint undisturbed (ws wr o : list (list string)) (s : osch) (ρ ρp : list string) : Prop :=
  match s with
  | OLeaf _ _ ts => forall τ, τ ∈ (Nm <$> ρ) :: places ρp ts -> clear ws wr o τ
  | OLst c => forall τ, τ ∈ (Nm <$> ρ) :: abs_places c -> clear ws wr o τ
  | ORec sel cs =>
    (fix all (cs : list (string * osch)) : Prop :=
       match cs with
       | [] => True
       | (k, c) :: cs' =>
         undisturbed ws wr (match sel with Some x => (goal ρp x ++ [k]) :: o | None => o end) c (ρ ++ [k]) ρ /\ all cs'
       end) cs
  end.
Definition separated (s : osch) : Prop :=
  let ws := selections s [] [] in
  (forall i j w w', ws !! i = Some w -> ws !! j = Some w' -> i <> j -> apart w w') /\
  undisturbed ws (replaced s [] []) [] s [] [].
(** no array is selected in [doc] *)
Definition no_array (s : osch) (doc : tree) : Prop :=
  forall w l, w ∈ selections s [] [] -> locate (Nm <$> w) doc <> Some (TArr l).

(** What an XML transformer makes of a node (C66): a schema as it is seen by XML, and the document for it. *)
From stdpp Require Import strings list gmap.
From Coq Require Import ZArith.
From Verif Require Import GoStr Val Conv Instr Heap Schema Build SpecPath Den SpecSchema SpecProj.

(** method, delimiter and the entries: XPath and operations *)
Definition xsec : Type := meth * string * list (string * list op).
(** a scalar with its type and default; an object; an array with its default *)
Inductive xsch :=
| XLeaf (jt : string) (d : tree) (ts : option xsec)
| XRec (ts : option xsec) (members : list (string * xsch))
| XLst (d : list tree) (ts : option xsec) (item : xsch).

Section shape.
Context (W : oracles) (tid : string).
(** XPaths that are not taken for JSONPaths: without dollar sign, and not beginning with "@." or "@[" *)
Definition xpath_only (x : string) : Prop := str_in "$" x = false /\ has_prefix "@." x = false /\ has_prefix "@[" x = false.
(** the transform section of an instance *)
Definition xsec_of (raw : tree) (ts : option xsec) : Prop :=
  match ts with
  | None => jlookup "transform" raw ≫= jlookup tid = None
  | Some (me, delim, from) =>
    exists t is, jlookup "transform" raw ≫= jlookup tid = Some t /\ t <> TS (SStr "") /\
      dec_tis W t = Ok (me, delim, Some <$> is) /\
      Forall2 (fun i xo => i_xpath i = xo.1 /\ i_ops i = xo.2 /\ xpath_only xo.1) is from /\
      (me = MLast -> length from <= 1)
  end.
(** [xshape raw s]: the raw schema [raw] is the schema [s] *)
Inductive xshape : tree -> xsch -> Prop :=
| xshape_leaf raw jt nl jt' ts :
    field_type raw = Ok (jt, nl) -> jt <> "array" ->
    (jt = "object" -> jlookup "properties" raw = Some (TObj [])) ->
    leaf_type raw jt = Ok jt' -> distinct_keys (dflt_of raw) -> xsec_of raw ts ->
    xshape raw (XLeaf jt' (dflt_of raw) ts)
| xshape_rec raw nl ps ts cs :
    field_type raw = Ok ("object", nl) -> jlookup "properties" raw = Some (TObj ps) -> ps <> [] ->
    dflt_of raw = TS SNil -> xsec_of raw ts ->
    NoDup ps.*1 -> Forall (fun kp => ident kp.1 = true) ps -> xshape_all ps cs ->
    xshape raw (XRec ts cs)
| xshape_lst raw nl i d ts c :
    field_type raw = Ok ("array", nl) -> jlookup "items" raw = Some i ->
    (dflt_of raw = TS SNil /\ d = [] \/ dflt_of raw = TArr d) -> distinct_keys (dflt_of raw) ->
    xsec_of raw ts -> xshape i c ->
    xshape raw (XLst d ts c)
with xshape_all : list (string * tree) -> list (string * xsch) -> Prop :=
| xshape_nil : xshape_all [] []
| xshape_cons k p ps c cs : xshape p c -> xshape_all ps cs -> xshape_all ((k, p) :: ps) ((k, c) :: cs).
End shape.
Scheme xshape_ind2 := Induction for xshape Sort Prop
  with xshape_all_ind2 := Induction for xshape_all Sort Prop.
Combined Scheme xshape_mutind from xshape_ind2, xshape_all_ind2.

(** a whole schema, given by its Properties or by its Items *)
Definition xshaped (W : oracles) (tid : string) (props : option (list (string * tree))) (items : option tree) (s : xsch) : Prop :=
  match s, props, items with
  | XRec None cs, Some ps, None => NoDup ps.*1 /\ Forall (fun kp => ident kp.1 = true) ps /\ xshape_all W tid ps cs
  | XLst [] None c, None, Some i => xshape W tid i c
  | _, _, _ => False
  end.

(** The document for a node of the input. *)
Section project.
Context (W : oracles).
(** a selection that is one element without child elements *)
Definition one_leaf (inner leaves : list nat) : bool := bool_decide (inner = []) && bool_decide (length leaves = 1).
(** The value of an entry at the node [n]: the text of a single leaf, converted; the nodes for arrays and objects; the
    texts of the nodes for strings; the converted text of the first node, or else the nodes. *)
Definition xentry (jt : string) (n : nat) (xo : string * list op) : res (gval tree) :=
  match o_xfind W n xo.1 with
  | None => Panic
  | Some [] => Ok (GS SNil)
  | Some (n0 :: ns) =>
    match o_xfind W n (xo.1 +:+ "[*]"), o_xfind W n (xo.1 +:+ "[not(*)]") with
    | Some inner, Some leaves =>
      let text := convert W tview jt (GS (SStr (o_text W n0))) in
      let value :=
        if one_leaf inner leaves then fst <$> text
        else if decide (jt = "array" \/ jt = "object") then Some (GN (n0 :: ns))
        else if decide (jt = "string") then Some (GS (SStr (join " " (o_text W <$> (n0 :: ns)))))
        else (fun ve : gval tree * bool => if ve.2 then GN (n0 :: ns) else ve.1) <$> text in
      match value with
      | None => Panic
      | Some v => if is_nil tview v then Ok (GS SNil) else ops_run W tview xo.2 v
      end
    | _, _ => Panic
    end
  end.
Definition xvalue (jt : string) (n : nat) (ts : option xsec) : res (gval tree) :=
  match ts with
  | None => Ok (GS SNil)
  | Some (me, delim, from) =>
    let l := xentry jt n <$> from in
    match me with MConcat => concat_of delim (GS SNil) l | _ => first_of l end
  end.
(** the items of an array: nodes, values of a list, a single value *)
Definition xelems (d : list tree) (t : tree) : list tree :=
  match t with TNodes l => TNode <$> l | TS SNil => d | TArr l => l | t => [t] end.
(** The document for the node [n]: null stands for an absent value, None for a failure. *)
Fixpoint xproject (s : xsch) (n : nat) : option tree :=
  match s with
  | XLeaf jt d ts =>
    match xvalue jt n ts with
    | Ok g => Some (if is_nil tview g then d else gtree g)
    | _ => None
    end
  | XRec ts cs =>
    let members (n : nat) := obj_of <$> all_of (List.map (fun kc => match kc with (k, c) => pair k <$> xproject c n end) cs) in
    match ts with
    | None => members n
    | Some _ =>
      match xvalue "object" n ts with
      | Ok g =>
        match gtree g with
        | TS SNil | TS (SStr "") => Some (TS SNil)
        | TNode k | TNodes (k :: _) => members k
        | TNodes [] => members n
        | _ => None
        end
      | _ => None
      end
    end
  | XLst d ts c =>
    match xvalue "array" n ts with
    | Ok g => arr_of <$> all_of (List.map (fun t => match t with TNode k => xproject c k | _ => Some t end) (xelems d (gtree g)))
    | _ => None
    end
  end.
End project.

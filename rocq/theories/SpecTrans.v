(** Vocabulary for the properties of single instances of a transformer. *)
From stdpp Require Import strings list gmap.
From Coq Require Import ZArith.
From Verif Require Import GoStr Val Conv Instr Heap Schema Build Api SpecPath Den SpecSchema SpecProj SpecRun.

(** the kinds of instances: arrays, objects with properties, and all others *)
Inductive kind_of (r : tree) : ikind -> Prop :=
| kind_array nl : field_type r = Ok ("array", nl) -> kind_of r KArray
| kind_object nl ps : field_type r = Ok ("object", nl) -> jlookup "properties" r = Some (TObj ps) -> ps <> [] ->
    kind_of r KObject
| kind_empty nl : field_type r = Ok ("object", nl) -> jlookup "properties" r = Some (TObj []) -> kind_of r KScalar
| kind_scalar jt nl : field_type r = Ok (jt, nl) -> jt <> "array" -> jt <> "object" -> kind_of r KScalar.
(** the node of the transformer for an instance of that kind at a path *)
Definition node_kind (i : itr) : ikind :=
  match i with IScal _ _ _ _ => KScalar | IObj _ _ _ _ => KObject | IArr _ _ _ _ => KArray end.
Definition node_ts (i : itr) : option tis :=
  match i with IScal _ _ _ ts => ts | IObj _ _ ts _ => ts | IArr _ _ ts _ => ts end.

(** [anchor k σ a]: relative paths of the instance of kind [k] at location [σ] start from location [a] *)
Inductive anchor : ikind -> list seg -> list seg -> Prop :=
| anchor_member k σ n : anchor k (σ ++ [Nm n]) σ
| anchor_item σ : anchor KScalar (σ ++ [Star]) (σ ++ [Star])
| anchor_nested k σ n j : k <> KScalar -> anchor k (σ ++ Nm n :: replicate (S j) Star) σ.
(** [anchored a p p']: [p'] is [p] with a leading `@` replaced by [a] *)
Definition anchored (a : string) (p p' : string) : Prop :=
  (exists r, p = "@." +:+ r /\ p' = a +:+ "." +:+ r) \/
  (exists r, p = "@[" +:+ r /\ p' = a +:+ "[" +:+ r) \/
  ((forall r, p <> "@." +:+ r) /\ (forall r, p <> "@[" +:+ r) /\ p' = p).
Definition anchored_entry (a : string) (i i' : instr) : Prop :=
  anchored a (i_jpath i) (i_jpath i') /\ anchored a (i_xpath i) (i_xpath i') /\ i_ops i' = i_ops i.

(** the transform section of an instance, if it has one *)
Definition transform_section (W : oracles) (tid : string) (r : tree) (me : meth) (delim : string) (is : list instr) : Prop :=
  exists t, jlookup "transform" r ≫= jlookup tid = Some t /\ t <> TS (SStr "") /\
    dec_tis W t = Ok (me, delim, Some <$> is).

(** no transform of the schema uses the operation `max` *)
Definition no_max (W : oracles) (tid : string) (props : option (list (string * tree))) (items : option tree) : Prop :=
  forall σ r me delim is, sinst (default [] props) items σ r -> transform_section W tid r me delim is ->
    Forall (fun i => forall args, OpMax args ∉ i_ops i) is.
(** what paths select from a document nests less deep than the stack *)
Definition roomy (W : oracles) (doc : tree) : Prop :=
  forall path g, jget W tview path doc = Some g -> depth (gtree g) <= o_stack W.

(** evaluating items [i], [i+1], ... one after the other succeeds with values [vs] *)
Inductive item_runs (item : nat -> M val) : nat -> list val -> st -> st -> Prop :=
| runs_nil i s : item_runs item i [] s s
| runs_cons i v vs s s1 s2 : item i s = (s1, Ok v) -> item_runs item (S i) vs s1 s2 ->
    item_runs item i (v :: vs) s s2.

(** transforms that use relative paths only *)
Fixpoint relative_only (s : sch) : Prop :=
  match s with
  | Leaf _ _ ts => match ts with None => True | Some (_, _, from) => Forall (fun xo => exists τ, xo.1 = Rel τ) from end
  | Rec cs => (fix all (cs : list (string * sch)) : Prop :=
                 match cs with [] => True | (_, c) :: cs' => relative_only c /\ all cs' end) cs
  | Lst c => relative_only c
  end.

(** what NewTransformer requires of each instance *)
Definition buildable (W : oracles) (tid : string) (r : tree) : Prop :=
  exists jt nl, field_type r = Ok (jt, nl) /\
  (forall t, jlookup "transform" r ≫= jlookup tid = Some t -> t <> TS (SStr "") ->
     exists me delim is, dec_tis W t = Ok (me, delim, Some <$> is)) /\
  (jt = "array" -> is_Some (jlookup "items" r) /\ (dflt_of r = TS SNil \/ exists l, dflt_of r = TArr l)) /\
  (jt = "object" -> exists ps, jlookup "properties" r = Some (TObj ps) /\
     (ps <> [] -> dflt_of r = TS SNil \/ exists kvs, dflt_of r = TObj kvs)) /\
  (jt = "string" -> jlookup "format" r = None \/ exists s, jlookup "format" r = Some (TS (SStr s))).

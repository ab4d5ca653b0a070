(** What a transformer makes of documents when objects of the schema have defaults (C80). The code puts the members it
    makes into the map that is the default, so that a document leaves its values in the default for the next document. *)
From stdpp Require Import strings list gmap.
From Coq Require Import ZArith.
From Verif Require Import GoStr Val Conv Instr Heap Schema Build Api SpecPath Den SpecSchema SpecProj SpecXml SpecRun.

(** the members of [kvs] with those of [new] that are not null put over them *)
Definition overlay (kvs new : list (string * tree)) : list (string * tree) :=
  let n := filter (fun kv => tnil kv.2 = false) new in n ++ filter (fun kv => kv.1 ∉ n.*1) kvs.
(** an object without members is absent *)
Definition obj_or_nil (kvs : list (string * tree)) : tree := match kvs with [] => TS SNil | _ => TObj kvs end.

(** ** JSON
    A schema without defaults of objects; an object whose members may have them; an object with the default [d], whose
    members are without. *)
Inductive dsch := DSame (s : sch) | DRec (members : list (string * dsch)) | DDef (d : list (string * tree)) (members : list (string * sch)).
Section shape.
Context (W : oracles) (tid : string).
(** [dshape raw s]: the raw schema [raw] is the schema [s] *)
Inductive dshape : tree -> dsch -> Prop :=
| dshape_same raw s : shape W tid raw s -> dshape raw (DSame s)
| dshape_rec raw nl ps cs :
    field_type raw = Ok ("object", nl) -> jlookup "properties" raw = Some (TObj ps) -> ps <> [] -> bare tid raw ->
    NoDup ps.*1 -> Forall (fun kp => ident kp.1 = true) ps -> dshape_all ps cs ->
    dshape raw (DRec cs)
| dshape_def raw nl ps d cs :
    field_type raw = Ok ("object", nl) -> jlookup "properties" raw = Some (TObj ps) -> ps <> [] ->
    jlookup "default" raw = Some (TObj d) -> distinct_keys (TObj d) -> jlookup "transform" raw ≫= jlookup tid = None ->
    NoDup ps.*1 -> Forall (fun kp => ident kp.1 = true) ps -> shape_all W tid ps cs ->
    dshape raw (DDef d cs)
with dshape_all : list (string * tree) -> list (string * dsch) -> Prop :=
| dshape_nil : dshape_all [] []
| dshape_cons k p ps c cs : dshape p c -> dshape_all ps cs -> dshape_all ((k, p) :: ps) ((k, c) :: cs).
End shape.
Scheme dshape_ind2 := Induction for dshape Sort Prop
  with dshape_all_ind2 := Induction for dshape_all Sort Prop.
Combined Scheme dshape_mutind from dshape_ind2, dshape_all_ind2.
(** a whole schema, given by its Properties *)
Definition dshaped (W : oracles) (tid : string) (props : list (string * tree)) (s : dsch) : Prop :=
  match s with
  | DRec cs => NoDup props.*1 /\ Forall (fun kp => ident kp.1 = true) props /\ dshape_all W tid props cs
  | _ => False
  end.
(** The output and the schema with the defaults as they are afterwards; None is a failure. As for [project], [root] is the
    whole input document, [v] the value at the schema's location and [parent] the value relative paths start from. *)
Fixpoint dproject (W : oracles) (root : tree) (s : dsch) (parent v : option tree) : option (tree * dsch) :=
  match s with
  | DSame s => (fun t => (t, DSame s)) <$> project W root s parent v
  | DRec cs =>
    (fun r : list (string * (tree * dsch)) =>
       (obj_of (List.map (fun kr => (kr.1, kr.2.1)) r), DRec (List.map (fun kr => (kr.1, kr.2.2)) r))) <$>
    all_of (List.map (fun kc => match kc with (k, c) => pair k <$> dproject W root c v (v ≫= member k) end) cs)
  | DDef d cs =>
    (fun r => (obj_or_nil (overlay d r), DDef (overlay d r) cs)) <$>
    all_of (List.map (fun kc => match kc with (k, c) => pair k <$> project W root c v (v ≫= member k) end) cs)
  end.
(** The transformer [i] for [props] and the transform [tid], in the state [s] after any number of calls that succeeded up
    to validation or were not given JSON: the schema with the defaults as they are then is the first argument. *)
Inductive dstate (W : oracles) (E : env) (tid : string) (props : list (string * tree)) (i : itr) : dsch -> st -> Prop :=
| dstate_new sc s : dshaped W tid props sc -> new_transformer W tid (Some props) None st0 = (s, Ok i) ->
    dstate W E tid props i sc s
| dstate_doc sc s perm c doc t sc' : dstate W E tid props i sc s -> orders perm ->
    e_json E (match c with Validated raw | Unvalidated raw => raw end) = Some doc -> small doc ->
    dproject W doc sc (Some doc) (Some doc) = Some (t, sc') ->
    dstate W E tid props i sc' (serve W E perm FJson i c s).1
| dstate_bad sc s perm c : dstate W E tid props i sc s -> orders perm ->
    e_json E (match c with Validated raw | Unvalidated raw => raw end) = None ->
    dstate W E tid props i sc (serve W E perm FJson i c s).1.

(** ** XML *)
Inductive xdsch :=
| XDSame (s : xsch)
| XDRec (ts : option xsec) (members : list (string * xdsch))
| XDDef (d : list (string * tree)) (ts : option xsec) (members : list (string * xsch)).
Section xshape.
Context (W : oracles) (tid : string).
Inductive xdshape : tree -> xdsch -> Prop :=
| xdshape_same raw s : xshape W tid raw s -> xdshape raw (XDSame s)
| xdshape_rec raw nl ps ts cs :
    field_type raw = Ok ("object", nl) -> jlookup "properties" raw = Some (TObj ps) -> ps <> [] ->
    dflt_of raw = TS SNil -> xsec_of W tid raw ts ->
    NoDup ps.*1 -> Forall (fun kp => ident kp.1 = true) ps -> xdshape_all ps cs ->
    xdshape raw (XDRec ts cs)
| xdshape_def raw nl ps d ts cs :
    field_type raw = Ok ("object", nl) -> jlookup "properties" raw = Some (TObj ps) -> ps <> [] ->
    jlookup "default" raw = Some (TObj d) -> distinct_keys (TObj d) -> xsec_of W tid raw ts ->
    NoDup ps.*1 -> Forall (fun kp => ident kp.1 = true) ps -> xshape_all W tid ps cs ->
    xdshape raw (XDDef d ts cs)
with xdshape_all : list (string * tree) -> list (string * xdsch) -> Prop :=
| xdshape_nil : xdshape_all [] []
| xdshape_cons k p ps c cs : xdshape p c -> xdshape_all ps cs -> xdshape_all ((k, p) :: ps) ((k, c) :: cs).
End xshape.
Scheme xdshape_ind2 := Induction for xdshape Sort Prop
  with xdshape_all_ind2 := Induction for xdshape_all Sort Prop.
Combined Scheme xdshape_mutind from xdshape_ind2, xdshape_all_ind2.
Definition xdshaped (W : oracles) (tid : string) (props : list (string * tree)) (s : xdsch) : Prop :=
  match s with
  | XDRec None cs => NoDup props.*1 /\ Forall (fun kp => ident kp.1 = true) props /\ xdshape_all W tid props cs
  | _ => False
  end.
(** the node an object is made of: [none] if the XPaths select nothing, [empty] if they give the empty text *)
Definition selected {A} (W : oracles) (ts : option xsec) (n : nat) (none empty : A) (members : nat -> option A) : option A :=
  match ts with
  | None => members n
  | Some _ =>
    match xvalue W "object" n ts with
    | Ok g =>
      match gtree g with
      | TS SNil => Some none
      | TS (SStr "") => Some empty
      | TNode k | TNodes (k :: _) => members k
      | TNodes [] => members n
      | _ => None
      end
    | _ => None
    end
  end.
(** the output for the node [n] and the schema with the defaults as they are afterwards *)
Fixpoint xdproject (W : oracles) (s : xdsch) (n : nat) : option (tree * xdsch) :=
  match s with
  | XDSame s' => (fun t => (t, XDSame s')) <$> xproject W s' n
  | XDRec ts cs =>
    selected W ts n (TS SNil, s) (TS SNil, s) (fun n =>
      (fun r : list (string * (tree * xdsch)) =>
         (obj_of (List.map (fun kr => (kr.1, kr.2.1)) r), XDRec ts (List.map (fun kr => (kr.1, kr.2.2)) r))) <$>
      all_of (List.map (fun kc => match kc with (k, c) => pair k <$> xdproject W c n end) cs))
  | XDDef d ts cs =>
    selected W ts n (TObj d, s) (TS SNil, s) (fun n =>
      (fun r => (obj_or_nil (overlay d r), XDDef (overlay d r) ts cs)) <$>
      all_of (List.map (fun kc => match kc with (k, c) => pair k <$> xproject W c n end) cs))
  end.
Inductive xdstate (W : oracles) (E : env) (tid : string) (props : list (string * tree)) (i : itr) : xdsch -> st -> Prop :=
| xdstate_new sc s : xdshaped W tid props sc -> new_transformer W tid (Some props) None st0 = (s, Ok i) ->
    xdstate W E tid props i sc s
| xdstate_doc sc s perm c n t sc' : xdstate W E tid props i sc s -> orders perm ->
    e_xml E (match c with Validated raw | Unvalidated raw => raw end) = Some n ->
    xdproject W sc n = Some (t, sc') ->
    xdstate W E tid props i sc' (serve W E perm FXml i c s).1
| xdstate_bad sc s perm c : xdstate W E tid props i sc s -> orders perm ->
    e_xml E (match c with Validated raw | Unvalidated raw => raw end) = None ->
    xdstate W E tid props i sc (serve W E perm FXml i c s).1.

(** ** Members
    The schema at a location, given by the names of the members that lead to it. *)
Fixpoint dlook (ks : list string) (s : dsch) : option dsch :=
  match ks with
  | [] => Some s
  | k :: ks' => match s with DRec cs => (list_to_map cs : gmap string dsch) !! k ≫= dlook ks' | _ => None end
  end.
(** the value the document [root] has for the member [j] of an object with the members [ms], made of the value [v] *)
Definition made (W : oracles) (root : tree) (ms : list (string * sch)) (v : option tree) (j : string) : option tree :=
  c ← (list_to_map ms : gmap string sch) !! j; project W root c v (v ≫= member j).
(** [x], or [y] if [x] is absent or null *)
Definition or_else (x y : option tree) : option tree :=
  match x with Some t => if tnil t then y else x | None => y end.
Definition names (ks : list string) : list seg := Nm <$> ks.

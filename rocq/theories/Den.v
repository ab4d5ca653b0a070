(** A pure reading of a transformer: what it computes when nothing it shares is mutated. No heap, no
    instruction lists that change, no iteration order: the value of a node is a function of the input
    tree. Refine.v shows that the code computes exactly this for the transformers of class [pure]. *)
From stdpp Require Import strings list gmap.
From Coq Require Import ZArith.
From Verif Require Import GoStr Val Conv Instr Heap.

(** method, delimiter, entries *)
Definition ptis : Type := meth * string * list instr.
Inductive pitr :=
| PScal (path jt : string) (dflt : tree) (ts : option ptis)
| PObj (path : string) (dflt : option (list (string * tree))) (ts : option ptis) (children : list (string * pitr))
| PArr (path : string) (dflt : option (list tree)) (ts : option ptis) (child : pitr).
Definition p_path (p : pitr) : string :=
  match p with PScal q _ _ _ => q | PObj q _ _ _ => q | PArr q _ _ _ => q end.

(** the value computed by an instruction, as a tree *)
Fixpoint gtree (g : gval tree) : tree :=
  match g with
  | GV t => t
  | GS s => TS s
  | GL l => TArr (gtree <$> l)
  | GN l => TNodes l
  end.
Definition tnil (t : tree) : bool := match t with TS SNil => true | _ => false end.
(** an object without members and an array without items are omitted *)
Definition obj_of (kvs : list (string * tree)) : tree :=
  match filter (fun kv => tnil kv.2 = false) kvs with [] => TS SNil | l => TObj l end.
Definition arr_of (ts : list tree) : tree :=
  match filter (fun t => tnil t = false) ts with [] => TS SNil | l => TArr l end.

Fixpoint all_of {A} (l : list (option A)) : option (list A) :=
  match l with
  | [] => Some []
  | o :: l' => a ← o; r ← all_of l'; Some (a :: r)
  end.

Section den.
Context (W : oracles) (f : fmt).

Definition run_ptis (ts : option ptis) (input : tree) (ft : string) (m : modifier) : option tree :=
  match ts with
  | None => Some (TS SNil)
  | Some (me, delim, from) =>
    match (tis_run W tview f (Tis 0 me delim) from input ft m).1 with
    | Ok g => Some (gtree g)
    | _ => None
    end
  end.

Definition den_scal (path jt : string) (d : tree) (ts : option ptis) (input : tree) (m : modifier)
  : option tree :=
  v ← run_ptis ts input jt m;
  if negb (tnil v) then Some v else
  match f with
  | FXml => Some d
  | FJson =>
    match jget W tview (apply_mod m path) input with
    | None => Some d
    | Some g =>
      match convert W tview jt g with
      | None => None
      | Some (nv, e) =>
        if is_nil tview nv then Some d else
        if e : bool then None else Some (gtree nv)
      end
    end
  end.

Definition den_obj (ts : option ptis) (acts : list (string * (tree -> modifier -> option tree)))
    (input : tree) (m : modifier) : option tree :=
  let run (input : tree) :=
    obj_of <$> all_of (List.map
      (fun kd : string * (tree -> modifier -> option tree) => pair kd.1 <$> kd.2 input m) acts) in
  match f, ts with
  | FXml, Some _ =>
    v ← run_ptis ts input "object" m;
    match v with
    | TS SNil | TS (SStr "") => Some (TS SNil)
    | TNode n => run (TNode n)
    | TNodes (n :: _) => run (TNode n)
    | TNodes [] => run input
    | _ => None
    end
  | _, _ => run input
  end.

Definition den_items (path : string) (d : option (list tree)) (ts : option ptis)
    (input : tree) (m : modifier) : option (list tree) :=
  match f with
  | FJson =>
    match jget W tview path input with
    | Some g =>
      match gtree g with
      | TS SNil => Some []
      | TArr l => Some l
      | t => Some [t]
      end
    | None => Some []
    end
  | FXml =>
    v ← run_ptis ts input "array" m;
    match v with
    | TNodes l => Some (TNode <$> l)
    | TS SNil => Some (default [] d)
    | TArr l => Some l
    | t => Some [t]
    end
  end.
Definition den_arr (path0 : string) (d : option (list tree)) (ts : option ptis)
    (child : tree -> modifier -> option tree) (input : tree) (m : modifier) : option tree :=
  let path := apply_mod m path0 in
  its ← den_items path d ts input m;
  arr_of <$> all_of (imap (fun i t =>
    let m' := path_replace (path +:+ "[*]") (path +:+ idx_str i) m in
    match f with
    | FJson => child input m'
    | FXml => match t with TNode _ => child t m' | _ => Some t end
    end) its).

Fixpoint den (p : pitr) (input : tree) (m : modifier) : option tree :=
  match p with
  | PScal path jt d ts => den_scal path jt d ts input m
  | PObj _ _ ts cs => den_obj ts (List.map (fun kc => match kc with (k, c) => (k, den c) end) cs) input m
  | PArr path d ts c => den_arr path d ts (den c) input m
  end.
End den.

(** The class: no `last` transform with more than one entry, no object default; for JSON no transforms
    of objects and arrays and no array defaults. *)
Definition pure_ts (ts : option ptis) : Prop :=
  match ts with
  | Some (MLast, _, from) => length from <= 1
  | _ => True
  end.
Fixpoint pure (f : fmt) (p : pitr) : Prop :=
  match p with
  | PScal _ _ _ ts => pure_ts ts
  | PObj _ d ts cs =>
    pure_ts ts /\ d = None /\ (f = FJson -> ts = None) /\
    (fix all (cs : list (string * pitr)) : Prop :=
       match cs with [] => True | (_, c) :: cs' => pure f c /\ all cs' end) cs
  | PArr _ d ts c => pure_ts ts /\ (f = FJson -> ts = None /\ d = None) /\ pure f c
  end.

(** The paths are those of the nesting. *)
Definition name_ok (k : string) : Prop := str_in "." k = false /\ str_in "[" k = false /\ k <> "".
Fixpoint wf_paths (p : pitr) : Prop :=
  match p with
  | PScal _ _ _ _ => True
  | PObj q _ _ cs =>
    NoDup cs.*1 /\
    (fix all (cs : list (string * pitr)) : Prop :=
       match cs with
       | [] => True
       | (k, c) :: cs' => (name_ok k /\ p_path c = q +:+ "." +:+ k /\ wf_paths c) /\ all cs'
       end) cs
  | PArr q _ _ c => p_path c = q +:+ "[*]" /\ wf_paths c
  end.

(** the same document with the members in the fixed order of [elements] *)
Fixpoint canon (t : tree) : tree :=
  match t with
  | TArr l => TArr (canon <$> l)
  | TObj kvs =>
    let m : gmap string tree := list_to_map (List.map (fun kv => match kv with (k, t') => (k, canon t') end) kvs) in
    TObj (omap (fun k => pair k <$> m !! k) (elements (dom m)))
  | t => t
  end.
Fixpoint depth (t : tree) : nat :=
  match t with
  | TArr l => S (foldr Nat.max 0 (depth <$> l))
  | TObj kvs => S (foldr Nat.max 0 (List.map (fun kv => match kv with (_, t') => depth t' end) kvs))
  | _ => 1
  end.
(** documents: distinct member names everywhere *)
Fixpoint distinct_keys (t : tree) : Prop :=
  match t with
  | TArr l => (fix all (l : list tree) : Prop :=
                 match l with [] => True | t :: l' => distinct_keys t /\ all l' end) l
  | TObj kvs => NoDup kvs.*1 /\
                (fix all (l : list (string * tree)) : Prop :=
                   match l with [] => True | (_, t) :: l' => distinct_keys t /\ all l' end) kvs
  | _ => True
  end.

(** transformer.go and instance.go with an explicit heap: maps and slices are references, and schema
    defaults, the input tree and the instruction lists of a Transformer are shared and mutable. *)
From stdpp Require Import strings list gmap.
From Coq Require Import Ascii ZArith.
From Verif Require Import GoStr Val Conv Instr.

Notation loc := nat (only parsing).

(** interface{} values. A slice is a backing array and a length (every slice here starts at index 0 of
    its backing array); [VArr None 0] is the nil slice, which as an interface is not nil. *)
Inductive val :=
| VS (s : scal)
| VMap (l : loc)
| VArr (l : option loc) (n : nat)
| VNode (n : nat)
| VNodes (l : list nat).

(** heap cells; the capacity of a slice is the length of its backing array *)
Inductive cell :=
| CMap (m : gmap string val)
| CArr (l : list val).

Notation heap := (gmap nat cell) (only parsing).

Definition hmap (h : heap) (l : loc) : gmap string val :=
  match h !! l with Some (CMap m) => m | _ => ∅ end.
Definition harr (h : heap) (l : option loc) : list val :=
  match l with
  | Some l => match h !! l with Some (CArr b) => b | _ => [] end
  | None => []
  end.
Definition view (h : heap) (v : val) : vw val :=
  match v with
  | VS s => WS s
  | VMap l => WMap (hmap h l)
  | VArr l n => WArr (take n (harr h l))
  | VNode n => WNode n
  | VNodes l => WNodes l
  end.

(** The state of a run: heap, next free location, the From lists of all transformInstructions of the
    Transformer (transform.go 214), and a counter that numbers the map iterations. *)
Record st := St { hp : heap; nxt : nat; froms : gmap nat (list instr); tick : nat }.

(** Computations keep the state they reached even when they fail: mutations are not rolled back. *)
Definition M (A : Type) : Type := st -> st * res A.
Definition mret {A} (a : A) : M A := fun s => (s, Ok a).
Definition mfail {A} : M A := fun s => (s, Err).
Definition mpanic {A} : M A := fun s => (s, Panic).
Definition mbind {A B} (c : M A) (k : A -> M B) : M B := fun s =>
  match c s with
  | (s', Ok a) => k a s'
  | (s', Err) => (s', Err)
  | (s', Panic) => (s', Panic)
  end.
Notation "x <-- c ;; k" := (mbind c (fun x => k)) (at level 100, c at next level, right associativity).
Notation "c1 ;;; c2" := (mbind c1 (fun _ => c2)) (at level 100, right associativity).
(** run [c] and look at its error *)
Definition mtry {A} (c : M A) : M (option A) := fun s =>
  match c s with
  | (s', Ok a) => (s', Ok (Some a))
  | (s', Err) => (s', Ok None)
  | (s', Panic) => (s', Panic)
  end.
Definition mlift {A} (r : res A) : M A := fun s => (s, r).
Definition mheap : M heap := fun s => (s, Ok (hp s)).

Definition alloc (c : cell) : M loc := fun s =>
  (St (<[nxt s := c]> (hp s)) (S (nxt s)) (froms s) (tick s), Ok (nxt s)).
Definition write (l : loc) (c : cell) : M unit := fun s =>
  (St (<[l := c]> (hp s)) (nxt s) (froms s) (tick s), Ok tt).
(** m[k] = v *)
Definition map_set (l : loc) (k : string) (v : val) : M unit :=
  h <-- mheap ;; write l (CMap (<[k := v]> (hmap h l))).

Section heap.
Context (W : oracles).

(** a slice header *)
Definition slice : Type := option loc * nat.
Definition slice_val (s : slice) : val := VArr s.1 s.2.

(** append(s, v) for one element *)
Definition append1 (s : slice) (v : val) : M slice :=
  h <-- mheap ;;
  let b := harr h s.1 in
  match s.1 with
  | Some l =>
    if decide (s.2 < length b) then
      write l (CArr (<[s.2 := v]> b)) ;;; mret (Some l, S s.2)
    else
      l' <-- alloc (CArr (take s.2 b ++ [v] ++ replicate (o_grow W (S s.2) - S s.2) (VS SNil))) ;;
      mret (Some l', S s.2)
  | None =>
    l' <-- alloc (CArr ([v] ++ replicate (o_grow W 1 - 1) (VS SNil))) ;; mret (Some l', 1)
  end.
(** transformer.go 327-330 *)
Fixpoint append_nils (k : nat) (s : slice) : M slice :=
  match k with
  | O => mret s
  | S k' => s' <-- append1 s (VS SNil) ;; append_nils k' s'
  end.
(** current[i] = v, with i within the length *)
Definition slice_set (s : slice) (i : nat) (v : val) : M unit :=
  h <-- mheap ;;
  match s.1 with
  | Some l => if decide (i < s.2) then write l (CArr (<[i := v]> (harr h (Some l)))) else mpanic
  | None => mpanic
  end.
Definition slice_get (s : slice) (i : nat) : M val :=
  h <-- mheap ;;
  match take s.2 (harr h s.1) !! i with Some v => mret v | None => mpanic end.

(** transformer.go 334-343: merge the members of the map already at the index into the new map. Go
    ranges over oldValue in random order, which cannot be observed as the keys are distinct. *)
Definition merge_old (value old : val) : M unit :=
  match value, old with
  | VMap ln, VMap lo =>
    h <-- mheap ;; write ln (CMap (hmap h ln ∪ hmap h lo))
  | _, _ => mret tt
  end.

(** transformer.go 317-357. The error of the recursive call (line 354) is dropped; the nil slice
    returned with it is stored. *)
Fixpoint save_in_slice (current : slice) (splits : list string) (value : val) : M slice :=
  match splits with
  | [] => mpanic
  | s :: rest =>
    match atoi (trim "]" s) with
    | None => mfail
    | Some index =>
      cur <-- (match current.1 with
               | Some _ => mret current
               | None =>
                 if (index <? 0)%Z then mpanic else
                 l <-- alloc (CArr (replicate (Z.to_nat index) (VS SNil))) ;; mret (Some l, 0)
               end) ;;
      cur <-- append_nils (Z.to_nat (index + 1 - Z.of_nat cur.2)) cur ;;
      if (index <? 0)%Z then mpanic else
      let i := Z.to_nat index in
      match rest with
      | [] =>
        old <-- slice_get cur i ;;
        merge_old value old ;;;
        slice_set cur i value ;;;
        mret cur
      | _ =>
        old <-- slice_get cur i ;;
        let nested := match old with VArr l n => (l, n) | _ => (None, 0) end in
        nv <-- mtry (save_in_slice nested rest value) ;;
        slice_set cur i (match nv with Some s' => slice_val s' | None => VArr None 0 end) ;;;
        mret cur
      end
    end
  end.

(** the type assertion tree[k].([]interface{}) of transformer.go 265-268 and 304-307 *)
Definition get_slice (tree : loc) (k : string) : M slice :=
  h <-- mheap ;;
  match hmap h tree !! k with
  | None => mret (None, 0)
  | Some (VArr l n) => mret (l, n)
  | Some _ => mpanic
  end.

(** transformer.go 297-315 *)
Definition save_leaf (tree : loc) (path : string) (value : val) : M unit :=
  match split path "[" with
  | [_] => map_set tree path value
  | a :: rest =>
    sv <-- get_slice tree a ;;
    nv <-- save_in_slice sv rest value ;;
    map_set tree a (slice_val nv)
  | [] => mpanic
  end.

(** transformer.go 248-292 on the list strings.Split(path, "."). A leading "$" is dropped once per
    call ([stripped]). *)
Fixpoint save_splits (stripped : bool) (tree : loc) (splits : list string) (value : val) : M unit :=
  match splits with
  | [] => mpanic
  | s :: rest =>
    if negb stripped && bool_decide (s = "$") then
      match rest with
      | [] => mpanic                                   (* path[2:] of "$" *)
      | _ => save_splits true tree rest value
      end
    else
    match rest with
    | [] => save_leaf tree s value
    | _ =>
      match split s "[" with
      | [_] =>
        h <-- mheap ;;
        nt <-- (match hmap h tree !! s with
                | None | Some (VS SNil) => alloc (CMap ∅)
                | Some (VMap l) => mret l
                | Some _ => mfail
                end) ;;
        map_set tree s (VMap nt) ;;;
        save_splits false nt rest value
      | a :: asp =>
        sv <-- get_slice tree a ;;
        nt <-- alloc (CMap ∅) ;;
        nv <-- save_in_slice sv asp (VMap nt) ;;
        map_set tree a (slice_val nv) ;;;
        save_splits false nt rest value
      | [] => mpanic
      end
    end
  end.
Definition vnil (v : val) : bool := match v with VS SNil => true | _ => false end.
Definition save_in_tree (tree : loc) (path : string) (value : val) : M unit :=
  if vnil value then mret tt else save_splits false tree (split path ".") value.

(** allocation of the value an instruction computed *)
Fixpoint inject (g : gval val) : M val :=
  match g with
  | GV v => mret v
  | GS s => mret (VS s)
  | GN l => mret (VNodes l)
  | GL l =>
    vs <-- (fix go (l : list (gval val)) : M (list val) :=
              match l with
              | [] => mret []
              | g :: l' => v <-- inject g ;; vs <-- go l' ;; mret (v :: vs)
              end) l ;;
    a <-- alloc (CArr vs) ;; mret (VArr (Some a) (length vs))
  end.

(** instance.go: the three instanceTransformers. Children of an object are a Go map; here a list whose
    iteration order is chosen by [perm]. *)
Inductive itr :=
| IScal (path jt : string) (dflt : val) (ts : option tis)
| IObj (path : string) (dflt : option loc) (ts : option tis) (children : list (string * itr))
| IArr (path : string) (dflt : option slice) (ts : option tis) (child : option itr).

(** instance.go 161, 316, 493 *)
Definition it_path (i : itr) : string :=
  match i with IScal p _ _ _ => p | IObj p _ _ _ => p | IArr p _ _ _ => p end.

(** Go's order of iteration over a map with n entries at the t-th iteration *)
Context (perm : nat -> nat -> list nat).
Context (f : fmt).

(** transform.go 258-293 on the state *)
Definition run_tis (t : tis) (input : val) (ft : string) (m : modifier) : M val := fun s =>
  let '(r, from') := tis_run W (view (hp s)) f t (default [] (froms s !! ti_id t)) input ft m in
  let s' := St (hp s) (nxt s) (<[ti_id t := from']> (froms s)) (tick s) in
  match r with
  | Ok g => inject g s'
  | Err => (s', Err)
  | Panic => (s', Panic)
  end.
Definition run_opt_tis (ts : option tis) (input : val) (ft : string) (m : modifier) : M val :=
  match ts with Some t => run_tis t input ft m | None => mret (VS SNil) end.

(** jsonpath.Get *)
Definition heap_get (path : string) (input : val) : M (option (gval val)) :=
  h <-- mheap ;; mret (jget W (view h) path input).

(** instance.go 503-531 *)
Definition scal_json (path jt : string) (dflt : val) (ts : option tis) (input : val) (m : modifier)
  : M val :=
  v <-- run_opt_tis ts input jt m ;;
  if negb (vnil v) then mret v else
  raw <-- heap_get (apply_mod m path) input ;;
  match raw with
  | None => mret dflt
  | Some g =>
    h <-- mheap ;;
    match convert W (view h) jt g with
    | None => mpanic
    | Some (nv, e) =>
      if is_nil (view h) nv then mret dflt else
      if e then mfail else inject nv
    end
  end.
(** instance.go 538-557 *)
Definition scal_xml (jt : string) (dflt : val) (ts : option tis) (input : val) (m : modifier) : M val :=
  v <-- run_opt_tis ts input jt m ;;
  if negb (vnil v) then mret v else mret dflt.

(** rawValue.([]interface{}) or []interface{}{rawValue} (instance.go 90-94, 101-104, 134-137) *)
Definition as_slice (v : val) : M slice :=
  match v with
  | VArr l n => mret (l, n)
  | _ => l <-- alloc (CArr [v]) ;; mret (Some l, 1)
  end.

(** instance.go 82-113 *)
Definition base_json (path : string) (dflt : option slice) (ts : option tis) (input : val) (m : modifier)
  : M (slice * bool) :=
  v <-- run_opt_tis ts input "array" m ;;
  if negb (vnil v) then s <-- as_slice v ;; mret (s, true) else
  raw <-- heap_get path input ;;
  h <-- mheap ;;
  match raw with
  | Some g =>
    if negb (is_nil (view h) g) then
      v <-- inject g ;; s <-- as_slice v ;; mret (s, false)
    else mret (default (None, 0) dflt, bool_decide (is_Some dflt))
  | None => mret (default (None, 0) dflt, bool_decide (is_Some dflt))
  end.
(** instance.go 115-147 *)
Definition base_xml (dflt : option slice) (ts : option tis) (input : val) (m : modifier)
  : M (slice * bool) :=
  v <-- run_opt_tis ts input "array" m ;;
  match v with
  | VNodes l => a <-- alloc (CArr (VNode <$> l)) ;; mret ((Some a, length l), false)
  | VS SNil => mret (default (None, 0) dflt, bool_decide (is_Some dflt))
  | _ => s <-- as_slice v ;; mret (s, true)
  end.

(** the item loops, instance.go 198-208 and 235-247: items [i], [i+1], ..., [i+k-1] *)
Fixpoint items (k i : nat) (item : nat -> M val) : M (list val) :=
  match k with
  | O => mret []
  | S k' =>
    v <-- item i ;;
    vs <-- items k' (S i) item ;;
    mret (if vnil v then vs else v :: vs)
  end.
(** instance.go 196, 210-213: make([]interface{}, 0, n), filled with the collected items *)
Definition new_array (n : nat) (vs : list val) : M val :=
  match vs with
  | [] => mret (VS SNil)
  | _ =>
    l <-- alloc (CArr (vs ++ replicate (n - length vs) (VS SNil))) ;;
    mret (VArr (Some l) (length vs))
  end.

Definition idx_str (i : nat) : string := "[" +:+ itoa (Z.of_nat i) +:+ "]".

(** instance.go 166-214 *)
Definition arr_json (path0 : string) (dflt : option slice) (ts : option tis)
    (child : option (val -> modifier -> M val)) (input : val) (m : modifier) : M val :=
  let path := apply_mod m path0 in
  sc <-- base_json path dflt ts input m ;;
  let '(base, changed) := sc in
  input' <-- (if changed : bool then
                if decide (path = "$") then mret (slice_val base) else
                match input with
                | VMap l => save_in_tree l path (slice_val base) ;;; mret input
                | _ => mfail
                end
              else mret input) ;;
  match child with
  | None => mret (slice_val base)
  | Some ex =>
    vs <-- items base.2 0 (fun i =>
      ex input' (path_replace (path +:+ "[*]") (path +:+ idx_str i) m)) ;;
    new_array base.2 vs
  end.
(** instance.go 218-253 *)
Definition arr_xml (path0 : string) (dflt : option slice) (ts : option tis)
    (child : option (val -> modifier -> M val)) (input : val) (m : modifier) : M val :=
  let path := apply_mod m path0 in
  sc <-- base_xml dflt ts input m ;;
  let base := sc.1 in
  match child with
  | None => mret (slice_val base)
  | Some ex =>
    vs <-- items base.2 0 (fun i =>
      v <-- slice_get base i ;;
      match v with
      | VNode _ => ex v (path_replace (path +:+ "[*]") (path +:+ idx_str i) m)
      | _ => mret v
      end) ;;
    new_array base.2 vs
  end.

(** the child loop, instance.go 351-361 and 421-431 *)
Fixpoint save_children (opath : string) (l : loc) (acts : list (string * (val -> modifier -> M val)))
    (input : val) (m : modifier) : M unit :=
  match acts with
  | [] => mret tt
  | (cpath, ex) :: acts' =>
    cv <-- ex input m ;;
    save_in_tree l (replace1 cpath opath "$") cv ;;;
    save_children opath l acts' input m
  end.
(** for _, child := range ot.children *)
Definition shuffle {A} (acts : list A) : M (list A) := fun s =>
  (St (hp s) (nxt s) (froms s) (S (tick s)), Ok (omap (fun i => acts !! i) (perm (tick s) (length acts)))).
(** instance.go 363-367 *)
Definition finish_obj (l : loc) : M val :=
  h <-- mheap ;; if decide (hmap h l = ∅) then mret (VS SNil) else mret (VMap l).

(** instance.go 321-368 *)
Definition obj_json (path0 : string) (dflt : option loc) (ts : option tis)
    (acts : list (string * (val -> modifier -> M val))) (input : val) (m : modifier) : M val :=
  v <-- run_opt_tis ts input "object" m ;;
  l <-- (match v with
         | VS SNil => match dflt with Some d => mret d | None => alloc (CMap ∅) end
         | VMap l => mret l
         | _ => mfail
         end) ;;
  acts' <-- shuffle acts ;;
  save_children path0 l acts' input m ;;;
  finish_obj l.
(** instance.go 373-438 *)
Definition obj_xml (path0 : string) (dflt : option loc) (ts : option tis)
    (acts : list (string * (val -> modifier -> M val))) (input : val) (m : modifier) : M val :=
  let run (input : val) : M val :=
    l <-- (match dflt with Some d => mret d | None => alloc (CMap ∅) end) ;;
    acts' <-- shuffle acts ;;
    save_children path0 l acts' input m ;;;
    finish_obj l in
  match ts with
  | None => run input
  | Some t =>
    v <-- run_tis t input "object" m ;;
    match v with
    | VS SNil => match dflt with Some d => mret (VMap d) | None => mret (VS SNil) end
    | VS (SStr "") => mret (VS SNil)
    | VNode n => run (VNode n)
    | VNodes l => run (match l with n :: _ => VNode n | [] => input end)
    | _ => mfail
    end
  end.

(** instanceTransformer.transform: instance.go 256-264, 441-449, 560-568 *)
Fixpoint exec (i : itr) (input : val) (m : modifier) : M val :=
  match i with
  | IScal p jt d ts =>
    match f with FJson => scal_json p jt d ts input m | FXml => scal_xml jt d ts input m end
  | IObj p d ts cs =>
    let acts := List.map (fun kc => match kc with (_, c) => (it_path c, exec c) end) cs in
    match f with FJson => obj_json p d ts acts input m | FXml => obj_xml p d ts acts input m end
  | IArr p d ts c =>
    let ch := match c with Some c' => Some (exec c') | None => None end in
    match f with FJson => arr_json p d ts ch input m | FXml => arr_xml p d ts ch input m end
  end.

(** encoding/json: json.Unmarshal into interface{} builds a fresh value without sharing.
    (Simplification: documents have distinct member names; for duplicates the model keeps the first
    member, Go the last.) *)
Fixpoint load (t : tree) : M val :=
  match t with
  | TS s => mret (VS s)
  | TNode n => mret (VNode n)
  | TNodes l => mret (VNodes l)
  | TArr l =>
    vs <-- (fix go (l : list tree) : M (list val) :=
              match l with
              | [] => mret []
              | t :: l' => v <-- load t ;; vs <-- go l' ;; mret (v :: vs)
              end) l ;;
    a <-- alloc (CArr vs) ;; mret (VArr (Some a) (length vs))
  | TObj kvs =>
    m <-- (fix go (l : list (string * tree)) : M (gmap string val) :=
             match l with
             | [] => mret ∅
             | (k, t) :: l' => v <-- load t ;; m <-- go l' ;; mret (<[k := v]> m)
             end) kvs ;;
    a <-- alloc (CMap m) ;; mret (VMap a)
  end.

(** The value as a document: None = deeper than [fuel]. json.Marshal lists the members in an order that
    depends on the set of names only (it sorts them); the model uses the order of [elements]. *)
Fixpoint reify (fuel : nat) (h : heap) (v : val) : option tree :=
  match fuel with
  | O => None
  | S n =>
    match v with
    | VS s => Some (TS s)
    | VNode k => Some (TNode k)
    | VNodes l => Some (TNodes l)
    | VArr None _ => Some (TS SNil)                 (* json.Marshal prints null for a nil slice *)
    | VArr (Some l) k => TArr <$> mapM (reify n h) (take k (harr h (Some l)))
    | VMap l =>
      let m := hmap h l in
      TObj <$> mapM (fun k => v ← m !! k; pair k <$> reify n h v) (elements (dom m))
    end
  end.
(** what json.Marshal accepts: no NaN or infinity; the year of a time must be in [0, 9999] *)
Definition scal_ok (s : scal) : bool :=
  match s with
  | SF (SpecFloat.S754_nan) | SF (SpecFloat.S754_infinity _) => false
  | STime t => (-62167219200 <=? t_sec t + t_off t)%Z && (t_sec t + t_off t <? 253402300800)%Z
  | _ => true
  end.
Fixpoint tree_ok (t : tree) : bool :=
  match t with
  | TS s => scal_ok s
  | TArr l => forallb tree_ok l
  | TObj kvs => forallb (fun kv => match kv with (_, t) => tree_ok t end) kvs
  | TNode _ | TNodes _ => false
  end.
(** json.Marshal. Cyclic values, XML nodes (whose parent pointers are cyclic), NaN, infinities and
    far away times are errors. *)
Definition marshal (v : val) : M tree := fun s =>
  (s, match reify (o_stack W) (hp s) v with
      | Some t => if tree_ok t then Ok t else Err
      | None => Err
      end).

(** transformer.go 129-146 baseJSONTransform after json.Unmarshal has parsed the text to [doc];
    the text json.Marshal prints is identified with the document it denotes *)
Definition base_json_transform (root : itr) (doc : tree) : M tree :=
  input <-- load doc ;;
  out <-- exec root input [] ;;
  marshal out.
(** transformer.go 165-182 baseXMLTransform; [doc] is the root node xmlquery.Parse returns *)
Definition base_xml_transform (root : itr) (doc : nat) : M tree :=
  out <-- exec root (VNode doc) [] ;;
  marshal out.
End heap.

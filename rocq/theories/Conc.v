(** The calls of a Transformer as programs whose accesses to memory can be interleaved with those of other
    goroutines. The definitions follow Heap.v and Api.v line by line; ConcL.v proves that a program run
    without interruption is the computation of Heap.v. *)
From stdpp Require Import strings list gmap.
From Coq Require Import Ascii ZArith.
From Verif Require Import GoStr Val Conv Instr Heap Api.

(** A program: its next access to memory and what it does with the outcome. Simplifications: a write stores
    a whole map or backing array; a read sees the whole heap at one moment. Libraries (json.Unmarshal,
    xmlquery, jsonpath, gojsonschema) touch no memory of other goroutines. *)
Inductive prog (A : Type) : Type :=
| PRet (r : res A)                                   (* the end *)
| PAlloc (c : cell) (k : loc -> prog A)              (* make a map or a backing array *)
| PWrite (l : loc) (c : cell) (k : prog A)
| PHeap (k : heap -> prog A)                         (* read *)
| PFrom (id : nat) (k : list instr -> prog A)        (* read tis.From *)
| PSet (id : nat) (fr : list instr) (k : prog A)     (* tis.From = fr *)
| PIter (n : nat) (k : list nat -> prog A).          (* the runtime picks an order for ranging over a map *)
Arguments PRet {A}. Arguments PAlloc {A}. Arguments PWrite {A}. Arguments PHeap {A}. Arguments PFrom {A}.
Arguments PSet {A}. Arguments PIter {A}.

Fixpoint pbind {A B} (p : prog A) (k : A -> prog B) : prog B :=
  match p with
  | PRet (Ok a) => k a
  | PRet Err => PRet Err
  | PRet Panic => PRet Panic
  | PAlloc c q => PAlloc c (fun l => pbind (q l) k)
  | PWrite l c q => PWrite l c (pbind q k)
  | PHeap q => PHeap (fun h => pbind (q h) k)
  | PFrom i q => PFrom i (fun fr => pbind (q fr) k)
  | PSet i fr q => PSet i fr (pbind q k)
  | PIter n q => PIter n (fun o => pbind (q o) k)
  end.
Fixpoint ptry {A} (p : prog A) : prog (option A) :=
  match p with
  | PRet (Ok a) => PRet (Ok (Some a))
  | PRet Err => PRet (Ok None)
  | PRet Panic => PRet Panic
  | PAlloc c q => PAlloc c (fun l => ptry (q l))
  | PWrite l c q => PWrite l c (ptry q)
  | PHeap q => PHeap (fun h => ptry (q h))
  | PFrom i q => PFrom i (fun fr => ptry (q fr))
  | PSet i fr q => PSet i fr (ptry q)
  | PIter n q => PIter n (fun o => ptry (q o))
  end.
Definition pret {A} (a : A) : prog A := PRet (Ok a).
Definition pfail {A} : prog A := PRet Err.
Definition ppanic {A} : prog A := PRet Panic.
Definition plift {A} (r : res A) : prog A := PRet r.
Definition pheap : prog heap := PHeap pret.
Definition palloc (c : cell) : prog loc := PAlloc c pret.
Definition pwrite (l : loc) (c : cell) : prog unit := PWrite l c (pret tt).
Notation "x <~~ c ;; k" := (pbind c (fun x => k)) (at level 100, c at next level, right associativity).
Notation "c1 ;~; c2" := (pbind c1 (fun _ => c2)) (at level 100, right associativity).

(** m[k] = v *)
Definition pmap_set (l : loc) (k : string) (v : val) : prog unit :=
  h <~~ pheap ;; pwrite l (CMap (<[k := v]> (hmap h l))).

Section conc.
Context (W : oracles).

(** append(s, v) for one element *)
Definition pappend1 (s : slice) (v : val) : prog slice :=
  h <~~ pheap ;;
  let b := harr h s.1 in
  match s.1 with
  | Some l =>
    if decide (s.2 < length b) then
      pwrite l (CArr (<[s.2 := v]> b)) ;~; pret (Some l, S s.2)
    else
      l' <~~ palloc (CArr (take s.2 b ++ [v] ++ replicate (o_grow W (S s.2) - S s.2) (VS SNil))) ;;
      pret (Some l', S s.2)
  | None =>
    l' <~~ palloc (CArr ([v] ++ replicate (o_grow W 1 - 1) (VS SNil))) ;; pret (Some l', 1)
  end.
(** transformer.go 327-330 *)
Fixpoint pappend_nils (k : nat) (s : slice) : prog slice :=
  match k with
  | O => pret s
  | S k' => s' <~~ pappend1 s (VS SNil) ;; pappend_nils k' s'
  end.
(** current[i] = v, with i within the length *)
Definition pslice_set (s : slice) (i : nat) (v : val) : prog unit :=
  h <~~ pheap ;;
  match s.1 with
  | Some l => if decide (i < s.2) then pwrite l (CArr (<[i := v]> (harr h (Some l)))) else ppanic
  | None => ppanic
  end.
Definition pslice_get (s : slice) (i : nat) : prog val :=
  h <~~ pheap ;;
  match take s.2 (harr h s.1) !! i with Some v => pret v | None => ppanic end.
(** transformer.go 334-343 *)
Definition pmerge_old (value old : val) : prog unit :=
  match value, old with
  | VMap ln, VMap lo =>
    h <~~ pheap ;; pwrite ln (CMap (hmap h ln ∪ hmap h lo))
  | _, _ => pret tt
  end.
(** transformer.go 317-357 *)
Fixpoint psave_in_slice (current : slice) (splits : list string) (value : val) : prog slice :=
  match splits with
  | [] => ppanic
  | s :: rest =>
    match atoi (trim "]" s) with
    | None => pfail
    | Some index =>
      cur <~~ (match current.1 with
               | Some _ => pret current
               | None =>
                 if (index <? 0)%Z then ppanic else
                 l <~~ palloc (CArr (replicate (Z.to_nat index) (VS SNil))) ;; pret (Some l, 0)
               end) ;;
      cur <~~ pappend_nils (Z.to_nat (index + 1 - Z.of_nat cur.2)) cur ;;
      if (index <? 0)%Z then ppanic else
      let i := Z.to_nat index in
      match rest with
      | [] =>
        old <~~ pslice_get cur i ;;
        pmerge_old value old ;~;
        pslice_set cur i value ;~;
        pret cur
      | _ =>
        old <~~ pslice_get cur i ;;
        let nested := match old with VArr l n => (l, n) | _ => (None, 0) end in
        nv <~~ ptry (psave_in_slice nested rest value) ;;
        pslice_set cur i (match nv with Some s' => slice_val s' | None => VArr None 0 end) ;~;
        pret cur
      end
    end
  end.
(** transformer.go 265-268 and 304-307 *)
Definition pget_slice (tree : loc) (k : string) : prog slice :=
  h <~~ pheap ;;
  match hmap h tree !! k with
  | None => pret (None, 0)
  | Some (VArr l n) => pret (l, n)
  | Some _ => ppanic
  end.
(** transformer.go 297-315 *)
Definition psave_leaf (tree : loc) (path : string) (value : val) : prog unit :=
  match split path "[" with
  | [_] => pmap_set tree path value
  | a :: rest =>
    sv <~~ pget_slice tree a ;;
    nv <~~ psave_in_slice sv rest value ;;
    pmap_set tree a (slice_val nv)
  | [] => ppanic
  end.
(** transformer.go 248-292 *)
Fixpoint psave_splits (stripped : bool) (tree : loc) (splits : list string) (value : val) : prog unit :=
  match splits with
  | [] => ppanic
  | s :: rest =>
    if negb stripped && bool_decide (s = "$") then
      match rest with
      | [] => ppanic
      | _ => psave_splits true tree rest value
      end
    else
    match rest with
    | [] => psave_leaf tree s value
    | _ =>
      match split s "[" with
      | [_] =>
        h <~~ pheap ;;
        nt <~~ (match hmap h tree !! s with
                | None | Some (VS SNil) => palloc (CMap ∅)
                | Some (VMap l) => pret l
                | Some _ => pfail
                end) ;;
        pmap_set tree s (VMap nt) ;~;
        psave_splits false nt rest value
      | a :: asp =>
        sv <~~ pget_slice tree a ;;
        nt <~~ palloc (CMap ∅) ;;
        nv <~~ psave_in_slice sv asp (VMap nt) ;;
        pmap_set tree a (slice_val nv) ;~;
        psave_splits false nt rest value
      | [] => ppanic
      end
    end
  end.
Definition psave_in_tree (tree : loc) (path : string) (value : val) : prog unit :=
  if vnil value then pret tt else psave_splits false tree (split path ".") value.

(** allocation of the value an instruction computed *)
Fixpoint pinject (g : gval val) : prog val :=
  match g with
  | GV v => pret v
  | GS s => pret (VS s)
  | GN l => pret (VNodes l)
  | GL l =>
    vs <~~ (fix go (l : list (gval val)) : prog (list val) :=
              match l with
              | [] => pret []
              | g :: l' => v <~~ pinject g ;; vs <~~ go l' ;; pret (v :: vs)
              end) l ;;
    a <~~ palloc (CArr vs) ;; pret (VArr (Some a) (length vs))
  end.

Context (f : fmt).

(** transform.go 258-293: tis.From is read, replaced and read again for the loop. (The methods other than last
    leave tis.From alone; here they store what they have read. [tis_run] does the reversing itself, so it
    is given the list as it was before.) *)
Definition prun_tis (t : tis) (input : val) (ft : string) (m : modifier) : prog val :=
  let turned from := match ti_meth t with MLast => rev from | _ => from end in
  PFrom (ti_id t) (fun from =>
  PSet (ti_id t) (turned from)
  (PFrom (ti_id t) (fun now =>
   PHeap (fun h =>
   match (tis_run W (view h) f t (turned now) input ft m).1 with
   | Ok g => pinject g
   | Err => pfail
   | Panic => ppanic
   end)))).
Definition prun_opt_tis (ts : option tis) (input : val) (ft : string) (m : modifier) : prog val :=
  match ts with Some t => prun_tis t input ft m | None => pret (VS SNil) end.
(** jsonpath.Get *)
Definition pheap_get (path : string) (input : val) : prog (option (gval val)) :=
  h <~~ pheap ;; pret (jget W (view h) path input).
(** instance.go 503-531 *)
Definition pscal_json (path jt : string) (dflt : val) (ts : option tis) (input : val) (m : modifier)
  : prog val :=
  v <~~ prun_opt_tis ts input jt m ;;
  if negb (vnil v) then pret v else
  raw <~~ pheap_get (apply_mod m path) input ;;
  match raw with
  | None => pret dflt
  | Some g =>
    h <~~ pheap ;;
    match convert W (view h) jt g with
    | None => ppanic
    | Some (nv, e) =>
      if is_nil (view h) nv then pret dflt else
      if e then pfail else pinject nv
    end
  end.
(** instance.go 538-557 *)
Definition pscal_xml (jt : string) (dflt : val) (ts : option tis) (input : val) (m : modifier) : prog val :=
  v <~~ prun_opt_tis ts input jt m ;;
  if negb (vnil v) then pret v else pret dflt.
(** instance.go 90-94, 101-104, 134-137 *)
Definition pas_slice (v : val) : prog slice :=
  match v with
  | VArr l n => pret (l, n)
  | _ => l <~~ palloc (CArr [v]) ;; pret (Some l, 1)
  end.
(** instance.go 82-113 *)
Definition pbase_json (path : string) (dflt : option slice) (ts : option tis) (input : val) (m : modifier)
  : prog (slice * bool) :=
  v <~~ prun_opt_tis ts input "array" m ;;
  if negb (vnil v) then s <~~ pas_slice v ;; pret (s, true) else
  raw <~~ pheap_get path input ;;
  h <~~ pheap ;;
  match raw with
  | Some g =>
    if negb (is_nil (view h) g) then
      v <~~ pinject g ;; s <~~ pas_slice v ;; pret (s, false)
    else pret (default (None, 0) dflt, bool_decide (is_Some dflt))
  | None => pret (default (None, 0) dflt, bool_decide (is_Some dflt))
  end.
(** instance.go 115-147 *)
Definition pbase_xml (dflt : option slice) (ts : option tis) (input : val) (m : modifier)
  : prog (slice * bool) :=
  v <~~ prun_opt_tis ts input "array" m ;;
  match v with
  | VNodes l => a <~~ palloc (CArr (VNode <$> l)) ;; pret ((Some a, length l), false)
  | VS SNil => pret (default (None, 0) dflt, bool_decide (is_Some dflt))
  | _ => s <~~ pas_slice v ;; pret (s, true)
  end.
(** instance.go 198-208 and 235-247 *)
Fixpoint pitems (k i : nat) (item : nat -> prog val) : prog (list val) :=
  match k with
  | O => pret []
  | S k' =>
    v <~~ item i ;;
    vs <~~ pitems k' (S i) item ;;
    pret (if vnil v then vs else v :: vs)
  end.
(** instance.go 196, 210-213 *)
Definition pnew_array (n : nat) (vs : list val) : prog val :=
  match vs with
  | [] => pret (VS SNil)
  | _ =>
    l <~~ palloc (CArr (vs ++ replicate (n - length vs) (VS SNil))) ;;
    pret (VArr (Some l) (length vs))
  end.
(** instance.go 166-214 *)
Definition parr_json (path0 : string) (dflt : option slice) (ts : option tis)
    (child : option (val -> modifier -> prog val)) (input : val) (m : modifier) : prog val :=
  let path := apply_mod m path0 in
  sc <~~ pbase_json path dflt ts input m ;;
  let '(base, changed) := sc in
  input' <~~ (if changed : bool then
                if decide (path = "$") then pret (slice_val base) else
                match input with
                | VMap l => psave_in_tree l path (slice_val base) ;~; pret input
                | _ => pfail
                end
              else pret input) ;;
  match child with
  | None => pret (slice_val base)
  | Some ex =>
    vs <~~ pitems base.2 0 (fun i =>
      ex input' (path_replace (path +:+ "[*]") (path +:+ idx_str i) m)) ;;
    pnew_array base.2 vs
  end.
(** instance.go 218-253 *)
Definition parr_xml (path0 : string) (dflt : option slice) (ts : option tis)
    (child : option (val -> modifier -> prog val)) (input : val) (m : modifier) : prog val :=
  let path := apply_mod m path0 in
  sc <~~ pbase_xml dflt ts input m ;;
  let base := sc.1 in
  match child with
  | None => pret (slice_val base)
  | Some ex =>
    vs <~~ pitems base.2 0 (fun i =>
      v <~~ pslice_get base i ;;
      match v with
      | VNode _ => ex v (path_replace (path +:+ "[*]") (path +:+ idx_str i) m)
      | _ => pret v
      end) ;;
    pnew_array base.2 vs
  end.
(** instance.go 351-361 and 421-431 *)
Fixpoint psave_children (opath : string) (l : loc) (acts : list (string * (val -> modifier -> prog val)))
    (input : val) (m : modifier) : prog unit :=
  match acts with
  | [] => pret tt
  | (cpath, ex) :: acts' =>
    cv <~~ ex input m ;;
    psave_in_tree l (replace1 cpath opath "$") cv ;~;
    psave_children opath l acts' input m
  end.
(** for _, child := range ot.children *)
Definition pshuffle {A} (acts : list A) : prog (list A) :=
  PIter (length acts) (fun o => pret (omap (fun i => acts !! i) o)).
(** instance.go 363-367 *)
Definition pfinish_obj (l : loc) : prog val :=
  h <~~ pheap ;; if decide (hmap h l = ∅) then pret (VS SNil) else pret (VMap l).
(** instance.go 321-368 *)
Definition pobj_json (path0 : string) (dflt : option loc) (ts : option tis)
    (acts : list (string * (val -> modifier -> prog val))) (input : val) (m : modifier) : prog val :=
  v <~~ prun_opt_tis ts input "object" m ;;
  l <~~ (match v with
         | VS SNil => match dflt with Some d => pret d | None => palloc (CMap ∅) end
         | VMap l => pret l
         | _ => pfail
         end) ;;
  acts' <~~ pshuffle acts ;;
  psave_children path0 l acts' input m ;~;
  pfinish_obj l.
(** instance.go 373-438 *)
Definition pobj_xml (path0 : string) (dflt : option loc) (ts : option tis)
    (acts : list (string * (val -> modifier -> prog val))) (input : val) (m : modifier) : prog val :=
  let run (input : val) : prog val :=
    l <~~ (match dflt with Some d => pret d | None => palloc (CMap ∅) end) ;;
    acts' <~~ pshuffle acts ;;
    psave_children path0 l acts' input m ;~;
    pfinish_obj l in
  match ts with
  | None => run input
  | Some t =>
    v <~~ prun_tis t input "object" m ;;
    match v with
    | VS SNil => match dflt with Some d => pret (VMap d) | None => pret (VS SNil) end
    | VS (SStr "") => pret (VS SNil)
    | VNode n => run (VNode n)
    | VNodes l => run (match l with n :: _ => VNode n | [] => input end)
    | _ => pfail
    end
  end.
(** instance.go 256-264, 441-449, 560-568 *)
Fixpoint pexec (i : itr) (input : val) (m : modifier) : prog val :=
  match i with
  | IScal p jt d ts =>
    match f with FJson => pscal_json p jt d ts input m | FXml => pscal_xml jt d ts input m end
  | IObj p d ts cs =>
    let acts := List.map (fun kc => match kc with (_, c) => (it_path c, pexec c) end) cs in
    match f with FJson => pobj_json p d ts acts input m | FXml => pobj_xml p d ts acts input m end
  | IArr p d ts c =>
    let ch := match c with Some c' => Some (pexec c') | None => None end in
    match f with FJson => parr_json p d ts ch input m | FXml => parr_xml p d ts ch input m end
  end.
(** json.Unmarshal into interface{} *)
Fixpoint pload (t : tree) : prog val :=
  match t with
  | TS s => pret (VS s)
  | TNode n => pret (VNode n)
  | TNodes l => pret (VNodes l)
  | TArr l =>
    vs <~~ (fix go (l : list tree) : prog (list val) :=
              match l with
              | [] => pret []
              | t :: l' => v <~~ pload t ;; vs <~~ go l' ;; pret (v :: vs)
              end) l ;;
    a <~~ palloc (CArr vs) ;; pret (VArr (Some a) (length vs))
  | TObj kvs =>
    m <~~ (fix go (l : list (string * tree)) : prog (gmap string val) :=
             match l with
             | [] => pret ∅
             | (k, t) :: l' => v <~~ pload t ;; m <~~ go l' ;; pret (<[k := v]> m)
             end) kvs ;;
    a <~~ palloc (CMap m) ;; pret (VMap a)
  end.
(** json.Marshal *)
Definition pmarshal (v : val) : prog tree :=
  h <~~ pheap ;;
  match reify (o_stack W) h v with
  | Some t => if tree_ok t then pret t else pfail
  | None => pfail
  end.
End conc.

Section calls.
Context (W : oracles) (E : env).
(** transformer.go 129-146, 165-182 *)
Definition pbase (f : fmt) (root : itr) (raw : string) : prog tree :=
  match f with
  | FJson =>
    match e_json E raw with
    | None => pfail
    | Some doc => input <~~ pload doc ;; out <~~ pexec W FJson root input [] ;; pmarshal W out
    end
  | FXml =>
    match e_xml E raw with
    | None => pfail
    | Some n => out <~~ pexec W FXml root (VNode n) [] ;; pmarshal W out
    end
  end.
(** transformer.go 89-97, 112-127, 148-163 *)
Definition ptransform (f : fmt) (root : itr) (raw : string) : prog tree :=
  doc <~~ pbase f root raw ;;
  valid <~~ plift (validate E doc) ;;
  if valid : bool then pret doc else pfail.
End calls.

(** ** Goroutines *)
(** one access of a program *)
Inductive access {A} : st -> prog A -> st -> prog A -> Prop :=
| access_alloc s c k : access s (PAlloc c k) (St (<[nxt s := c]> (hp s)) (S (nxt s)) (froms s) (tick s)) (k (nxt s))
| access_write s l c k : access s (PWrite l c k) (St (<[l := c]> (hp s)) (nxt s) (froms s) (tick s)) k
| access_heap s k : access s (PHeap k) s (k (hp s))
| access_from s id k : access s (PFrom id k) s (k (default [] (froms s !! id)))
| access_set s id fr k : access s (PSet id fr k) (St (hp s) (nxt s) (<[id := fr]> (froms s)) (tick s)) k
| access_iter s n k o : o ≡ₚ List.seq 0 n -> access s (PIter n k) (St (hp s) (nxt s) (froms s) (S (tick s))) (k o).
(** any goroutine may make the next access *)
Inductive turn {A} : st * list (prog A) -> st * list (prog A) -> Prop :=
| turn_of s ps j p s' p' : ps !! j = Some p -> access s p s' p' -> turn (s, ps) (s', <[j := p']> ps).

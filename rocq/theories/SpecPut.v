(** Saving a value at a path of a document, and what it means that a value in memory is such a document (C15). *)
From stdpp Require Import strings list gmap.
From Coq Require Import ZArith.
From Verif Require Import GoStr Val Conv Instr Heap SpecPath.

(** ** documents *)
Fixpoint member (k : string) (kvs : list (string * tree)) : option tree :=
  match kvs with [] => None | (k', t) :: kvs' => if decide (k' = k) then Some t else member k kvs' end.
Fixpoint set_member (k : string) (t : tree) (kvs : list (string * tree)) : list (string * tree) :=
  match kvs with [] => [(k, t)] | (k', t') :: kvs' => if decide (k' = k) then (k, t) :: kvs' else (k', t') :: set_member k t kvs' end.
(** the members [kvs], and those of [old] that have other names *)
Definition merged (kvs old : list (string * tree)) : list (string * tree) := kvs ++ filter (fun kt => member kt.1 kvs = None) old.
Definition null : tree := TS SNil.
(** an array with the item [i] *)
Definition padded (i : nat) (ts : list tree) : list tree := ts ++ replicate (S i - length ts) null.
Definition items_of (t : tree) : list tree := match t with TArr ts => ts | _ => [] end.
(** the item at indices of an array of arrays, null if there is none; replacing it *)
Fixpoint item_at (i : nat) (is : list nat) (ts : list tree) : tree :=
  match is with [] => default null (ts !! i) | j :: is' => item_at j is' (items_of (default null (ts !! i))) end.
Fixpoint set_item (i : nat) (is : list nat) (ts : list tree) (t : tree) : list tree :=
  <[i := match is with [] => t | j :: is' => TArr (set_item j is' (items_of (default null (ts !! i))) t) end]> (padded i ts).

(** ** saving at a path *)
(** a step of a path: a member, and indices of the array it holds *)
Definition step : Type := string * list nat.
Definition steps_path (ρ : list step) : list seg := List.concat (map (fun s : step => Nm s.1 :: map Ix s.2) ρ).
(** names free of the characters that mean something in a path, indices that are Go ints; only the first name may be `$` *)
Definition plain_step (t : step) : Prop := plain_name t.1 /\ Forall (fun i => (Z.of_nat i < 2 ^ 63)%Z) t.2.
Definition plain_steps (ρ : list step) : Prop := ρ <> [] /\ Forall plain_step ρ /\ Forall (fun t : step => t.1 <> "$") (tail ρ).
Inductive outcome := Done (t : tree) | Fails | Crashes.
Definition then_ (o : outcome) (f : tree -> tree) : outcome := match o with Done t => Done (f t) | x => x end.
(** a value saved over an item: objects are merged *)
Definition over (v old : tree) : tree := match v, old with TObj kvs, TObj o => TObj (merged kvs o) | _, _ => v end.
Definition members_of (t : tree) : list (string * tree) := match t with TObj kvs => kvs | _ => [] end.
Fixpoint put (kvs : list (string * tree)) (ρ : list step) (v : tree) : outcome :=
  match ρ with
  | [] => Crashes
  | (k, []) :: ρ' =>
    match ρ' with
    | [] => Done (TObj (set_member k v kvs))
    | _ =>
      match member k kvs with
      | None | Some (TS SNil) => then_ (put [] ρ' v) (fun t => TObj (set_member k t kvs))
      | Some (TObj o) => then_ (put o ρ' v) (fun t => TObj (set_member k t kvs))
      | Some _ => Fails
      end
    end
  | (k, i :: is) :: ρ' =>
    let at_ ts :=
      then_ (match ρ' with [] => Done (over v (item_at i is ts)) | _ => put (members_of (item_at i is ts)) ρ' v end)
        (fun t => TObj (set_member k (TArr (set_item i is ts t)) kvs)) in
    match member k kvs with
    | None => at_ []
    | Some (TArr ts) => at_ ts
    | Some _ => Crashes
    end
  end.
(** reading at a path *)
Fixpoint get (t : tree) (ρ : list seg) : option tree :=
  match ρ with
  | [] => Some t
  | Nm k :: ρ' => match t with TObj kvs => match member k kvs with Some t' => get t' ρ' | None => None end | _ => None end
  | Ix i :: ρ' => match t with TArr ts => match ts !! i with Some t' => get t' ρ' | None => None end | _ => None end
  | Star :: _ => None
  end.
(** the paths part at two members or at two items *)
Definition part_at (ρ τ : list seg) : Prop :=
  exists π a b ρ' τ', ρ = π ++ a :: ρ' /\ τ = π ++ b :: τ' /\
    ((exists j k, a = Nm j /\ b = Nm k /\ j <> k) \/ (exists i j, a = Ix i /\ b = Ix j /\ i <> j)).
(** a member [k] on the path holds a value [w] that [P] says stops the rest of the path: no object where a member
    is wanted, no array where an item is wanted *)
Definition stopped (P : list nat -> list step -> tree -> Prop) (kvs : list (string * tree)) (ρ : list step) : Prop :=
  exists ρ1 k is ρ2 w, ρ = ρ1 ++ (k, is) :: ρ2 /\ get (TObj kvs) (steps_path ρ1 ++ [Nm k]) = Some w /\ P is ρ2 w.
Definition no_object (is : list nat) (ρ : list step) (w : tree) : Prop := is = [] /\ ρ <> [] /\ w <> null /\ forall o, w <> TObj o.
Definition no_array (is : list nat) (ρ : list step) (w : tree) : Prop := is <> [] /\ forall ts, w <> TArr ts.

(** ** values in memory *)
(** [owns h v t F]: in the heap [h] the value [v] is the document [t], kept in the cells [F], without sharing *)
Inductive owns (h : gmap nat cell) : val -> tree -> gset nat -> Prop :=
| owns_s s : owns h (VS s) (TS s) ∅
| owns_node n : owns h (VNode n) (TNode n) ∅
| owns_nodes l : owns h (VNodes l) (TNodes l) ∅
| owns_none : owns h (VArr None 0) (TArr []) ∅
| owns_map l m kvs F : h !! l = Some (CMap m) -> owns_members h m kvs F -> l ∉ F -> owns h (VMap l) (TObj kvs) ({[l]} ∪ F)
| owns_arr a n b ts F : h !! a = Some (CArr b) -> n <= length b -> owns_items h (take n b) ts F -> a ∉ F -> owns h (VArr (Some a) n) (TArr ts) ({[a]} ∪ F)
with owns_members (h : gmap nat cell) : gmap string val -> list (string * tree) -> gset nat -> Prop :=
| members_nil : owns_members h ∅ [] ∅
| members_cons m k v t kvs F F' : m !! k = None -> owns h v t F -> owns_members h m kvs F' -> F ## F' ->
    owns_members h (<[k := v]> m) ((k, t) :: kvs) (F ∪ F')
with owns_items (h : gmap nat cell) : list val -> list tree -> gset nat -> Prop :=
| items_nil : owns_items h [] [] ∅
| items_cons v vs t ts F F' : owns h v t F -> owns_items h vs ts F' -> F ## F' -> owns_items h (v :: vs) (t :: ts) (F ∪ F').

(** Vocabulary for saving a value at a path of a tree of maps (C15). *)
From stdpp Require Import strings list gmap.
From Coq Require Import ZArith.
From Verif Require Import GoStr Val Conv Instr Heap SpecPath.

(** the value found from the map at [l] by following member names *)
Fixpoint at_names (h : gmap nat cell) (l : nat) (ks : list string) : option val :=
  match ks with
  | [] => Some (VMap l)
  | k :: ks' =>
    match hmap h l !! k with
    | Some (VMap l') => at_names h l' ks'
    | Some v => match ks' with [] => Some v | _ => None end
    | None => None
    end
  end.
(** the maps met on the way *)
Fixpoint visited (h : gmap nat cell) (l : nat) (ks : list string) : list nat :=
  match ks with
  | [] => []
  | k :: ks' => l :: match hmap h l !! k with Some (VMap l') => visited h l' ks' | _ => [] end
  end.
(** a value that is neither null nor a map is in the way *)
Definition blocked (h : gmap nat cell) (l : nat) (ks : list string) : Prop :=
  exists js k rest l0 w, ks = js ++ k :: rest /\ rest <> [] /\ at_names h l js = Some (VMap l0) /\
    hmap h l0 !! k = Some w /\ w <> VS SNil /\ (forall l', w <> VMap l').
(** the heap [h'] differs from [h] in members on the path only; new maps hold such a member only *)
Definition changed_along (h h' : gmap nat cell) (l : nat) (ks : list string) : Prop :=
  (forall l0 c, h !! l0 = Some c -> h' !! l0 = Some c \/
     exists js k rest m w, ks = js ++ k :: rest /\ at_names h l js = Some (VMap l0) /\ c = CMap m /\
       h' !! l0 = Some (CMap (<[k := w]> m))) /\
  (forall l0, h !! l0 = None -> h' !! l0 = None \/ exists k w, k ∈ ks /\ h' !! l0 = Some (CMap {[k := w]})).
(** the maps on the path exist and are distinct; locations from [nxt s] on are free *)
Definition tree_like (s : st) (l : nat) (ks : list string) : Prop :=
  NoDup (visited (hp s) l ks) /\
  (forall l0, l0 ∈ visited (hp s) l ks -> exists m, hp s !! l0 = Some (CMap m)) /\
  (forall l0, is_Some (hp s !! l0) -> l0 < nxt s).
(** the items of the array at a member; an absent member counts as an empty array *)
Definition items_at (h : gmap nat cell) (l : nat) (k : string) : option (list val) :=
  match hmap h l !! k with
  | None => Some []
  | Some (VArr None 0) => Some []
  | Some (VArr (Some a) n) =>
    match h !! a with Some (CArr b) => if decide (n <= length b) then Some (take n b) else None | _ => None end
  | Some _ => None
  end.
(** the cell behind the array at a member *)
Definition backing (h : gmap nat cell) (l : nat) (k : string) : option nat :=
  match hmap h l !! k with Some (VArr a _) => a | _ => None end.

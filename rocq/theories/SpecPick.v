(** What an array field iterates over when its transform selects a value. *)
From stdpp Require Import list gmap.
From Verif Require Import Val Heap.

(** the items of an array in the memory [h] *)
Definition items_of (h : heap) (v : val) : list val := match v with VArr a n => take n (harr h a) | _ => [] end.
Definition is_array (v : val) : Prop := exists a n, v = VArr a n.

(** [delivers h k v r]: selecting [v] gives the items [r] to iterate over, or nothing at all if [r] is [None]. An array of two or more items gives
    its items; null and the empty array give nothing; a value that is not an array gives itself. An array of a single item gives that item alone
    if it is not an array, nothing if it is null, no items if it is an empty array, and if it is an array with a first item, whatever
    selecting that first item would give. [k] is the number of such steps. *)
Inductive delivers (h : heap) : nat -> val -> option (list val) -> Prop :=
| delivers_null : delivers h 0 (VS SNil) None
| delivers_value v : v <> VS SNil -> ~ is_array v -> delivers h 0 v (Some [v])
| delivers_empty v : is_array v -> items_of h v = [] -> delivers h 0 v None
| delivers_many v : is_array v -> 2 <= length (items_of h v) -> delivers h 0 v (Some (items_of h v))
| delivers_one_null v : is_array v -> items_of h v = [VS SNil] -> delivers h 0 v None
| delivers_one v x : is_array v -> items_of h v = [x] -> x <> VS SNil -> ~ is_array x -> delivers h 0 v (Some [x])
| delivers_one_empty v x : is_array v -> items_of h v = [x] -> is_array x -> items_of h x = [] -> delivers h 0 v (Some [])
| delivers_first k v x y l r : is_array v -> items_of h v = [x] -> is_array x -> items_of h x = y :: l -> delivers h k y r -> delivers h (S k) v r.

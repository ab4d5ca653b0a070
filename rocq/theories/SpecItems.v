(** Results of arrays that are put together from results of their items (C19). *)
From stdpp Require Import strings list gmap.
From Verif Require Import GoStr Val Conv Schema SpecPath Den SpecSchema SpecProj SpecTrans.

(** the items of arrays use relative paths only *)
Fixpoint relative_items (s : sch) : Prop :=
  match s with
  | Leaf _ _ _ => True
  | Rec cs => (fix all (cs : list (string * sch)) : Prop :=
                 match cs with [] => True | (_, c) :: cs' => relative_items c /\ all cs' end) cs
  | Lst c => relative_only c
  end.
(** [by_items s f]: [f] gives, for the whole document and the value at some location of it, the result of the schema [s] there, and the results of all
    arrays in it are put together from results of their items, that depend on nothing else. None stands for a failure, null for no result; members
    without result are left out. *)
Definition result_at (k : string) (t : tree) : tree := default (TS SNil) (member k t).
Fixpoint by_items (s : sch) (f : tree -> option tree -> option tree) : Prop :=
  match s with
  | Leaf _ _ _ => True
  | Rec cs =>
    (fix all (cs : list (string * sch)) : Prop :=
       match cs with
       | [] => True
       | (k, c) :: cs' =>
         match c with
         | Leaf _ _ _ => True
         | _ => exists g, by_items c g /\ forall root v t, f root v = Some t -> g root (v ≫= member k) = Some (result_at k t)
         end /\ all cs'
       end) cs
  | Lst c =>
    exists g : option tree -> option tree, by_items c (fun _ => g) /\ forall root l, f root (Some (TArr l)) = arr_of <$> all_of ((fun x => g (Some x)) <$> l)
  end.

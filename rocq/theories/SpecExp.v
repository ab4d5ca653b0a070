(** What a document with references stands for. *)
From stdpp Require Import strings list gmap.
From Coq Require Import Ascii ZArith.
From Verif Require Import GoStr GoStrL Val Schema Inst Load SpecRef.

Section exp.
(** the object a reference refers to *)
Context (tgt : string -> list (string * tree) -> Prop).
(** The members of an object: its own ones, and, if it is a reference, the members it does not have itself
    of the object it refers to. *)
Inductive member : list (string * tree) -> string -> tree -> Prop :=
| member_own o k v : assoc k o = Some v -> (k = "$ref" -> forall r, v <> TS (SStr r)) -> member o k v
| member_ref o k v r T : assoc "$ref" o = Some (TS (SStr r)) -> assoc k o = None \/ k = "$ref" -> tgt r T ->
    member T k v -> member o k v.
(** what is found at a path: an object, a list (with objects as items at the positions [None]), or
    another value *)
Inductive head := HObj | HArr (items : list (option tree)) | HVal (v : tree).
Definition head_of (v : tree) : head :=
  match v with
  | TObj _ => HObj
  | TArr l => HArr (map (fun x => match x with TObj _ => None | _ => Some x end) l)
  | _ => HVal v
  end.
Inductive found : list (string * tree) -> list string -> head -> Prop :=
| found_here o : found o [] HObj
| found_value o k v : member o k v -> (forall o', v <> TObj o') -> found o [k] (head_of v)
| found_member o k o' π h : member o k (TObj o') -> found o' π h -> found o (k :: π) h
| found_item o k l i o' π h : member o k (TArr l) -> l !! i = Some (TObj o') -> found o' π h ->
    found o (k :: item_key i :: π) h.
End exp.
Definition no_target (r : string) (T : list (string * tree)) : Prop := False.

(** the object referred to by [r] in the document [data] at [path], or in another file *)
Definition refers (F : files) (lf : string -> option (res instance)) (path : string) (data : tree) (r : string) (T : list (string * tree)) : Prop :=
  exists src τ o, (own_ref F path r τ /\ src = data \/ other_ref F lf path r src τ) /\
    pget τ src = Some (TObj o) /\ T = set_assoc "fromRef" (TS (SStr r)) o.

(** all strings of a document are written without escapes *)
Fixpoint all_strings (P : string -> Prop) (t : tree) : Prop :=
  match t with
  | TS (SStr s) => P s
  | TArr l => (fix go (l : list tree) : Prop := match l with [] => True | x :: l' => all_strings P x /\ go l' end) l
  | TObj kvs => (fix go (l : list (string * tree)) : Prop := match l with [] => True | (_, x) :: l' => all_strings P x /\ go l' end) kvs
  | _ => True
  end.
Definition plain : tree -> Prop := all_strings (fun s => raw_text s = s).

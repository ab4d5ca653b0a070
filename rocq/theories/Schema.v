(** jsonschema/walk.go and FieldType: raw schema documents are [tree]s, keys in document order. *)
From stdpp Require Import strings list gmap.
From Coq Require Import ZArith.
From Verif Require Import GoStr Val.

(** jsonparser.Get(data, key) on an object; None = KeyPathNotFoundError. Values of other kinds have no
    members. (Simplification: string contents are compared unescaped.) *)
Fixpoint assoc (k : string) (kvs : list (string * tree)) : option tree :=
  match kvs with
  | [] => None
  | (k', v) :: kvs' => if decide (k' = k) then Some v else assoc k kvs'
  end.
Definition jlookup (k : string) (t : tree) : option tree :=
  match t with TObj kvs => assoc k kvs | _ => None end.

(** jsonschema/walk.go 45-54 *)
Definition prepend_path (parent child : string) : string :=
  if decide (parent <> "" /\ child <> "") then join "." [parent; child] else
  if decide (parent = "") then child else parent.

(** schema.go 216-231: the loop over a type array. State: (nullable, jsonType, union error seen) *)
Fixpoint type_loop (l : list tree) (acc : bool * string * bool) : bool * string * bool :=
  match l with
  | [] => acc
  | TS (SStr s) :: l' =>
    let '(nullable, jt, err) := acc in
    if decide (s = "null") then type_loop l' (true, jt, err)
    else type_loop l' (nullable, s, err || bool_decide (jt <> ""))
  | _ :: l' => type_loop l' acc
  end.
(** schema.go 208-242: (type name, nullable) *)
Definition field_type (raw : tree) : res (string * bool) :=
  match jlookup "type" raw with
  | Some (TS (SStr s)) => Ok (s, false)
  | Some (TArr l) =>
    let '(nullable, jt, err) := type_loop l (false, "", false) in
    if err : bool then Err else Ok (jt, nullable)
  | _ => Err
  end.

Section walk.
(** a WalkRawFunc with the state it changes *)
Context {S : Type} (fn : string -> tree -> S -> S * res unit).

Definition seq (c1 c2 : S -> S * res unit) : S -> S * res unit := fun s =>
  match c1 s with
  | (s', Ok _) => c2 s'
  | r => r
  end.
Definition stop (r : res unit) : S -> S * res unit := fun s => (s, r).

(** walk.go 114-141. The inner loops are jsonparser.ObjectEach(raw, ..., "properties") and
    jsonparser.Get(raw, "items"), written as recursion through the member list. *)
Fixpoint walk_raw (raw : tree) (path : string) {struct raw} : S -> S * res unit :=
  seq (fn path raw)
    match field_type raw with
    | Ok (ty, _) =>
      match raw with
      | TObj kvs =>
        if decide (ty = "object") then
          (fix find (l : list (string * tree)) : S -> S * res unit :=
             match l with
             | [] => stop Err
             | (k, v) :: l' =>
               if decide (k = "properties") then
                 match v with
                 | TObj ps =>
                   (fix each (ps : list (string * tree)) : S -> S * res unit :=
                      match ps with
                      | [] => stop (Ok tt)
                      | (n, p) :: ps' => seq (walk_raw p (prepend_path path n)) (each ps')
                      end) ps
                 | _ => stop Err
                 end
               else find l'
             end) kvs
        else if decide (ty = "array") then
          (fix find (l : list (string * tree)) : S -> S * res unit :=
             match l with
             | [] => stop Err
             | (k, v) :: l' =>
               if decide (k = "items") then walk_raw v (path +:+ "[*]") else find l'
             end) kvs
        else stop (Ok tt)
      | _ => stop (Ok tt)
      end
    | Err => stop Err
    | Panic => stop Panic
    end.

Fixpoint walk_each (path : string) (ps : list (string * tree)) : S -> S * res unit :=
  match ps with
  | [] => stop (Ok tt)
  | (n, p) :: ps' => seq (walk_raw p (prepend_path path n)) (walk_each path ps')
  end.

(** walk.go 95-110 WalkRaw on the schema's Properties, listed in the order Go's map iteration takes
    them, and Items *)
Definition walk_raw_schema (props : list (string * tree)) (items : option tree) : S -> S * res unit :=
  seq (walk_each "$" props)
      (match items with Some i => walk_raw i ("$" +:+ "[*]") | None => stop (Ok tt) end).
End walk.

(** jsonschema.Instance decoded as encoding/json does it, member by member, with names matched regardless of case. *)
From stdpp Require Import strings list gmap.
From Coq Require Import ZArith.
From Verif Require Import GoStr Val Conv Schema Inst Load Gen GoJson.

(** schema.go 19-37: the names of the fields of Instance *)
Definition keywords : list string :=
  ["additionalProperties"; "allOf"; "anyOf"; "description"; "definitions"; "embed"; "format"; "fromRef"; "graphql-arguments"; "items"; "oneOf";
   "properties"; "$ref"; "required"; "$schema"; "target"; "type"].

Section fold.
Context (o_fold : string -> string).
(** encoding/json decode.go object: the field for a member *)
Definition field_for (k : string) : option string := find_field o_fold keywords k ≫= fun i => keywords !! i.
(** decode.go literalStore for a string: null keeps the value *)
Definition g_str (old : string) (v : tree) : res string :=
  match v with TS SNil => Ok old | TS (SStr s) => Ok s | _ => Err end.
(** decode.go array for []string: null makes it nil *)
Definition g_strs (v : tree) : res (list string) := rbind (d_strs (Some v)) (fun o => Ok (default [] o)).
(** decode.go object for map[string]json.RawMessage: null makes it nil, an object is added to the members that are there *)
Definition g_props (old : option (list (string * tree))) (v : tree) : res (option (list (string * tree))) :=
  match v with
  | TS SNil => Ok None
  | TObj ps => Ok (Some (filter (fun kv => kv.1 ∉ ps.*1) (default [] old) ++ ps))
  | _ => Err
  end.
(** a value decoded into the field [f]; [k] is the name of the member, [subs] the value as []Instance. schema.go 43-51 makes a list of a string for
    the type, if the member is named "type". Simplification: if a list is given twice, by names that differ in case, the second replaces the first;
    encoding/json decodes its items into those of the first. *)
Definition put_field (i : instance) (f k : string) (v : tree) (subs : res (list instance)) : res instance :=
  let '(Inst ad al an de df em fm fr ga it on ps rf rq sc ta ty) := i in
  if decide (f = "additionalProperties") then rbind (d_bool ad (Some v)) (fun x => Ok (Inst x al an de df em fm fr ga it on ps rf rq sc ta ty))
  else if decide (f = "allOf") then rbind subs (fun x => Ok (Inst ad x an de df em fm fr ga it on ps rf rq sc ta ty))
  else if decide (f = "anyOf") then rbind subs (fun x => Ok (Inst ad al x de df em fm fr ga it on ps rf rq sc ta ty))
  else if decide (f = "description") then rbind (g_str de v) (fun x => Ok (Inst ad al an x df em fm fr ga it on ps rf rq sc ta ty))
  else if decide (f = "definitions") then Ok (Inst ad al an de (Some v) em fm fr ga it on ps rf rq sc ta ty)
  else if decide (f = "embed") then rbind (d_bool em (Some v)) (fun x => Ok (Inst ad al an de df x fm fr ga it on ps rf rq sc ta ty))
  else if decide (f = "format") then rbind (g_str fm v) (fun x => Ok (Inst ad al an de df em x fr ga it on ps rf rq sc ta ty))
  else if decide (f = "fromRef") then rbind (g_str fr v) (fun x => Ok (Inst ad al an de df em fm x ga it on ps rf rq sc ta ty))
  else if decide (f = "graphql-arguments") then rbind (g_strs v) (fun x => Ok (Inst ad al an de df em fm fr x it on ps rf rq sc ta ty))
  else if decide (f = "items") then Ok (Inst ad al an de df em fm fr ga (Some v) on ps rf rq sc ta ty)
  else if decide (f = "oneOf") then rbind subs (fun x => Ok (Inst ad al an de df em fm fr ga it x ps rf rq sc ta ty))
  else if decide (f = "properties") then rbind (g_props ps v) (fun x => Ok (Inst ad al an de df em fm fr ga it on x rf rq sc ta ty))
  else if decide (f = "$ref") then rbind (g_str rf v) (fun x => Ok (Inst ad al an de df em fm fr ga it on ps x rq sc ta ty))
  else if decide (f = "required") then rbind (g_strs v) (fun x => Ok (Inst ad al an de df em fm fr ga it on ps rf x sc ta ty))
  else if decide (f = "$schema") then rbind (g_str sc v) (fun x => Ok (Inst ad al an de df em fm fr ga it on ps rf rq x ta ty))
  else if decide (f = "target") then rbind (g_str ta v) (fun x => Ok (Inst ad al an de df em fm fr ga it on ps rf rq sc x ty))
  else rbind (if decide (k = "type") then d_type (Some v) else d_strs (Some v)) (fun x => Ok (Inst ad al an de df em fm fr ga it on ps rf rq sc ta x)).
(** decode.go object, a member; what belongs to no field is skipped. Errors end the decoding here; encoding/json goes on and returns the first. *)
Definition g_member (i : res instance) (k : string) (v : tree) (subs : res (list instance)) : res instance :=
  rbind i (fun i => match field_for k with Some f => put_field i f k v subs | None => Ok i end).
(** schema.go 40-53 UnmarshalJSON *)
Fixpoint g_inst (addl : bool) (t : tree) : res instance :=
  match t with
  | TS SNil => Ok (zero_inst addl)
  | TObj kvs =>
    foldl (fun i (m : string * (tree * res (list instance))) => g_member i m.1 m.2.1 m.2.2) (Ok (zero_inst addl))
      (map (fun kv : string * tree => let (k, v) := kv in
         (k, (v, match v with TS SNil => Ok [] | TArr l => seqs (map (g_inst false) l) | _ => Err end))) kvs)
  | _ => Err
  end.
End fold.

(** Transform sections decoded as encoding/json does it, with names of members matched regardless of case. *)
From stdpp Require Import strings list gmap.
From Coq Require Import ZArith.
From Verif Require Import GoStr Val Conv Instr Schema Inst Build GoJson Fold.

(** the names of the fields: transform.go 216-220, 226-228, 43-47 and 31-34 *)
Definition section_names : list string := ["from"; "method"; "methodOptions"].
Definition options_names : list string := ["concatenateDelimiter"].
Definition entry_names : list string := ["jsonPath"; "xmlPath"; "operations"].
Definition operation_names : list string := ["type"; "args"].

Section fold.
Context (o_fold : string -> string) (W : oracles).
(** encoding/json decode.go object: the field for a member *)
Definition name_for (names : list string) (k : string) : option string := find_field o_fold names k ≫= fun i => names !! i.
(** The value of the field [f] after all members have been decoded in order; [step old v] decodes the value [v] into the field that holds [old].
    Simplification: fields are looked at one by one, not member by member; decoding into one does not look at another, and errors are not told apart. *)
Definition into {A} (names : list string) (f : string) (step : A -> tree -> res A) (init : A) (kvs : list (string * tree)) : res A :=
  foldl (fun a (kv : string * tree) => rbind a (fun a => if decide (name_for names kv.1 = Some f) then step a kv.2 else Ok a)) (Ok init) kvs.
(** decode.go object for map[string]string: null makes it nil, an object is added to what is there *)
Definition g_args (old : gmap string string) (v : tree) : res (gmap string string) :=
  match v with
  | TS SNil => Ok ∅
  | TObj kvs => rbind (dec_args kvs) (fun m => Ok (m ∪ old))
  | _ => Err
  end.
(** decode.go array: null makes it nil. Simplification: a second list replaces the first; encoding/json decodes its items into those of the first. *)
Definition g_list {A} (dec : tree -> res A) (old : list A) (v : tree) : res (list A) :=
  match v with TS SNil => Ok [] | TArr l => seqs (map dec l) | _ => Err end.
(** transform.go 62-101 for one element of "operations" *)
Definition g_op (t : tree) : res op :=
  match (match t with TS SNil => Some [] | TObj kvs => Some kvs | _ => None end) with
  | None => Err
  | Some kvs =>
    rbind (into operation_names "type" g_str "" kvs) (fun name =>
    rbind (into operation_names "args" g_args ∅ kvs) (fun args =>
    match op_init W name args with Some o => Ok o | None => Err end))
  end.
(** transform.go 51-103 *)
Definition g_instr (t : tree) : res (option instr) :=
  match t with
  | TS SNil => Ok None
  | TObj kvs =>
    rbind (into entry_names "jsonPath" g_str "" kvs) (fun jp =>
    rbind (into entry_names "xmlPath" g_str "" kvs) (fun xp =>
    rbind (into entry_names "operations" (g_list g_op) [] kvs) (fun ops =>
    Ok (Some (Instr jp xp ops)))))
  | _ => Err
  end.
(** decode.go object for methodOptions: null keeps the value *)
Definition g_options (old : string) (v : tree) : res string :=
  match v with
  | TS SNil => Ok old
  | TObj kvs => into options_names "concatenateDelimiter" g_str old kvs
  | _ => Err
  end.
(** transform.go 230-254 *)
Definition g_tis (t : tree) : res (meth * string * list (option instr)) :=
  match (match t with TS SNil => Some [] | TObj kvs => Some kvs | _ => None end) with
  | None => Err
  | Some kvs =>
    rbind (into section_names "from" (g_list g_instr) [] kvs) (fun from =>
    rbind (into section_names "method" g_str "" kvs) (fun ms =>
    rbind (into section_names "methodOptions" g_options "" kvs) (fun delim =>
    rbind (dec_meth ms) (fun me =>
    Ok (me, delim, from)))))
  end.
End fold.

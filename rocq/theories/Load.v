(** Loading schemas: schema.go 97-205, reference.go. JSON documents are [tree]s with distinct member names;
    jsonparser's functions are modelled on trees. *)
From stdpp Require Import strings list gmap.
From Coq Require Import ZArith Ascii NArith.
From Verif Require Import GoStr Val Schema Inst.

(** ** merging, schema.go 194-205 *)
Definition merge_props (parent : option (list (string * tree))) (child : option (list (string * tree))) : option (list (string * tree)) :=
  Some (default [] parent ++ filter (fun kv => kv.1 ∉ (default [] parent).*1) (default [] child)).
(** schema.go 140-144 and 153-157 *)
Definition absorb (s m : instance) : instance :=
  Inst (n_addl s) (n_allOf s) (n_anyOf s) (n_desc s) (n_defs s) (n_embed s) (n_format s) (n_fromRef s) (n_gargs s)
       (match n_items s with None => n_items m | Some i => Some i end) (n_oneOf s)
       (merge_props (n_props s) (n_props m)) (n_ref s) (n_required s ++ n_required m) (n_schema s) (n_target s) (n_type s).
(** path/filepath.Base (Unix) *)
Definition path_base (p : string) : string :=
  if decide (p = "") then "." else
  let p' := trim_right "/" p in
  if decide (p' = "") then "/" else List.last (split p' "/") "".
(** schema.go 148: the name a oneOf member is selected by *)
Definition sub_name (ref : string) : string := match split (path_base ref) "." with x :: _ => x | [] => "" end.
(** schema.go 134-158 *)
Definition all_step (fl : bool) (s m : instance) : instance :=
  if negb fl && bool_decide (is_Some (n_props s)) then s else absorb s m.
Definition one_step (ty : string) (s m : instance) : instance :=
  if decide (sub_name (n_fromRef m) = ty) then absorb s m else s.
Definition flatten (fl : bool) (ty : string) (i : instance) : instance :=
  foldl (one_step ty) (foldl (all_step fl) i (n_allOf i)) (n_oneOf i).

(** schema.go 102 *)
Definition schema_key (path ty : string) (fl : bool) : string :=
  path +:+ "|" +:+ ty +:+ "|" +:+ (if fl then "true" else "false").

(** ** json.Marshal of an Instance (and of a Schema, which embeds one): omitempty members are left out if
    empty, false or nil. (Simplification: property maps keep their order.) *)
Definition when (b : bool) (k : string) (v : tree) : list (string * tree) := if b then [(k, v)] else [].
Definition m_strs (l : list string) : tree := TArr (map (fun s => TS (SStr s)) l).
Definition m_str (k s : string) : list (string * tree) := when (bool_decide (s <> "")) k (TS (SStr s)).
Definition m_raw (k : string) (t : option tree) : list (string * tree) := match t with Some v => [(k, v)] | None => [] end.
Fixpoint m_inst (i : instance) : tree :=
  match i with
  | Inst addl al an de df em fm fr ga it on ps rf rq sc ta ty =>
  TObj (when addl "additionalProperties" (TS (SBool true))
    ++ when (bool_decide (al <> [])) "allOf" (TArr (map m_inst al))
    ++ when (bool_decide (an <> [])) "anyOf" (TArr (map m_inst an))
    ++ m_str "description" de
    ++ m_raw "definitions" df
    ++ when em "embed" (TS (SBool true))
    ++ m_str "format" fm
    ++ m_str "fromRef" fr
    ++ when (bool_decide (ga <> [])) "graphql-arguments" (m_strs ga)
    ++ m_raw "items" it
    ++ when (bool_decide (on <> [])) "oneOf" (TArr (map m_inst on))
    ++ when (bool_decide (default [] ps <> [])) "properties" (TObj (default [] ps))
    ++ m_str "$ref" rf
    ++ when (bool_decide (rq <> [])) "required" (m_strs rq)
    ++ m_str "$schema" sc
    ++ m_str "target" ta
    ++ [("type", match ty with Some l => m_strs l | None => TS SNil end)])
  end.

(** ** jsonparser on trees. A path component "[i]" selects an item of an array. *)
Fixpoint set_assoc (k : string) (v : tree) (kvs : list (string * tree)) : list (string * tree) :=
  match kvs with
  | [] => [(k, v)]
  | (k', v') :: kvs' => if decide (k' = k) then (k', v) :: kvs' else (k', v') :: set_assoc k v kvs'
  end.
Fixpoint del_assoc (k : string) (kvs : list (string * tree)) : list (string * tree) :=
  match kvs with
  | [] => []
  | (k', v') :: kvs' => if decide (k' = k) then kvs' else (k', v') :: del_assoc k kvs'
  end.
Definition item_key (i : nat) : string := "[" +:+ itoa (Z.of_nat i) +:+ "]".
(** the item of [l] named [k], counting from [i] *)
Fixpoint item_at (k : string) (i : nat) (l : list tree) : option (nat * tree) :=
  match l with
  | [] => None
  | x :: l' => if decide (item_key i = k) then Some (i, x) else item_at k (S i) l'
  end.
(** jsonparser.Get(t, keys...): None = KeyPathNotFoundError *)
Fixpoint pget (keys : list string) (t : tree) : option tree :=
  match keys with
  | [] => Some t
  | k :: keys' =>
    match t with
    | TObj kvs => v ← assoc k kvs; pget keys' v
    | TArr l => x ← item_at k 0 l; pget keys' x.2
    | _ => None
    end
  end.
(** the value jsonparser.Set makes for the components of a path that do not exist *)
Fixpoint nest (keys : list string) (v : tree) : tree :=
  match keys with [] => v | k :: keys' => TObj [(k, nest keys' v)] end.
(** jsonparser.Set(t, v, keys...). None = error. (Array items are only ever set where they exist.) *)
Fixpoint pset (keys : list string) (v : tree) (t : tree) : option tree :=
  match keys with
  | [] => Some v
  | k :: keys' =>
    match t with
    | TObj kvs =>
      match assoc k kvs with
      | Some old => (fun new => TObj (set_assoc k new kvs)) <$> pset keys' v old
      | None => Some (TObj (set_assoc k (nest keys' v) kvs))
      end
    | TArr l => x ← item_at k 0 l; (fun new => TArr (<[x.1 := new]> l)) <$> pset keys' v x.2
    | _ => None
    end
  end.
(** jsonparser.Delete(t, keys..., k): nothing happens if the member does not exist *)
Fixpoint pdel (keys : list string) (k : string) (t : tree) : tree :=
  match keys with
  | [] => match t with TObj kvs => TObj (del_assoc k kvs) | _ => t end
  | c :: keys' =>
    match t with
    | TObj kvs => match assoc c kvs with Some v => TObj (set_assoc c (pdel keys' k v) kvs) | None => t end
    | TArr l => match item_at c 0 l with Some x => TArr (<[x.1 := pdel keys' k x.2]> l) | None => t end
    | _ => t
    end
  end.

(** reference.go 101-148 findRefs on an object: the paths of all string members named $ref, through objects
    and objects in arrays *)
Fixpoint find_refs (t : tree) : list (list string) :=
  match t with
  | TObj kvs =>
    concat (map (fun kv : string * tree => let (k, v) := kv in
      match v with
      | TS (SStr _) => if decide (k = "$ref") then [[k]] else []
      | TObj _ => map (cons k) (find_refs v)
      | TArr l =>
        (fix items (i : nat) (l : list tree) : list (list string) :=
           match l with
           | [] => []
           | x :: l' => (match x with TObj _ => map (fun r => k :: item_key i :: r) (find_refs x) | _ => [] end) ++ items (S i) l'
           end) 0 l
      | _ => []
      end) kvs)
  | _ => []
  end.

(** How a string with content [s] is written inside quotes in the document. (Simplification: only
    characters that must be escaped are.) *)
Definition hex (n : N) : ascii := if (n <? 10)%N then ascii_of_N (48 + n) else ascii_of_N (87 + n).
Definition raw_char (a : ascii) : string :=
  if decide (a = ascii_of_N 34) then String "\"%char (String a "") else
  if decide (a = "\"%char) then "\\" else
  if decide (a = ascii_of_N 10) then "\n" else
  if decide (a = ascii_of_N 13) then "\r" else
  if decide (a = ascii_of_N 9) then "\t" else
  if (N_of_ascii a <? 32)%N then "\u00" +:+ String (hex (N_of_ascii a / 16)) (String (hex (N_of_ascii a mod 16)) "")
  else String a "".
Fixpoint raw_text (s : string) : string :=
  match s with "" => "" | String a s' => raw_char a +:+ raw_text s' end.
(** reference.go 63-68: a string sibling is read as it is written and marshalled again *)
Definition remarshal (t : tree) : tree := match t with TS (SStr s) => TS (SStr (raw_text s)) | _ => t end.

Section load.
(** The files by absolute path, documents by http URL, which schemas gojsonschema accepts, and
    filepath.Abs(filepath.Join(filepath.Dir(path), ref)) *)
Record files := Files {
  f_file : string -> option tree;
  f_http : string -> option tree;
  f_valid : string -> bool;
  f_rel : string -> string -> string
}.
Context (F : files).

(** strings.SplitN(ref, "#", 2) *)
Fixpoint cut_hash (s : string) : string * option string :=
  match s with
  | "" => ("", None)
  | String a s' => if decide (a = "#"%char) then ("", Some s') else let r := cut_hash s' in (String a r.1, r.2)
  end.
(** reference.go 154-227. [lf] loads another file. None = does not return. *)
Definition resolve (lf : string -> option (res instance)) (ref : string) (data : tree) (path : string) : option (res tree) :=
  let src := (cut_hash ref).1 in
  let target := match (cut_hash ref).2 with Some t => trim "/" t | None => "" end in
  let finish (source : tree) : res tree :=
    match (if decide (target = "") then Some source else pget (split target "/") source) with
    | Some (TObj kvs) => Ok (TObj (set_assoc "fromRef" (TS (SStr ref)) kvs))
    | _ => Err
    end in
  if decide (src = "") then Some (finish data) else
  if has_prefix "http" src then Some (match f_http F src with Some d => finish d | None => Err end) else
  let rp := f_rel F path src in
  if decide (path = rp) then Some (finish data) else
  match lf rp with
  | None => None
  | Some (Ok i) => Some (finish (m_inst i))
  | Some Err => Some Err
  | Some Panic => Some Panic
  end.

(** reference.go 57-79: the members of [prior] are set on the object at [dest] *)
Fixpoint set_back (dest : list string) (prior : list (string * tree)) (data : tree) : option tree :=
  match prior with
  | [] => Some data
  | (k, v) :: prior' => d ← pset (dest ++ [k]) (remarshal v) data; set_back dest prior' d
  end.
(** reference.go 29-81: one reference *)
Definition expand_ref (lf : string -> option (res instance)) (path : string) (rp : list string) (data : tree) : option (res tree) :=
  match pget rp data with
  | Some (TS (SStr ref)) =>
    match resolve lf ref data path with
    | Some (Ok resolved) =>
      let dest := removelast rp in
      let d1 := pdel dest "$ref" data in
      if decide (dest = []) then Some (Ok d1) else
      match pget dest d1 with
      | Some (TObj prior) =>
        match pset dest resolved d1 ≫= set_back dest prior with
        | Some d2 => Some (Ok d2)
        | None => Some Err
        end
      | Some _ => Some Err
      | None => match pset dest resolved d1 with Some d2 => Some (Ok d2) | None => Some Err end
      end
    | Some Err => Some Err
    | Some Panic => Some Panic
    | None => None
    end
  | _ => Some Err
  end.
Fixpoint expand_all (lf : string -> option (res instance)) (path : string) (refs : list (list string)) (data : tree) : option (res tree) :=
  match refs with
  | [] => Some (Ok data)
  | r :: refs' =>
    match expand_ref lf path r data with
    | Some (Ok d) => expand_all lf path refs' d
    | x => x
    end
  end.
(** reference.go 23-98; [n] bounds the number of passes, None = not finished after [n] passes *)
Fixpoint dereference (lf : string -> option (res instance)) (path : string) (n : nat) (data : tree) : option (res tree) :=
  match n with
  | 0 => None
  | S n' =>
    match data with
    | TObj _ =>
      match expand_all lf path (find_refs data) data with
      | Some (Ok d) =>
        match d with
        | TObj _ => if decide (find_refs d = []) then Some (Ok d) else dereference lf path n' d
        | _ => Some Err
        end
      | x => x
      end
    | _ => Some Err
    end
  end.
(** schema.go 97-163, without the cache; [n] bounds the recursion through files and the passes. *)
Fixpoint load_schema (ty : string) (fl : bool) (n : nat) (path : string) : option (res instance) :=
  match n with
  | 0 => None
  | S n' =>
    match f_file F path with
    | None => Some Err
    | Some doc =>
      if negb (f_valid F path) then Some Err else
      match dereference (load_schema ty fl n') path n doc with
      | Some (Ok d) => Some (rbind (d_inst true d) (fun i => Ok (flatten fl ty i)))
      | Some Err => Some Err
      | Some Panic => Some Panic
      | None => None
      end
    end
  end.
End load.

(** schema.go 166-192 SchemaTypes: the references of allOf, of oneOf, and the property names sorted *)
Fixpoint str_le (a b : string) : bool :=
  match a, b with
  | "", _ => true
  | String _ _, "" => false
  | String x a', String y b' =>
    if decide (x = y) then str_le a' b' else (N_of_ascii x <? N_of_ascii y)%N
  end.
Fixpoint insert_sorted (s : string) (l : list string) : list string :=
  match l with
  | [] => [s]
  | x :: l' => if str_le s x then s :: l else x :: insert_sorted s l'
  end.
Definition sort_strings (l : list string) : list string := foldr insert_sorted [] l.
Definition schema_types (doc : tree) : res (list string * list string * list string) :=
  rbind (d_inst false doc) (fun i =>
  Ok (map n_ref (n_allOf i), map n_ref (n_oneOf i), sort_strings (default [] (n_props i)).*1)).

(** Construction of a Transformer from a schema: transformer.go 57-77, 185-245; instance.go 50-75,
    275-313, 460-489; utils.go 172-215; transform.go 51-103, 230-254, 297-306. *)
From stdpp Require Import strings list gmap.
From Coq Require Import ZArith.
From Verif Require Import GoStr Val Conv Instr Heap Schema.

Section build.
Context (W : oracles).

(** ** json.Unmarshal of a transform section.
    Simplification: Go matches member names of structs case-insensitively, the model exactly. *)

(** a string member; missing or null gives "" *)
Definition dec_str (k : string) (t : tree) : res string :=
  match jlookup k t with
  | None | Some (TS SNil) => Ok ""
  | Some (TS (SStr s)) => Ok s
  | _ => Err
  end.
(** map[string]string *)
Fixpoint dec_args (kvs : list (string * tree)) : res (gmap string string) :=
  match kvs with
  | [] => Ok ∅
  | (k, v) :: kvs' =>
    rbind (dec_args kvs') (fun m =>
    match v with
    | TS (SStr s) => Ok (<[k := s]> m)
    | TS SNil => Ok (<[k := ""]> m)
    | _ => Err
    end)
  end.
(** transform.go 62-101 for one element of "operations" *)
Definition dec_op (t : tree) : res op :=
  match t with
  | TObj _ | TS SNil =>
    rbind (dec_str "type" t) (fun name =>
    rbind (match jlookup "args" t with
           | None | Some (TS SNil) => Ok ∅
           | Some (TObj kvs) => dec_args kvs
           | _ => Err
           end) (fun args =>
    match op_init W name args with Some o => Ok o | None => Err end))
  | _ => Err
  end.
Fixpoint dec_ops (l : list tree) : res (list op) :=
  match l with
  | [] => Ok []
  | t :: l' => rbind (dec_op t) (fun o => rbind (dec_ops l') (fun os => Ok (o :: os)))
  end.
(** transform.go 51-103. A null element leaves a nil *transformInstruction (None). *)
Definition dec_instr (t : tree) : res (option instr) :=
  match t with
  | TS SNil => Ok None
  | TObj _ =>
    rbind (dec_str "jsonPath" t) (fun jp =>
    rbind (dec_str "xmlPath" t) (fun xp =>
    rbind (match jlookup "operations" t with
           | None | Some (TS SNil) => Ok []
           | Some (TArr l) => dec_ops l
           | _ => Err
           end) (fun ops =>
    Ok (Some (Instr jp xp ops)))))
  | _ => Err
  end.
Fixpoint dec_from (l : list tree) : res (list (option instr)) :=
  match l with
  | [] => Ok []
  | t :: l' => rbind (dec_instr t) (fun i => rbind (dec_from l') (fun is => Ok (i :: is)))
  end.
(** transform.go 240-251 *)
Definition dec_meth (s : string) : res meth :=
  if decide (s = "") then Ok MFirst else
  if decide (s = "first") then Ok MFirst else
  if decide (s = "last") then Ok MLast else
  if decide (s = "concatenate") then Ok MConcat else Err.
(** transform.go 230-254 *)
Definition dec_tis (t : tree) : res (meth * string * list (option instr)) :=
  match t with
  | TS SNil | TObj _ =>
    rbind (match jlookup "from" t with
           | None | Some (TS SNil) => Ok []
           | Some (TArr l) => dec_from l
           | _ => Err
           end) (fun from =>
    rbind (dec_str "method" t) (fun ms =>
    rbind (match jlookup "methodOptions" t with
           | None | Some (TS SNil) => Ok ""
           | Some (TObj o) => dec_str "concatenateDelimiter" (TObj o)
           | _ => Err
           end) (fun delim =>
    rbind (dec_meth ms) (fun me =>
    Ok (me, delim, from)))))
  | _ => Err
  end.

(** transform.go 297-306 for one instruction *)
Definition replace_prefix1 (old new p : string) : string :=
  if has_prefix old p then replace1 p old new else p.
Definition replace_prefix (old new : string) (i : instr) : instr :=
  Instr (replace_prefix1 old new (i_jpath i)) (replace_prefix1 old new (i_xpath i)) (i_ops i).

(** the path relative paths refer to, utils.go 179-185 *)
Inductive ikind := KScalar | KArray | KObject.
Definition is_scalar_kind (k : ikind) : bool := match k with KScalar => true | _ => false end.
Definition parent_path (path : string) (k : ikind) : string :=
  if is_scalar_kind k && has_suffix "[*]" path && negb (has_suffix ".[*]" path) then path
  else join "." (removelast (split path ".")).
(** utils.go 191-194 *)
Definition rebase (parent : string) (i : instr) : instr :=
  replace_prefix "@[" (parent +:+ "[") (replace_prefix "@." (parent +:+ ".") i).

(** nil pointers in From make replaceJSONPathPrefix panic *)
Fixpoint all_some {A} (l : list (option A)) : option (list A) :=
  match l with
  | [] => Some []
  | Some a :: l' => cons a <$> all_some l'
  | None :: _ => None
  end.

(** utils.go 172-197. jsonparser.Get(raw, "transform", id); an empty string counts as absent. The new
    transformInstructions gets a fresh id. *)
Definition extract_tis (raw : tree) (tid path : string) (k : ikind) : M (option tis) :=
  match jlookup "transform" raw with
  | None => mret None
  | Some tr =>
    match jlookup tid tr with
    | None | Some (TS (SStr "")) => mret None
    | Some t =>
      d <-- mlift (dec_tis t) ;;
      let '(me, delim, from) := d in
      match all_some from with
      | None => mpanic
      | Some is => fun s =>
        (St (hp s) (S (nxt s)) (<[nxt s := rebase (parent_path path k) <$> is]> (froms s)) (tick s),
         Ok (Some (Tis (nxt s) me delim)))
      end
    end
  end.

(** utils.go 201-215 schemaDefault *)
Definition schema_default (raw : tree) : M val :=
  match jlookup "default" raw with
  | None => mret (VS SNil)
  | Some t => load t
  end.

(** instance.go 50-75 *)
Definition new_array_tr (path tid : string) (raw : tree) : M itr :=
  ts <-- extract_tis raw tid path KArray ;;
  d <-- schema_default raw ;;
  match d with
  | VS SNil => mret (IArr path None ts None)
  | VArr l n => mret (IArr path (Some (l, n)) ts None)
  | _ => mfail
  end.
(** instance.go 275-301 *)
Definition new_object_tr (path tid : string) (raw : tree) : M itr :=
  ts <-- extract_tis raw tid path KObject ;;
  d <-- schema_default raw ;;
  match d with
  | VS SNil => mret (IObj path None ts [])
  | VMap l => mret (IObj path (Some l) ts [])
  | _ => mfail
  end.
(** instance.go 460-489 *)
Definition new_scalar_tr (path tid : string) (raw : tree) (jt : string) : M itr :=
  jt' <-- (if decide (jt = "string") then
             match jlookup "format" raw with
             | None => mret jt
             | Some (TS (SStr fm)) => mret (if decide (fm = "date-time") then "date-time" else jt)
             | Some _ => mfail
             end
           else mret jt) ;;
  ts <-- extract_tis raw tid path KScalar ;;
  d <-- schema_default raw ;;
  mret (IScal path jt' d ts).

(** ot.children[name] = child *)
Fixpoint set_child (name : string) (c : itr) (cs : list (string * itr)) : list (string * itr) :=
  match cs with
  | [] => [(name, c)]
  | (n, c') :: cs' => if decide (n = name) then (n, c) :: cs' else (n, c') :: set_child name c cs'
  end.
(** addChild: instance.go 77-80, 303-313, 491 *)
Definition add_child (parent c : itr) : res itr :=
  match parent with
  | IScal _ _ _ _ => Ok parent
  | IArr p d ts _ => Ok (IArr p d ts (Some c))
  | IObj p d ts cs =>
    let splits := split (it_path c) "." in
    if decide (join "." (removelast splits) = p)
    then Ok (IObj p d ts (set_child (List.last splits "") c cs))
    else Err
  end.
Fixpoint get_child (name : string) (cs : list (string * itr)) : option itr :=
  match cs with
  | [] => None
  | (n, c) :: cs' => if decide (n = name) then Some c else get_child name cs'
  end.
(** transformer.go 194-204 and 240: walk to the parent, then addChild. A nil interface on the way, or a
    nil parent, is a panic. *)
Fixpoint insert_at (steps : list string) (node c : itr) : res itr :=
  match steps with
  | [] => add_child node c
  | s :: steps' =>
    if decide (s = "[*]") then
      match node with
      | IArr p d ts (Some n) => rbind (insert_at steps' n c) (fun n' => Ok (IArr p d ts (Some n')))
      | _ => Panic
      end
    else
      match node with
      | IObj p d ts cs =>
        match get_child s cs with
        | Some n => rbind (insert_at steps' n c) (fun n' => Ok (IObj p d ts (set_child s n' cs)))
        | None => Panic
        end
      | _ => Panic
      end
  end.
(** transformer.go 185-205 findParent, and 236-242 *)
Definition attach (root c : itr) : res itr :=
  match split (replace_all (it_path c) "[" ".[") "." with
  | [] => Panic
  | s0 :: rest =>
    if decide (s0 <> "$") then Err else
    match rest with
    | [] => Panic                                   (* splits[1:0] *)
    | _ => insert_at (removelast rest) root c
    end
  end.

(** transformer.go 209-233. "properties" whose text is exactly {} (simplification: no white space
    inside the braces) makes a scalar transformer. *)
Definition new_node (tid path : string) (value : tree) : M itr :=
  ft <-- mlift (field_type value) ;;
  let ty := ft.1 in
  if decide (ty = "object") then
    match jlookup "properties" value with
    | None => mfail
    | Some (TObj []) => new_scalar_tr path tid value ty
    | Some _ => new_object_tr path tid value
    end
  else if decide (ty = "array") then new_array_tr path tid value
  else new_scalar_tr path tid value ty.

(** transformer.go 209-245, as a WalkRawFunc whose state is the run state and the root *)
Definition walker (tid : string) (path : string) (value : tree) (s : st * itr) : (st * itr) * res unit :=
  match new_node tid path value s.1 with
  | (s', Ok c) =>
    match attach s.2 c with
    | Ok root' => ((s', root'), Ok tt)
    | Err => ((s', s.2), Err)
    | Panic => ((s', s.2), Panic)
    end
  | (s', Err) => ((s', s.2), Err)
  | (s', Panic) => ((s', s.2), Panic)
  end.

(** transformer.go 57-77. The schema is its Properties (None = nil map), listed in the order the map
    iteration of WalkRaw takes, and its Items. *)
Definition new_transformer (tid : string) (props : option (list (string * tree))) (items : option tree)
  : M itr := fun s =>
  let root :=
    match props, items with
    | Some _, _ => Some (IObj "$" None None [])
    | None, Some _ => Some (IArr "$" None None None)
    | None, None => None
    end in
  match root with
  | None => (s, Err)
  | Some r =>
    let '(sr, o) := walk_raw_schema (walker tid) (default [] props) items (s, r) in
    (sr.1, match o with Ok _ => Ok sr.2 | Err => Err | Panic => Panic end)
  end.

Definition st0 : st := St ∅ 0 ∅ 0.
End build.

(** Generating Go structs: generate/struct.go and the parts of generate/generate.go it uses. *)
From stdpp Require Import strings list gmap.
From Coq Require Import Ascii ZArith.
From Verif Require Import GoStr Val Conv Schema Inst Load.

Definition nl : string := String "010" "".
Definition tab : string := String "009" "".
Definition quoted (s : string) : string := """" +:+ s +:+ """".

(** struct.go 19-28. The map of fields is kept as a list without repeated keys; [f_made]: the map is not nil;
    [f_req] are the keys of requiredFields. *)
Inductive field := Field {
  f_array : bool;
  f_desc : string;
  f_made : bool;
  f_fields : list (string * field);
  f_json : string;
  f_type : string;
  f_name : string;
  f_null : bool;
  f_req : list string
}.
(** m[k] = v *)
Fixpoint put {A} (k : string) (v : A) (l : list (string * A)) : list (string * A) :=
  match l with
  | [] => [(k, v)]
  | (k', v') :: l' => if decide (k' = k) then (k, v) :: l' else (k', v') :: put k v l'
  end.

(** generate.go 48-65: the options used here; the rename maps as functions *)
Record args := Args {
  a_descTag : bool;
  a_noNested : bool;
  a_pointers : bool;
  a_embed : bool;
  a_structNames : string -> option string;
  a_fieldNames : string -> option string
}.

Section gen.
Context (W : oracles).
(** generate.go 258-260 *)
Definition exported (name : string) : string := go_title W name.

(** generate.go 264-278 *)
Definition split_part (s : string) : string :=
  if has_suffix "[*]" s then String.substring 0 (String.length s - 3) s else s.
Definition split_json_path (path : string) : list string :=
  map split_part (filter (fun s => s <> "$") (split path ".")).

(** struct.go 353-362: the single type that is not null *)
Fixpoint single_type (l : list string) (t : string) : res string :=
  match l with
  | [] => Ok t
  | x :: l' => if decide (x = "null") then single_type l' t
               else if decide (t <> "") then Err else single_type l' x
  end.
Definition types_of (i : instance) : list string := default [] (n_type i).

(** struct.go 347-396, for a tree of one name *)
Definition add_leaf (rename : string -> option string) (made : bool) (fs : list (string * field)) (n : string) (i : instance) : res (list (string * field)) :=
  rbind (single_type (types_of i) "") (fun ty =>
  rbind match assocd n fs with
        | None => Ok (Field false (n_desc i) false [] n ty (exported (default n (rename n))) (has_type "null" i) [])
        | Some f => if f_array f && bool_decide (f_type f = "")
                    then Ok (Field true (f_desc f) (f_made f) (f_fields f) (f_json f) ty (f_name f) (f_null f) (f_req f))
                    else Err
        end (fun f =>
  let ty := if has_type "string" i && bool_decide (n_format i = "date-time") then "date-time" else f_type f in
  let f' := if decide (ty = "array") then Field true (f_desc f) (f_made f) (f_fields f) (f_json f) "" (f_name f) (f_null f) (f_req f)
            else if decide (ty = "object") then Field (f_array f) (f_desc f) true [] (f_json f) ty (f_name f) (f_null f) (n_required i)
            else Field (f_array f) (f_desc f) (f_made f) (f_fields f) (f_json f) ty (f_name f) (f_null f) (f_req f) in
  if made then Ok (put n f' fs) else Panic)).
(** struct.go 329-398. Writing to a nil map panics. *)
Fixpoint add_field (rename : string -> option string) (made : bool) (fs : list (string * field)) (tree : list string) (i : instance) : res (list (string * field)) :=
  if has_type "graphql-hydration" i then Ok fs else
  match tree with
  | [] => Ok fs
  | n :: tree' =>
    match tree' with
    | [] => add_leaf rename made fs n i
    | _ :: _ =>
      match assocd n fs with
      | Some f => rbind (add_field rename (f_made f) (f_fields f) tree' i) (fun fs' =>
          Ok (put n (Field (f_array f) (f_desc f) (f_made f) fs' (f_json f) (f_type f) (f_name f) (f_null f) (f_req f)) fs))
      | None =>
        if made then rbind (add_field rename true [] tree' i) (fun fs' => Ok (put n (Field false "" true fs' n "object" (exported n) false []) fs))
        else Panic
      end
    end
  end.

(** struct.go 125-130 and 294-299: the structs of a file *)
Record gstruct := GStruct { g_name : string; g_fields : list (string * field); g_req : list string; g_embeds : list string }.
Record gofile := GoFile { gf_root : gstruct; gf_nested : list (string * gstruct) }.
Definition with_fields (g : gstruct) (fs : list (string * field)) : gstruct := GStruct (g_name g) fs (g_req g) (g_embeds g).

(** struct.go 203-243 *)
Definition walk_func (A : args) (path : string) (i : instance) (gof : gofile) : gofile * res unit :=
  let root := gf_root gof in
  if negb (a_noNested A) then
    match add_field (a_fieldNames A) true (g_fields root) (split_json_path path) i with
    | Ok fs => (GoFile (with_fields root fs) (gf_nested gof), Ok tt)
    | Err => (gof, Err)
    | Panic => (gof, Panic)
    end
  else
    let parts := exported (g_name root) :: map exported (split_json_path path) in
    let parent_key := join "" (removelast parts) in
    match List.rev (split_json_path path) with
    | [] => (gof, Panic)
    | name :: _ =>
      let gen := default root (assocd parent_key (gf_nested gof)) in
      let back fs := match assocd parent_key (gf_nested gof) with
                     | Some _ => GoFile root (put parent_key (with_fields gen fs) (gf_nested gof))
                     | None => GoFile (with_fields root fs) (gf_nested gof)
                     end in
      if has_type "object" i then
        let key := join "" parts in
        let ty := if (a_pointers A && negb (bool_decide (name ∈ g_req gen))) || has_type "null" i then "*" +:+ key else key in
        let i' := Inst false [] [] (n_desc i) None false "" "" [] None [] None "" [] "" "" (Some [ty]) in
        match add_field (a_fieldNames A) true (g_fields gen) [name] i' with
        | Ok fs => let g := back fs in (GoFile (gf_root g) (put key (GStruct key [] (n_required i) []) (gf_nested g)), Ok tt)
        | Err => (gof, Err)
        | Panic => (gof, Panic)
        end
      else
        match add_field (a_fieldNames A) true (g_fields gen) [name] i with
        | Ok fs => (back fs, Ok tt)
        | Err => (gof, Err)
        | Panic => (gof, Panic)
        end
    end.

(** struct.go 135-167. [ord] is the order in which Walk iterates over property maps. *)
Definition new_file (A : args) (ord : string -> list string -> list string) (schema : instance) (name : string) (embeds : list string) : res gofile :=
  let all := if a_embed A
             then map (fun m => let ref := sub_name (n_fromRef m) in default (exported ref) (a_structNames A ref)) (n_allOf schema)
             else [] in
  let root := GStruct name [] (n_required schema) (embeds ++ all) in
  match walk_schema (walk_func A) ord (n_props schema) (n_items schema) (GoFile root []) with
  | (g, Ok _) => Ok g
  | (_, Err) => Err
  | (_, Panic) => Panic
  end.

(** struct.go 106-122: [l] are a map's fields in iteration order, with their names. Of several fields with the
    same name the last is taken for each. *)
Fixpoint last_named {A} (k : string) (l : list (string * A)) (acc : list A) : list A :=
  match l with
  | [] => acc
  | (k', v) :: l' => last_named k l' (if decide (k' = k) then [v] else acc)
  end.
Definition sorted {A} (l : list (string * A)) : list A := flat_map (fun k => last_named k l []) (sort_strings l.*1).
(** the entries of a map in an iteration order *)
Definition iterate {A} (ks : list string) (l : list (string * A)) : list A := omap (fun k => assocd k l) ks.

(** struct.go 405-450 *)
Definition go_type (pointers required : bool) (nested : list (string * gstruct)) (f : field) : string :=
  let opt (s : string) := if f_null f then "*" +:+ s else s in
  let t :=
    if decide (f_type f = "boolean") then opt "bool"
    else if decide (f_type f = "number") then opt "float64"
    else if decide (f_type f = "integer") then opt "int64"
    else if decide (f_type f = "string") then opt "string"
    else if decide (f_type f = "date-time") then (if pointers && negb required then "*time.Time" else opt "time.Time")
    else if decide (f_type f = "object") then opt (match f_fields f with [] => "map[string]string" | _ => "struct" end)
    else match assocd (f_type f) nested with
         | Some ns => match g_fields ns with [] => opt "map[string]string" | _ => f_type f end
         | None => f_type f
         end in
  if f_array f then "[]" +:+ t else t.
(** struct.go 34-41 *)
Definition omit_tag (required : bool) (nested : list (string * gstruct)) (f : field) : string :=
  if required then "" else
  if negb (f_array f) && negb (f_null f) &&
     (match f_fields f with [] => false | _ => true end ||
      match assocd (f_type f) nested with Some ns => match g_fields ns with [] => false | _ => true end | None => false end)
  then ",omitzero" else ",omitempty".
(** struct.go 42-47 *)
Definition struct_tag (A : args) (required : bool) (nested : list (string * gstruct)) (f : field) : string :=
  let json := "json:" +:+ quoted (f_json f +:+ omit_tag required nested f) in
  let desc := if a_descTag A && bool_decide (f_desc f <> "") then "description:" +:+ quoted (hd "" (split (f_desc f) nl)) else "" in
  "`" +:+ trim " " (json +:+ " " +:+ desc) +:+ "`" +:+ nl.
(** struct.go 49-55 *)
Definition comments (A : args) (f : field) : string :=
  if negb (a_descTag A) && bool_decide (f_desc f <> "")
  then join "" (map (fun line => "// " +:+ line +:+ nl) (split (f_desc f) nl)) else "".

(** struct.go 33-85. [ord] is the iteration order of the map of fields at some place. *)
Fixpoint write_field (A : args) (ord : list string -> list string -> list string) (excl : list string) (nested : list (string * gstruct))
    (loc : list string) (prefix : string) (required : bool) (f : field) : string :=
  let ty := go_type (a_pointers A) required nested f in
  let tag := struct_tag A required nested f in
  comments A f +:+
  (if bool_decide (ty ∈ excl) || bool_decide (ty = "[]") then ""
   else if bool_decide (f_type f <> "object") || match f_fields f with [] => true | _ => false end
   then prefix +:+ f_name f +:+ tab +:+ ty +:+ tab +:+ tag
   else
     let subs := map (fun kf : string * field => let (k, sub) := kf in
                   (k, (f_name sub, write_field A ord excl nested (loc ++ [k]) (prefix +:+ tab) (bool_decide (f_json sub ∈ f_req f)) sub))) (f_fields f) in
     prefix +:+ f_name f +:+ tab +:+ ty +:+ " {" +:+ nl +:+
     join "" (sorted (iterate (ord loc subs.*1) subs)) +:+
     prefix +:+ tab +:+ "}" +:+ tab +:+ tag).

(** struct.go 91-103 *)
Fixpoint has_time (f : field) : bool :=
  existsb (fun kf : string * field => let (_, sub) := kf in has_time sub) (f_fields f) || bool_decide (f_type f = "date-time").
Definition include_time (fs : list (string * field)) : bool := existsb (fun kf => has_time kf.2) fs.

(** struct.go 302-322 *)
Definition write_struct (A : args) (ord : list string -> list string -> list string) (excl : list string) (nested : list (string * gstruct)) (g : gstruct) : string :=
  let embeds := join nl (g_embeds g) in
  let subs := map (fun kf : string * field => let (k, sub) := kf in
                (k, (f_name sub, write_field A ord excl nested [g_name g; k] tab (bool_decide (f_json sub ∈ g_req g)) sub))) (g_fields g) in
  "type " +:+ exported (g_name g) +:+ " struct {" +:+ nl +:+ (if decide (embeds = "") then "" else embeds +:+ nl +:+ nl) +:+
  join "" (sorted (iterate (ord [g_name g] subs.*1) subs)) +:+ "}".
(** struct.go 180-199: sorted by name, which is the key *)
Definition structs (gof : gofile) : list gstruct :=
  gf_root gof :: omap (fun k => assocd k (gf_nested gof)) (sort_strings (gf_nested gof).*1).
Definition disclaimer : string := "// Code generated by github.com/GannettDigital/jstransform; DO NOT EDIT.".
(** struct.go 246-282, up to formatting *)
Definition file_text (A : args) (ord : list string -> list string -> list string) (pkg : string) (gof : gofile) : string :=
  let ss := structs gof in
  let excl := map g_name (filter (fun s => g_fields s = []) ss) in
  "package " +:+ pkg +:+ nl +:+ nl +:+ disclaimer +:+ nl +:+ nl +:+
  (if existsb (fun s => include_time (g_fields s)) ss then "import " +:+ quoted "time" +:+ nl else "") +:+
  join "" (map (fun s => nl +:+ nl +:+ write_struct A ord excl (gf_nested gof) s) (filter (fun s => g_fields s <> []) ss)).
End gen.

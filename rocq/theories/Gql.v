(** Generating GraphQL schemas: generate/graphql.go. *)
From stdpp Require Import strings list gmap.
From Coq Require Import Ascii ZArith.
From Verif Require Import GoStr Val Conv Schema Inst Load Gen Avro.

(** graphql.go 52-67. The maps are kept as lists without repeated keys; [q_made]: the map of fields is not nil;
    [q_req] are the keys of requiredFields, [None] if that is nil. The field args is left out: it is the same everywhere. *)
Record qinfo := QInfo {
  q_args : list string;
  q_array : bool;
  q_anull : bool;
  q_desc : string;
  q_order : list string;
  q_made : bool;
  q_json : string;
  q_type : string;
  q_name : string;
  q_null : bool;
  q_impl : string;
  q_target : string;
  q_req : option (list string)
}.
Inductive qfield := QField { q_info : qinfo; q_fields : list (string * qfield) }.
(** graphql.go 44-48 *)
Record qobj := QObj { o_build : string; o_field : qfield }.
(** graphql.go 36-41 *)
Record qfile := QFile { qf_root : qobj; qf_nested : list (string * qobj) }.
(** generate.go 48-65: the further options *)
Record gargs := GArgs {
  ga : args;
  ga_types : string -> option string;   (* GraphQLTypeNameMap *)
  ga_import : string;
  ga_files : bool;                      (* InterfaceFiles *)
  ga_any : bool                         (* ScalarAny *)
}.

(** assignments to single fields *)
Definition set_type (t : string) (f : qinfo) : qinfo :=
  QInfo (q_args f) (q_array f) (q_anull f) (q_desc f) (q_order f) (q_made f) (q_json f) t (q_name f) (q_null f) (q_impl f) (q_target f) (q_req f).
Definition set_null (b : bool) (f : qinfo) : qinfo :=
  QInfo (q_args f) (q_array f) (q_anull f) (q_desc f) (q_order f) (q_made f) (q_json f) (q_type f) (q_name f) b (q_impl f) (q_target f) (q_req f).
Definition set_array (b : bool) (f : qinfo) : qinfo :=
  QInfo (q_args f) b (q_anull f) (q_desc f) (q_order f) (q_made f) (q_json f) (q_type f) (q_name f) (q_null f) (q_impl f) (q_target f) (q_req f).
Definition set_anull (b : bool) (f : qinfo) : qinfo :=
  QInfo (q_args f) (q_array f) b (q_desc f) (q_order f) (q_made f) (q_json f) (q_type f) (q_name f) (q_null f) (q_impl f) (q_target f) (q_req f).
Definition set_target (t : string) (f : qinfo) : qinfo :=
  QInfo (q_args f) (q_array f) (q_anull f) (q_desc f) (q_order f) (q_made f) (q_json f) (q_type f) (q_name f) (q_null f) (q_impl f) t (q_req f).
Definition set_made (f : qinfo) : qinfo :=
  QInfo (q_args f) (q_array f) (q_anull f) (q_desc f) (q_order f) true (q_json f) (q_type f) (q_name f) (q_null f) (q_impl f) (q_target f) (q_req f).
Definition set_req (r : option (list string)) (f : qinfo) : qinfo :=
  QInfo (q_args f) (q_array f) (q_anull f) (q_desc f) (q_order f) (q_made f) (q_json f) (q_type f) (q_name f) (q_null f) (q_impl f) (q_target f) r.
Definition set_order (l : list string) (f : qinfo) : qinfo :=
  QInfo (q_args f) (q_array f) (q_anull f) (q_desc f) l (q_made f) (q_json f) (q_type f) (q_name f) (q_null f) (q_impl f) (q_target f) (q_req f).
Definition set_impl (s : string) (f : qinfo) : qinfo :=
  QInfo (q_args f) (q_array f) (q_anull f) (q_desc f) (q_order f) (q_made f) (q_json f) (q_type f) (q_name f) (q_null f) s (q_target f) (q_req f).
Definition set_names (json name : string) (f : qinfo) : qinfo :=
  QInfo (q_args f) (q_array f) (q_anull f) (q_desc f) (q_order f) (q_made f) json (q_type f) name (q_null f) (q_impl f) (q_target f) (q_req f).
Definition on_info (g : qinfo -> qinfo) (f : qfield) : qfield := QField (g (q_info f)) (q_fields f).
(** is m[k] true *)
Definition is_req (r : option (list string)) (k : string) : bool := bool_decide (k ∈ default [] r).

Section gql.
(** [o_quote] and [o_trim] are strconv.Quote and strings.TrimSpace of strings that are not ASCII *)
Context (W : oracles) (o_quote o_trim : string -> string).
Definition trim_space (s : string) : string := if str_all is_ascii_char s then trim_r (trim_l s) else o_trim s.
Definition trim_prefix (p s : string) : string := if has_prefix p s then drop_str (String.length p) s else s.

(** ** fields *)
(** graphql.go 650-667: the field added beside an array *)
Definition total_text (name : string) : string :=
  "The total length of the " +:+ name +:+ " list at this same level in the data, this number is unaffected by filtering.".
Definition total_desc (name desc : string) : string :=
  if has_prefix "DEPRECATED:" desc then hd "" (split desc nl) +:+ nl +:+ total_text name else total_text name.
Definition total_field (name json desc : string) : qfield :=
  QField (QInfo [] false false desc [] false json "integer" name false "" "" None) [].
Definition new_field (i : instance) (k name ty : string) : qinfo :=
  QInfo (n_gargs i) false false (n_desc i) [] false k ty name (has_type "null" i) "" (n_target i) None.
(** gen.fields[k] = f; gen.fieldOrder = append(gen.fieldOrder, k). Writing to a nil map panics. *)
Definition put_field (k : string) (f : qfield) (gen : qfield) : res qfield :=
  if q_made (q_info gen) then Ok (QField (set_order (q_order (q_info gen) ++ [k]) (q_info gen)) (put k f (q_fields gen))) else Panic.
(** gen.requiredFields[k] = true *)
Definition put_req (k : string) (gen : qfield) : res qfield :=
  match q_req (q_info gen) with Some l => Ok (on_info (set_req (Some (k :: l))) gen) | None => Panic end.

(** graphql.go 621-637: a field that is there already must be an array *)
Definition again (pointers : bool) (gen : qfield) (i : instance) (ty : string) (f : qinfo) : res qinfo :=
  if q_array f then
    let f := if decide (q_type f = "") then set_type ty f else f in
    Ok (if bool_decide (q_target f = "") && bool_decide (n_target i <> "")
        then set_target ("[" +:+ n_target i +:+ "]" +:+
               (if negb (q_null f || (pointers && negb (is_req (q_req (q_info gen)) (q_json f)))) then "!" else "")) f
        else f)
  else Err.
(** graphql.go 591-683. [gty] is gqlTypeName, [None] if nil. *)
Definition q_leaf (A : gargs) (gen : qfield) (k : string) (gty : option (list string)) (i : instance) : res qfield :=
  let fname := default k (a_fieldNames (ga A) k) in
  rbind (single_type (default (types_of i) gty) "") (fun ty =>
  let f0 := new_field i k (exported W fname) ty in
  rbind match assocd k (q_fields gen) with
        | None => Ok (QField f0 [])
        | Some e => rbind (again (a_pointers (ga A)) gen i ty (q_info e)) (fun f => Ok (QField f (q_fields e)))
        end (fun f =>
  let f := if has_type "string" i && bool_decide (n_format i = "date-time") then on_info (fun f => set_null true (set_type "date-time" f)) f else f in
  if decide (q_type (q_info f) = "array") then
    let f' := on_info (fun f => let f := set_array true (set_null false (set_type "" f)) in set_anull (q_null f) f) f in
    let total := "total" +:+ q_name (q_info f') in
    rbind (put_field total (total_field (exported W total) total (total_desc fname (q_desc (q_info f')))) gen) (fun gen =>
    rbind (put_req total gen) (fun gen => put_field k f' gen))
  else if decide (q_type (q_info f) = "object") then
    let f' := if decide (default [] (n_props i) = []) then on_info (set_type "Any") f else f in
    put_field k (QField (set_made (set_req (Some (n_required i)) (q_info f'))) []) gen
  else put_field k f gen)).
(** graphql.go 569-686 *)
Fixpoint q_add (A : gargs) (gen : qfield) (tree : list string) (gty : option (list string)) (i : instance) {struct tree} : res qfield :=
  match tree with
  | [] => Ok gen
  | k :: tree' =>
    match tree' with
    | [] => q_leaf A gen k gty i
    | _ :: _ =>
      match assocd k (q_fields gen) with
      | Some f => rbind (q_add A f tree' None i) (fun f' => Ok (QField (q_info gen) (put k f' (q_fields gen))))
      | None =>
        let f := QField (QInfo (n_gargs i) false false "" [] true k "object" (exported W k) false "" (n_target i) None) [] in
        rbind (put_field k f gen) (fun gen =>
        rbind (q_add A f tree' None i) (fun f' => Ok (QField (q_info gen) (put k f' (q_fields gen)))))
      end
    end
  end.

(** graphql.go 380-391 *)
Definition new_obj (build name json desc : string) (args : list string) (target : string) (req : list string) : qobj :=
  QObj build (QField (QInfo args false false desc [] true json "" name false "" target (Some req)) []).
Definition with_field (o : qobj) (f : qfield) : qobj := QObj (o_build o) f.
Definition o_info (o : qobj) : qinfo := q_info (o_field o).
(** graphql.go 474: nothing is written for what is below it *)
Definition dead (o : qobj) : bool := bool_decide (q_target (o_info o) <> "") || bool_decide (o_build o = "ignored").
(** graphql.go 437-448 *)
Definition type_name (A : gargs) (top : bool) (gen : qobj) (name : string) : string :=
  let n := (if top then exported W (q_json (o_info gen)) else q_json (o_info gen)) +:+ exported W name in
  default n (ga_types A n).

(** graphql.go 416-495 *)
Definition q_walk (A : gargs) (path : string) (i : instance) (gof : qfile) : qfile * res unit :=
  let root := qf_root gof in
  if negb (a_noNested (ga A)) then
    match q_add A (o_field root) (split_json_path path) None i with
    | Ok f => (QFile (with_field root f) (qf_nested gof), Ok tt)
    | Err => (gof, Err)
    | Panic => (gof, Panic)
    end
  else
    let parts := exported W (q_name (o_info root)) :: map (exported W) (split_json_path path) in
    let parent_key := join "" (removelast parts) in
    match List.rev (split_json_path path) with
    | [] => (gof, Panic)
    | name :: _ =>
      let found := assocd parent_key (qf_nested gof) in
      let gen := default root found in
      let gty := type_name A (match found with None => true | Some _ => false end) gen name in
      let back f := match found with
                    | Some _ => QFile root (put parent_key (with_field gen f) (qf_nested gof))
                    | None => QFile (with_field root f) (qf_nested gof)
                    end in
      if has_type "object" i then
        let key := join "" parts in
        let empty := bool_decide (default [] (n_props i) = []) in
        let build := if dead gen || empty then "ignored" else "type" in
        let obj := new_obj build key gty (n_desc i) (n_gargs i) (n_target i) (n_required i) in
        let tys := if empty then ["Any"] else if has_type "null" i then [gty; "null"] else [gty] in
        let i' := Inst false [] [] (n_desc i) None false "" "" (n_gargs i) None [] None "" [] "" (n_target i) (Some [key]) in
        match q_add A (o_field gen) [name] (Some tys) i' with
        | Ok f => let g := back f in (QFile (qf_root g) (put key obj (qf_nested g)), Ok tt)
        | Err => (gof, Err)
        | Panic => (gof, Panic)
        end
      else
        match q_add A (o_field gen) [name] None i with
        | Ok f => (back f, Ok tt)
        | Err => (gof, Err)
        | Panic => (gof, Panic)
        end
    end.

(** graphql.go 338-378. [ord] is the order in which Walk iterates over property maps. *)
Definition q_new (A : gargs) (ord : string -> list string -> list string) (schema : instance) (name : string) (implements : bool) : res qfile :=
  let name' := default (exported W name) (a_structNames (ga A) name) in
  let gname := match ga_types A name with
               | Some n => n
               | None => if implements then go_lower W name else exported W name'
               end in
  let root := new_obj (match n_oneOf schema with [] => "type" | _ => "interface" end) name' gname (n_desc schema) [] "" (n_required schema) in
  match walk_schema (q_walk A) ord (n_props schema) (n_items schema) (QFile root []) with
  | (g, Ok _) => Ok g
  | (_, Err) => Err
  | (_, Panic) => Panic
  end.

(** ** text *)
(** graphql.go 748-761 *)
Definition q_comment (prefix desc : string) : string :=
  if decide (length (split desc nl) = 1%nat) then prefix +:+ quoted desc +:+ nl
  else prefix +:+ """""""" +:+ nl +:+
       join "" (map (fun line => (if decide (line = "") then "" else prefix +:+ line) +:+ nl) (split desc nl)) +:+
       prefix +:+ """""""" +:+ nl.
(** graphql.go 18-25 *)
Definition q_scalar (t : string) : option string :=
  if decide (t = "boolean") then Some "Boolean"
  else if decide (t = "number") then Some "Float"
  else if decide (t = "integer") then Some "Int"
  else if decide (t = "string") then Some "String"
  else if decide (t = "date-time") then Some "DateTime"
  else if decide (t = "object") then Some "("
  else None.
(** graphql.go 730-736 *)
Definition q_list_args : string :=
  "(" +:+ nl +:+
  "    ""A List Filter expression such as '{Field: \""position\"", Operation: \""<=\"", Argument: {Value: 10}}'""" +:+ nl +:+
  "    filter: ListFilter" +:+ nl +:+ nl +:+
  "    ""Sort the list, ie '{Field: \""position\"", Order: \""ASC\""}'""" +:+ nl +:+
  "    sort: ListSortParams" +:+ nl +:+ "  )".
(** graphql.go 693-745 *)
Definition q_type_text (pointers required : bool) (f : qinfo) : string * string :=
  if decide (q_type f = "graphql-hydration") then
    (match q_args f with
     | [] => ""
     | _ => join nl (["("] ++ map (fun a => if decide (a = "") then "" else "    " +:+ a) (q_args f) ++ ["  )"])
     end, q_target f)
  else
    let '(t, regular) := if decide (q_target f <> "") then (q_target f, false)
                         else match q_scalar (q_type f) with Some t => (t, true) | None => (q_type f, false) end in
    let t := if bool_decide (t <> "DateTime") && ((regular && negb (q_null f)) || required || negb pointers) && bool_decide (q_type f <> "Any")
             then t +:+ "!" else t in
    if q_array f then
      (q_list_args, "[" +:+ t +:+ (if q_anull f || (pointers && negb required) then "]" else "]!") +:+ " @goField(forceResolver: true)")
    else ("", t).
(** graphql.go 273-280: the description and the attribute *)
Definition q_deprecated (desc : string) : string * string :=
  if has_prefix "DEPRECATED:" desc then
    let lines := split desc nl in
    (trim_space (join nl (tl lines)), " @deprecated(reason: " +:+ q o_quote (trim_space (trim_prefix "DEPRECATED:" (hd "" lines))) +:+ ")")
  else (desc, "").
(** graphql.go 272-314. Simplification: each name in fieldOrder has a field, so nothing is nil. *)
Fixpoint q_write (pointers : bool) (prefix : string) (required : bool) (f : qfield) : string :=
  let i := q_info f in
  let '(desc, attr) := q_deprecated (q_desc i) in
  let '(gargs, gty) := q_type_text pointers required i in
  (if decide (desc = "") then "" else q_comment prefix desc) +:+
  (if decide (q_type i <> "object") then prefix +:+ q_json i +:+ gargs +:+ ": " +:+ gty +:+ attr +:+ nl
   else
     let subs := map (fun kf : string * qfield => let (k, sub) := kf in
                   (k, q_write pointers (prefix +:+ tab) (is_req (q_req i) (q_json (q_info sub))) sub)) (q_fields f) in
     prefix +:+ q_json i +:+ gargs +:+ tab +:+ gty +:+ " {" +:+ nl +:+
     join "" (omap (fun k => assocd k subs) (sort_strings (q_order i))) +:+
     prefix +:+ tab +:+ "}" +:+ attr).
(** graphql.go 519-562. [ord] is the iteration order of the map of fields. *)
Definition q_write_obj (A : gargs) (ord : list string -> list string -> list string) (o : qobj) : string :=
  let i := o_info o in
  let fs := q_fields (o_field o) in
  let subs := map (fun kf : string * qfield => let (k, sub) := kf in
                (k, (q_name (q_info sub), q_write (a_pointers (ga A)) "  " (is_req (q_req i) (q_json (q_info sub))) sub))) fs in
  let model := if existsb (fun kf : string * qfield => bool_decide (q_type (q_info kf.2) <> "graphql-hydration")) fs
               then "@goModel(model: " +:+ q o_quote (join "." [ga_import A; exported W (q_name i)]) +:+ ") " else "" in
  (if decide (q_desc i = "") then "" else q_comment "" (q_desc i)) +:+
  o_build o +:+ " " +:+ q_json i +:+ (if decide (q_impl i = "") then "" else " implements " +:+ q_impl i) +:+ " " +:+ model +:+ "{" +:+ nl +:+
  join nl (sorted (iterate (ord [q_name i] subs.*1) subs)) +:+ "}" +:+ nl.
(** graphql.go 393-412: sorted by name, which is the key *)
Definition q_structs (gof : qfile) : list qobj :=
  qf_root gof :: omap (fun k => assocd k (qf_nested gof)) (sort_strings (qf_nested gof).*1).
(** graphql.go 498-516 *)
Definition q_text (A : gargs) (ord : list string -> list string -> list string) (gof : qfile) : string :=
  join "" (map (fun o => nl +:+ q_write_obj A ord o) (filter (fun o => dead o = false) (q_structs gof))).

(** ** buildGraphQLFile *)
(** for k, v := range src { dst[k] = v } *)
Definition put_all {B} (src dst : list (string * B)) : list (string * B) := fold_left (fun d kv => put kv.1 kv.2 d) src dst.
Definition root_fields (g : qfile) : list (string * qfield) := q_fields (o_field (qf_root g)).
Definition root_req (g : qfile) : list string := default [] (q_req (o_info (qf_root g))).
(** graphql.go 148-160 and 211-219: the fields and required fields of several files *)
Definition all_fields (common : list qfile) (fs : list (string * qfield)) : list (string * qfield) :=
  fold_left (fun fs g => put_all (root_fields g) fs) common fs.
Definition all_req (common : list qfile) : list string := common ≫= root_req.
Definition all_nested (common : list qfile) : list (string * qobj) := fold_left (fun ns g => put_all (qf_nested g) ns) common [].
(** graphql.go 111, 141, 178, 195: the name of the file a subschema came from *)
Definition from_name (i : instance) : string := sub_name (n_fromRef i).

(** graphql.go 120-170. fieldOrder is left out: for the root of a file it is not used. *)
Definition q_interface (A : gargs) (pkg : string) (schema : instance) (common : list qfile) : qfile :=
  let base := match n_allOf schema with m :: _ => from_name m | [] => "" end in
  let '(json, name, build) := match n_oneOf schema with
    | [] => (exported W pkg, default (exported W base) (a_structNames (ga A) base), "type")
    | _ => let n := default (exported W pkg) (ga_types A pkg) in (n, n, "interface")
    end in
  QFile (QObj build (QField (QInfo [] false false "" [] true json "object" name false "" "" (Some (all_req common))) (all_fields common [])))
        (all_nested common).
(** graphql.go 183-223 *)
Definition q_merge (common : list qfile) (g : qfile) (impl : string) : qfile :=
  let i := o_info (qf_root g) in
  let own := omap (fun k => (fun f => (k, f)) <$> assocd k (root_fields g)) (q_order i) in
  QFile (QObj (o_build (qf_root g)) (QField (set_req (Some (all_req common ++ root_req g)) (set_impl impl i)) (put_all own (all_fields common []))))
        (qf_nested g).

(** the loop over oneOf, graphql.go 177-249: the text for each, with its name *)
Fixpoint q_impls (A : gargs) (ord : string -> list string -> list string) (ord' : list string -> list string -> list string)
    (name : string) (all : bool) (common : list qfile) (ms : list instance) : res (list (string * string)) :=
  match ms with
  | [] => Ok []
  | m :: ms' =>
    rbind (q_new A ord m (from_name m) all) (fun g =>
    rbind (if a_embed (ga A) then seqs (map (fun a => q_new A ord a (from_name a) false) (n_allOf m)) else Ok []) (fun more =>
    let common := common ++ more in
    let impl := if all then default (exported W name) (ga_types A name) else "" in
    rbind (q_impls A ord ord' name all common ms') (fun rest =>
    Ok ((from_name m, q_text A ord' (q_merge common g impl)) :: rest))))
  end.
(** graphql.go 227-231 *)
Definition impl_file (name one : string) : string := if has_prefix name one then one +:+ ".graphqls" else name +:+ "_" +:+ one +:+ ".graphqls".
Definition q_header : string := "# " +:+ disclaimer +:+ nl.

(** graphql.go 76-267: the files made from a loaded schema, with their contents. [file] is the base name of the path of the schema
    up to the first dot. Simplification: loading and creating files succeed, and the files have different names. *)
Definition q_build (A : gargs) (ord : string -> list string -> list string) (ord' : list string -> list string -> list string)
    (file name pkg : string) (schema : instance) : res (list (string * string)) :=
  let head := q_header +:+ (if ga_any A then nl +:+ "scalar Any" +:+ nl else "") in
  let all := match n_allOf schema with [] => false | _ => true end in
  let base := match n_allOf schema with m :: _ => from_name m | [] => "" end in
  rbind (seqs (map (fun m => q_new A ord m base false) (n_allOf schema))) (fun common =>
  let first := if all then q_text A ord' (q_interface A pkg schema common) else "" in
  rbind (q_impls A ord ord' name all common (n_oneOf schema)) (fun impls =>
  rbind (match n_allOf schema, n_oneOf schema with
         | [], [] => rbind (q_new A ord schema file false) (fun g => Ok (q_text A ord' g))
         | _, _ => Ok ""
         end) (fun own =>
  let main := name +:+ ".graphqls" in
  Ok (if ga_files A
      then (main, head +:+ first +:+ own) :: map (fun nt => (impl_file name nt.1, q_header +:+ nt.2)) impls
      else [(main, head +:+ first +:+ join "" impls.*2 +:+ own)])))).
End gql.

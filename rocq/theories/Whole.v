(** A whole run of the generator: generate/generate.go 103-253, graphql.go 76-267 and avro_helpers.go 97-123, 577-603, with the files it writes. *)
From stdpp Require Import strings list gmap.
From Coq Require Import Ascii.
From Verif Require Import GoStr Val Conv Schema Inst Load Gen Files Gql Avro GoSrc Mapper Template.

(** The directories the generator writes to: the output directory, the one for GraphQL, and avro/p in the output directory for each package p.
    Simplification: that for GraphQL is kept apart even if it is the output directory; the names of the files in it end with ".graphqls". *)
Notation dir := (list (string * string)).
Record disk := Disk { d_out : dir; d_gql : dir; d_avro : list (string * dir) }.
Definition out_put (f t : string) (d : disk) : disk := Disk (put f t (d_out d)) (d_gql d) (d_avro d).
Definition gql_put (f t : string) (d : disk) : disk := Disk (d_out d) (put f t (d_gql d)) (d_avro d).
Definition avro_put (p : string) (fs : dir) (d : disk) : disk :=
  Disk (d_out d) (d_gql d) (put p (put_all fs (default [] (assocd p (d_avro d)))) (d_avro d)).

(** text/template (standard library) for templates in which only {{ .key }} occurs *)
Definition fill_hole (vals : list (string * string)) (p : string) : string :=
  match split p "}}" with
  | k :: rest => default "<no value>" (assocd (trim_prefix "." (trim " "%char k)) vals) +:+ join "}}" rest
  | [] => ""
  end.
Definition fill (vals : list (string * string)) (t : string) : string :=
  match split t "{{" with p :: ps => p +:+ join "" (map (fill_hole vals) ps) | [] => "" end.

(** generate.go 48-66; the paths are given separately *)
Record run_args := RunArgs { r_gql : gargs; r_graphql : bool; r_avro : bool; r_msgp : bool }.

Section run.
(** as in Files.v, Gql.v, GoSrc.v and Mapper.v *)
Context (W : oracles) (F : files) (o_abs : string -> string) (o_fmt : string -> option string).
Context (o_quote o_trim o_quote_avro : string -> string) (o_unquote : string -> option string) (o_tag : afield -> string).
(** [o_types]: the text of a Go file without what is no declaration of a type, which is all that is looked up in it. [o_gogen]: the files that
    gogen-avro writes for a package and an Avro schema, None: an error. [o_declared]: the structs that such files declare. [o_join]: path.Join.
    [o_msgp]: the package that msgp finds in a directory, the text for it and for its tests; None: an error; Some None: nothing to write. *)
Context (o_types : string -> string) (o_gogen : string -> string -> option dir) (o_declared : dir -> string -> option texpr).
Context (o_join : list string -> string) (o_msgp : dir -> option (option (string * string * string))).
Context (A : run_args) (pkg : string).
Context (ord : nat -> string -> list string -> list string) (ord' : nat -> list string -> list string -> list string).
Notation GA := (r_gql A).
Notation SA := (ga (r_gql A)).

(** ** GraphQL *)
(** the loop over oneOf, graphql.go 177-249, with the files it writes; [main] is the text of the file of the schema so far *)
Fixpoint gql_impls (o : string -> list string -> list string) (o' : list string -> list string -> list string)
    (name : string) (all : bool) (common : list qfile) (ms : list instance) (main : string) (d : disk) : disk * res string :=
  match ms with
  | [] => (d, Ok main)
  | m :: ms' =>
    match q_new W GA o m (from_name m) all with
    | Ok g =>
      match (if a_embed SA then seqs (map (fun a => q_new W GA o a (from_name a) false) (n_allOf m)) else Ok []) with
      | Ok more =>
        let common := common ++ more in
        let impl := if all then default (exported W name) (ga_types GA name) else "" in
        let t := q_text W o_quote o_trim GA o' (q_merge common g impl) in
        if ga_files GA then gql_impls o o' name all common ms' main (gql_put (impl_file name (from_name m)) (q_header +:+ t) d)
        else gql_impls o o' name all common ms' (main +:+ t) (gql_put (name +:+ ".graphqls") (main +:+ t) d)
      | Err => (d, Err)
      | Panic => (d, Panic)
      end
    | Err => (d, Err)
    | Panic => (d, Panic)
    end
  end.
(** graphql.go 76-267. The file of the schema is there before the schema is loaded. *)
Definition build_gql (n : nat) (o : string -> list string -> list string) (o' : list string -> list string -> list string)
    (schema_path : string) (d : disk) : option (disk * res unit) :=
  let name := sub_name schema_path in
  let main := name +:+ ".graphqls" in
  let head := q_header +:+ (if ga_any GA then nl +:+ "scalar Any" +:+ nl else "") in
  let d := gql_put main head d in
  let path := child_path F o_abs schema_path schema_path in
  match load_schema F name (negb (a_embed SA)) n path with
  | None => None
  | Some Err => Some (d, Err)
  | Some Panic => Some (d, Panic)
  | Some (Ok schema) =>
    let all := match n_allOf schema with [] => false | _ => true end in
    let base := match n_allOf schema with m :: _ => from_name m | [] => "" end in
    match seqs (map (fun m => q_new W GA o m base false) (n_allOf schema)) with
    | Err => Some (d, Err)
    | Panic => Some (d, Panic)
    | Ok common =>
      let first := if all then q_text W o_quote o_trim GA o' (q_interface W GA pkg schema common) else "" in
      let d := gql_put main (head +:+ first) d in
      match gql_impls o o' name all common (n_oneOf schema) (head +:+ first) d with
      | (d, Err) => Some (d, Err)
      | (d, Panic) => Some (d, Panic)
      | (d, Ok text) =>
        match n_allOf schema, n_oneOf schema with
        | [], [] =>
          match q_new W GA o schema (sub_name path) false with
          | Ok g => Some (gql_put main (text +:+ q_text W o_quote o_trim GA o' g) d, Ok tt)
          | Err => Some (d, Err)
          | Panic => Some (d, Panic)
          end
        | _, _ => Some (d, Ok tt)
        end
      end
    end
  end.

(** ** Avro *)
(** the Go files of a directory as parseGoStruct sees them, avro.go 151-237 *)
Definition viewed (fs : dir) : dir := map (fun f : string * string => (f.1, o_types f.2)) fs.
(** avro_helpers.go 97-118: the values for the templates. 229 looks for embedded structs below the path of a file, where none are. *)
Definition helper_values (fuel : nat) (name file : string) (d : disk) : option (option (list (string * string))) :=
  let low := go_lower W name in
  match struct_in_file (viewed (d_out d)) file name with
  | None => Some None
  | Some t =>
    then2 (generate_mapping W (sources_of o_unquote (viewed (d_out d))) (fun _ _ => None)
             (fun s => o_declared (default [] (assocd low (d_avro d))) s) fuel name (to_texpr o_unquote t)) (fun m =>
    Some (Some [("avroImport", o_join [ga_import GA; "avro"; low]); ("avroPackage", low); ("name", name); ("pkgName", pkg);
                ("preProcessing", join "" (map (show_def low o_tag) (mf_pre m))); ("fieldMapping", show_fields low (mf_fields m))]))
  end.
(** generate.go 184-209, with avro.go 47-85, 95-149 and avro_helpers.go 97-123, 577-603. [file] is the Go file of the struct. Simplification:
    gogen-avro writes all of its files or none. *)
Definition build_avro (fuel : nat) (name file : string) (d : disk) : option (disk * res unit) :=
  let name := exported W name in
  let low := go_lower W name in
  match avro_schema o_unquote W o_quote_avro fuel (viewed (d_out d)) name file with
  | None => None
  | Some Err => Some (d, Err)
  | Some Panic => Some (d, Panic)
  | Some (Ok t) =>
    let d := out_put (low +:+ ".avsc") t d in
    let p := sub_name (low +:+ ".avsc") in
    match o_gogen p t with
    | None => Some (d, Err)
    | Some fs =>
      let d := avro_put p fs d in
      match helper_values fuel name file d with
      | None => None
      | Some None => Some (d, Err)
      | Some (Some vals) =>
        match o_fmt (fill vals avro_template) with
        | None => Some (d, Err)
        | Some h =>
          let d := out_put (low +:+ "_avro.go") h d in
          match o_fmt (fill vals avro_test_template) with
          | None => Some (d, Err)
          | Some h' => Some (out_put (low +:+ "_avro_test.go") h' d, Ok tt)
          end
        end
      end
    end
  end.

(** ** the loops, generate.go 136-173 *)
Definition build_one (n fuel i : nat) (schema_path child name : string) (embeds : list string) (d : disk) : option (disk * res unit) :=
  match build_struct_file W F o_abs o_fmt SA pkg ord ord' n i schema_path child name embeds (d_out d) with
  | None => None
  | Some (fs, r) =>
    let d := Disk fs (d_gql d) (d_avro d) in
    match r with
    | Ok _ => if r_avro A then build_avro fuel name (sub_name (child_path F o_abs schema_path child) +:+ ".go") d else Some (d, Ok tt)
    | r => Some (d, r)
    end
  end.
Fixpoint build_members (n fuel i : nat) (schema_path : string) (ms : list (string * string * list string)) (d : disk) : option (disk * res unit) :=
  match ms with
  | [] => Some (d, Ok tt)
  | (child, name, embeds) :: ms' =>
    match build_one n fuel i schema_path child name embeds d with
    | Some (d', Ok _) => build_members n fuel (S i) schema_path ms' d'
    | x => x
    end
  end.
(** the members, generate.go 122-128, 136-144, 157-162 *)
Definition members_of (schema_path : string) (alls ones : list string) (props : list string) : list (string * string * list string) :=
  let own := match alls, ones, props with [], [], _ => true | _, _, [] => false | _, _, _ => true end in
  let alls := alls ++ (if own then [o_abs schema_path] else []) in
  map (fun p => (p, all_name W SA p, [])) alls ++ map (fun p => (p, one_name SA p, map (all_name W SA) alls)) ones.
(** generate.go 211-222, with the printer of msgp, which writes the file and its tests *)
Definition build_msgp (d : disk) : disk * res unit :=
  match o_msgp (d_out d) with
  | None => (d, Err)
  | Some None => (d, Ok tt)
  | Some (Some (p, t, t')) => (out_put (p +:+ "_msgp_test.go") t' (out_put (p +:+ "_msgp.go") t d), Ok tt)
  end.
(** generate.go 103-182 BuildStructsWithArgs. [n] bounds loading and [fuel] the recursion in Avro; None: a bound is reached. [ord] and [ord'] are the
    iteration orders of maps: those for GraphQL, then for each file. *)
Definition run (n fuel : nat) (og : string -> list string -> list string) (og' : list string -> list string -> list string)
    (schema_path : string) (d : disk) : option (disk * res unit) :=
  match f_file F (o_abs schema_path) with
  | None => Some (d, Err)
  | Some doc =>
    match schema_types doc with
    | Err => Some (d, Err)
    | Panic => Some (d, Panic)
    | Ok (alls, ones, props) =>
      match (if r_graphql A then build_gql n og og' schema_path d else Some (d, Ok tt)) with
      | Some (d, Ok _) =>
        match build_members n fuel 0 schema_path (members_of schema_path alls ones props) d with
        | Some (d, Ok _) => Some (if r_msgp A then build_msgp d else (d, Ok tt))
        | x => x
        end
      | x => x
      end
    end
  end.
End run.

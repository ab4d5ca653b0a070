(** The Go files made from a schema: generate/generate.go 103-182 and 224-253. *)
From stdpp Require Import strings list gmap.
From Verif Require Import GoStr Val Conv Schema Inst Load Gen.

Section go_files.
(** [o_abs] is filepath.Abs, [o_fmt] is go/format.Source, None its error; [pkg] the name of the output directory (generate.go 115) *)
Context (W : oracles) (F : files) (o_abs : string -> string) (o_fmt : string -> option string) (A : args) (pkg : string).
(** the iteration orders of maps while the file number [i] is made *)
Context (ord : nat -> string -> list string -> list string) (ord' : nat -> list string -> list string -> list string).
(** the files of the output directory, by name *)
Notation dir := (list (string * string)).

(** generate.go 225-227 and schema.go 98 *)
Definition child_path (schema_path child : string) : string :=
  if has_prefix "/" child then o_abs child else f_rel F schema_path child.
(** generate.go 224-253. [n] bounds loading, None: it does not return. If formatting fails the file has been made already. Simplification:
    creating and writing files succeeds. *)
Definition build_struct_file (n i : nat) (schema_path child name : string) (embeds : list string) (fs : dir) : option (dir * res unit) :=
  match load_schema F name (negb (a_embed A)) n (child_path schema_path child) with
  | None => None
  | Some (Ok schema) =>
    match new_file W A (ord i) schema name embeds with
    | Ok g =>
      let file := sub_name (child_path schema_path child) +:+ ".go" in
      match o_fmt (file_text W A (ord' i) pkg g) with
      | Some t => Some (put file t fs, Ok tt)
      | None => Some (put file "" fs, Err)
      end
    | Err => Some (fs, Err)
    | Panic => Some (fs, Panic)
    end
  | Some Err => Some (fs, Err)
  | Some Panic => Some (fs, Panic)
  end.
(** the loops of generate.go 137-155 and 157-172, one after the other: path, name and embedded structs of each file *)
Fixpoint build_each (n i : nat) (schema_path : string) (ms : list (string * string * list string)) (fs : dir) : option (dir * res unit) :=
  match ms with
  | [] => Some (fs, Ok tt)
  | (child, name, embeds) :: ms' =>
    match build_struct_file n i schema_path child name embeds fs with
    | Some (fs', Ok _) => build_each n (S i) schema_path ms' fs'
    | x => x
    end
  end.
(** generate.go 138-144 and 158-161 *)
Definition all_name (path : string) : string := default (exported W (sub_name path)) (a_structNames A (sub_name path)).
Definition one_name (path : string) : string := default (sub_name path) (a_structNames A (sub_name path)).
(** generate.go 103-182, without the steps for GraphQL (Gql.v), Avro and MessagePack *)
Definition build_structs (n : nat) (schema_path : string) (fs : dir) : option (dir * res unit) :=
  match f_file F (o_abs schema_path) with
  | None => Some (fs, Err)
  | Some doc =>
    match schema_types doc with
    | Ok (alls, ones, props) =>
      let own := match alls, ones, props with [], [], _ => true | _, _, [] => false | _, _, _ => true end in
      let alls := alls ++ (if own then [o_abs schema_path] else []) in
      build_each n 0 schema_path (map (fun p => (p, all_name p, [])) alls ++ map (fun p => (p, one_name p, map all_name alls)) ones) fs
    | Err => Some (fs, Err)
    | Panic => Some (fs, Panic)
    end
  end.
End go_files.

(** What a run of the generator writes, write by write, and the states in which it can be interrupted: generate/generate.go 103-253, graphql.go 76-267,
    avro.go 47-149, avro_helpers.go 97-123, 577-603 as in Whole.v. *)
From stdpp Require Import strings list gmap.
From Coq Require Import Ascii.
From Verif Require Import GoStr Val Conv Schema Inst Load Gen Files Gql Avro GoSrc Mapper Template Whole.

(** a file is created and gets this text; gogen-avro writes the files of a package *)
Inductive write := WOut (f t : string) | WGql (f t : string) | WAvro (p : string) (fs : dir).
Definition apply_write (d : disk) (w : write) : disk :=
  match w with WOut f t => out_put f t d | WGql f t => gql_put f t d | WAvro p fs => avro_put p fs d end.
Definition apply_writes (ws : list write) (d : disk) : disk := foldl apply_write d ws.
(** [cut w w']: the write [w] is interrupted; a file that was created has the first part of its text *)
Inductive cut : write -> write -> Prop :=
| cut_out f t rest : cut (WOut f (t +:+ rest)) (WOut f t)
| cut_gql f t rest : cut (WGql f (t +:+ rest)) (WGql f t)
| cut_avro p fs f t rest more : cut (WAvro p (fs ++ (f, t +:+ rest) :: more)) (WAvro p (fs ++ [(f, t)]))
| cut_avro_between p fs more : cut (WAvro p (fs ++ more)) (WAvro p fs).

Section run.
(** as in Whole.v *)
Context (W : oracles) (F : files) (o_abs : string -> string) (o_fmt : string -> option string).
Context (o_quote o_trim o_quote_avro : string -> string) (o_unquote : string -> option string) (o_tag : afield -> string).
Context (o_types : string -> string) (o_gogen : string -> string -> option dir) (o_declared : dir -> string -> option texpr).
Context (o_join : list string -> string) (o_msgp : dir -> option (option (string * string * string))).
Context (A : run_args) (pkg : string).
Context (ord : nat -> string -> list string -> list string) (ord' : nat -> list string -> list string -> list string).
Notation GA := (r_gql A).
Notation SA := (ga (r_gql A)).
Notation helper_values := (helper_values W o_unquote o_tag o_types o_declared o_join A pkg).
Notation viewed := (viewed o_types).

(** graphql.go 177-249 *)
Fixpoint gql_impls_log (o : string -> list string -> list string) (o' : list string -> list string -> list string)
    (name : string) (all : bool) (common : list qfile) (ms : list instance) (main : string) : list write * res string :=
  match ms with
  | [] => ([], Ok main)
  | m :: ms' =>
    match q_new W GA o m (from_name m) all with
    | Ok g =>
      match (if a_embed SA then seqs (map (fun a => q_new W GA o a (from_name a) false) (n_allOf m)) else Ok []) with
      | Ok more =>
        let common := common ++ more in
        let impl := if all then default (exported W name) (ga_types GA name) else "" in
        let t := q_text W o_quote o_trim GA o' (q_merge common g impl) in
        let main' := if ga_files GA then main else main +:+ t in
        let (ws, r) := gql_impls_log o o' name all common ms' main' in
        ((if ga_files GA then WGql (impl_file name (from_name m)) (q_header +:+ t) else WGql (name +:+ ".graphqls") (main +:+ t)) :: ws, r)
      | Err => ([], Err)
      | Panic => ([], Panic)
      end
    | Err => ([], Err)
    | Panic => ([], Panic)
    end
  end.
(** graphql.go 76-267 *)
Definition build_gql_log (n : nat) (o : string -> list string -> list string) (o' : list string -> list string -> list string)
    (schema_path : string) : option (list write * res unit) :=
  let name := sub_name schema_path in
  let main := name +:+ ".graphqls" in
  let head := q_header +:+ (if ga_any GA then nl +:+ "scalar Any" +:+ nl else "") in
  let path := child_path F o_abs schema_path schema_path in
  match load_schema F name (negb (a_embed SA)) n path with
  | None => None
  | Some Err => Some ([WGql main head], Err)
  | Some Panic => Some ([WGql main head], Panic)
  | Some (Ok schema) =>
    let all := match n_allOf schema with [] => false | _ => true end in
    let base := match n_allOf schema with m :: _ => from_name m | [] => "" end in
    match seqs (map (fun m => q_new W GA o m base false) (n_allOf schema)) with
    | Err => Some ([WGql main head], Err)
    | Panic => Some ([WGql main head], Panic)
    | Ok common =>
      let first := if all then q_text W o_quote o_trim GA o' (q_interface W GA pkg schema common) else "" in
      let ws := [WGql main head; WGql main (head +:+ first)] in
      match gql_impls_log o o' name all common (n_oneOf schema) (head +:+ first) with
      | (ws', Err) => Some (ws ++ ws', Err)
      | (ws', Panic) => Some (ws ++ ws', Panic)
      | (ws', Ok text) =>
        match n_allOf schema, n_oneOf schema with
        | [], [] =>
          match q_new W GA o schema (sub_name path) false with
          | Ok g => Some (ws ++ ws' ++ [WGql main (text +:+ q_text W o_quote o_trim GA o' g)], Ok tt)
          | Err => Some (ws ++ ws', Err)
          | Panic => Some (ws ++ ws', Panic)
          end
        | _, _ => Some (ws ++ ws', Ok tt)
        end
      end
    end
  end.
(** generate.go 224-253 *)
Definition build_struct_log (n i : nat) (schema_path child name : string) (embeds : list string) : option (list write * res unit) :=
  match load_schema F name (negb (a_embed SA)) n (child_path F o_abs schema_path child) with
  | None => None
  | Some (Ok schema) =>
    match new_file W SA (ord i) schema name embeds with
    | Ok g =>
      let file := sub_name (child_path F o_abs schema_path child) +:+ ".go" in
      match o_fmt (file_text W SA (ord' i) pkg g) with
      | Some t => Some ([WOut file t], Ok tt)
      | None => Some ([WOut file ""], Err)
      end
    | Err => Some ([], Err)
    | Panic => Some ([], Panic)
    end
  | Some Err => Some ([], Err)
  | Some Panic => Some ([], Panic)
  end.
(** generate.go 184-209 *)
Definition build_avro_log (fuel : nat) (name file : string) (d : disk) : option (list write * res unit) :=
  let name := exported W name in
  let low := go_lower W name in
  match avro_schema o_unquote W o_quote_avro fuel (viewed (d_out d)) name file with
  | None => None
  | Some Err => Some ([], Err)
  | Some Panic => Some ([], Panic)
  | Some (Ok t) =>
    let w1 := WOut (low +:+ ".avsc") t in
    let p := sub_name (low +:+ ".avsc") in
    match o_gogen p t with
    | None => Some ([w1], Err)
    | Some fs =>
      let w2 := WAvro p fs in
      match helper_values fuel name file (apply_writes [w1; w2] d) with
      | None => None
      | Some None => Some ([w1; w2], Err)
      | Some (Some vals) =>
        match o_fmt (fill vals avro_template) with
        | None => Some ([w1; w2], Err)
        | Some h =>
          let w3 := WOut (low +:+ "_avro.go") h in
          match o_fmt (fill vals avro_test_template) with
          | None => Some ([w1; w2; w3], Err)
          | Some h' => Some ([w1; w2; w3; WOut (low +:+ "_avro_test.go") h'], Ok tt)
          end
        end
      end
    end
  end.
(** generate.go 136-173 *)
Fixpoint build_members_log (n fuel i : nat) (schema_path : string) (ms : list (string * string * list string)) (d : disk) : option (list write * res unit) :=
  match ms with
  | [] => Some ([], Ok tt)
  | (child, name, embeds) :: ms' =>
    match build_struct_log n i schema_path child name embeds with
    | Some (ws, Ok _) =>
      match (if r_avro A then build_avro_log fuel name (sub_name (child_path F o_abs schema_path child) +:+ ".go") (apply_writes ws d) else Some ([], Ok tt)) with
      | Some (ws', Ok _) =>
        match build_members_log n fuel (S i) schema_path ms' (apply_writes (ws ++ ws') d) with
        | Some (ws'', r) => Some (ws ++ ws' ++ ws'', r)
        | None => None
        end
      | Some (ws', r) => Some (ws ++ ws', r)
      | None => None
      end
    | x => x
    end
  end.
(** generate.go 211-222 *)
Definition build_msgp_log (d : disk) : list write * res unit :=
  match o_msgp (d_out d) with
  | None => ([], Err)
  | Some None => ([], Ok tt)
  | Some (Some (p, t, t')) => ([WOut (p +:+ "_msgp.go") t; WOut (p +:+ "_msgp_test.go") t'], Ok tt)
  end.
(** generate.go 103-182: all that a run writes, in order *)
Definition run_log (n fuel : nat) (og : string -> list string -> list string) (og' : list string -> list string -> list string)
    (schema_path : string) (d : disk) : option (list write * res unit) :=
  match f_file F (o_abs schema_path) with
  | None => Some ([], Err)
  | Some doc =>
    match schema_types doc with
    | Err => Some ([], Err)
    | Panic => Some ([], Panic)
    | Ok (alls, ones, props) =>
      match (if r_graphql A then build_gql_log n og og' schema_path else Some ([], Ok tt)) with
      | Some (ws, Ok _) =>
        match build_members_log n fuel 0 schema_path (members_of W o_abs A schema_path alls ones props) (apply_writes ws d) with
        | Some (ws', Ok _) =>
          if r_msgp A then let (ws'', r) := build_msgp_log (apply_writes (ws ++ ws') d) in Some (ws ++ ws' ++ ws'', r) else Some (ws ++ ws', Ok tt)
        | Some (ws', r) => Some (ws ++ ws', r)
        | None => None
        end
      | x => x
      end
    end
  end.
(** [interrupted d d1]: a run that begins in [d] is interrupted in [d1]: between two writes or in a write *)
Definition interrupted (n fuel : nat) (og : string -> list string -> list string) (og' : list string -> list string -> list string)
    (schema_path : string) (d d1 : disk) : Prop :=
  exists before w after r, run_log n fuel og og' schema_path d = Some (before ++ w :: after, r) /\
    (d1 = apply_writes before d \/ exists w', cut w w' /\ d1 = apply_write (apply_writes before d) w').
End run.
(** the text of a file *)
Inductive place := POut (f : string) | PGql (f : string) | PAvro (p f : string).
Definition content (d : disk) (x : place) : option string :=
  match x with POut f => assocd f (d_out d) | PGql f => assocd f (d_gql d) | PAvro p f => assocd p (d_avro d) ≫= assocd f end.

(** Runs of the generator in which calls that write files fail: generate/generate.go 103-253, graphql.go 76-267, avro.go 47-149, 262-375,
    avro_helpers.go 97-123, 577-603 as in Whole.v and Crash.v. *)
From stdpp Require Import strings list gmap.
From Coq Require Import Ascii.
From Verif Require Import GoStr Val Conv Schema Inst Load Gen Files Gql Avro GoSrc Mapper Template Whole Crash.

(** the calls that write: os.Create, Write and Close of a Go file (generate.go 245-251), of an Avro schema (avro.go 111, 130-132, 143), of a file for
    GraphQL (graphql.go 78-265), os.WriteFile of the helpers (avro_helpers.go 596), WriteFiles of gogen-avro (avro.go 76-81), PrintFile of msgp
    (generate.go 221). Simplification: creating and writing a file for GraphQL, of helpers, gogen-avro and msgp count as one call. *)
Inductive call :=
| GoCreate (f : string) | GoWrite (f : string) | GoClose (f : string)
| AvscCreate (f : string) | AvscPiece (f : string) | AvscClose (f : string)
| GqlWrite (f : string) | GqlClose (f : string) | HelperWrite (f : string) | AvroPackage (p : string) | MsgpWrite (f : string).
(** the number of calls so far, those that failed, the files *)
Record io := Io { io_calls : nat; io_failed : list call; io_disk : disk }.
(** the first bytes of a text *)
Definition first_bytes (k : nat) (t : string) : string := String.substring 0 k t.
Definition glue (ps : list string) : string := foldr String.append "" ps.

(** ** avro.go 262-375: the pieces in which an Avro schema is written *)
Section pieces.
Context (W : oracles) (o_quote : string -> string) (E : sources).
Notation pieces := (option (list string * list string)).
(** avro.go 280-283, 364-371 *)
Fixpoint list_pieces (fuel : nat) (ns excl : list string) (ls : list (list afield)) (seen : list string) : pieces :=
  match fuel with
  | O => None
  | S n =>
    match ls with
    | [] => Some ([], seen)
    | fs :: ls' =>
      obind (fields_pieces n ns excl (field_map fs) (num_fields fs) 0 fs seen) (fun '(t1, seen1) =>
      obind (list_pieces n ns excl ls' seen1) (fun '(t2, seen2) => Some (t1 ++ t2, seen2)))
    end
  end
(** avro.go 338-354 *)
with fields_pieces (fuel : nat) (ns excl own : list string) (len i : nat) (fs : list afield) (seen : list string) : pieces :=
  match fuel with
  | O => None
  | S n =>
    match fs with
    | [] => Some ([], seen)
    | f :: fs' =>
      obind (field_pieces n ns excl own f seen) (fun '(r, seen1) =>
      obind (fields_pieces n ns excl own len (S i) fs' seen1) (fun '(t2, seen2) =>
      Some (match r with Some t1 => t1 ++ (if decide (S i = len) then [] else [","]) ++ t2 | None => t2 end, seen2)))
    end
  end
(** avro.go 295-334, 356-375; nested structs are written to a buffer, 449-461 *)
with field_pieces (fuel : nat) (ns excl own : list string) (f : afield) (seen : list string) : option (option (list string) * list string) :=
  match fuel with
  | O => None
  | S n =>
    match af_names f with
    | [] =>
      match af_type f with
      | EIdent e =>
        if decide (e ∈ seen) then Some (None, seen) else
        obind (struct_to_filename W e) (fun file =>
        match src_file E file e with
        | None => Some (Some ["{""type"":""embedded struct not found""}"], seen)
        | Some t => obind (list_pieces n (ns ++ [e]) own (field_lists t) seen) (fun '(txt, seen1) => Some (Some txt, e :: seen1))
        end)
      | _ => Some (None, seen)
      end
    | go :: _ =>
      if decide (go ∈ excl) then Some (None, seen) else
      let name := if decide (tag_name f = "") then go else tag_name f in
      obind (conv_type W o_quote E n ns (af_type f) name (tag_omit W f) seen) (fun '(ty, seen1) =>
      Some (Some [field_text o_quote ns name (af_desc f) ty], seen1))
    end
  end.
End pieces.

Section run.
(** as in Whole.v *)
Context (W : oracles) (F : files) (o_abs : string -> string) (o_fmt : string -> option string).
Context (o_quote o_trim o_quote_avro : string -> string) (o_unquote : string -> option string) (o_tag : afield -> string).
Context (o_types : string -> string) (o_gogen : string -> string -> option dir) (o_declared : dir -> string -> option texpr).
Context (o_join : list string -> string) (o_msgp : dir -> option (option (string * string * string))).
Context (A : run_args) (pkg : string).
Context (ord : nat -> string -> list string -> list string) (ord' : nat -> list string -> list string -> list string).
(** the call of this number fails, and this much was written until then *)
Context (flt : nat -> option nat).
Notation GA := (r_gql A).
Notation SA := (ga (r_gql A)).
Notation helper_values := (helper_values W o_unquote o_tag o_types o_declared o_join A pkg).
Notation viewed := (viewed o_types).

(** a call, and how it ends *)
Definition ask (c : call) (s : io) : option nat * io :=
  match flt (io_calls s) with
  | None => (None, Io (S (io_calls s)) (io_failed s) (io_disk s))
  | Some k => (Some k, Io (S (io_calls s)) (io_failed s ++ [c]) (io_disk s))
  end.
Definition write_to (w : write) (s : io) : io := Io (io_calls s) (io_failed s) (apply_write (io_disk s) w).
(** what a failed call leaves of a write *)
Definition short (k : nat) (w : write) : write :=
  match w with WOut f t => WOut f (first_bytes k t) | WGql f t => WGql f (first_bytes k t) | WAvro p fs => WAvro p (take k fs) end.
(** a call whose error ends the run *)
Definition checked (c : call) (w : write) (s : io) : io * bool :=
  match ask c s with (None, s) => (write_to w s, true) | (Some k, s) => (write_to (short k w) s, false) end.

(** graphql.go 76-267: all errors are returned; the file of the schema is closed at the end *)
Fixpoint gql_writes (ws : list write) (s : io) : io * bool :=
  match ws with
  | [] => (s, true)
  | w :: ws' =>
    let c := GqlWrite match w with WOut f _ | WGql f _ => f | WAvro p _ => p end in
    match checked c w s with (s, true) => gql_writes ws' s | x => x end
  end.
Definition gql_faulty (n : nat) (o : string -> list string -> list string) (o' : list string -> list string -> list string)
    (schema_path : string) (s : io) : option (io * res unit) :=
  match build_gql_log W F o_abs o_quote o_trim A pkg n o o' schema_path with
  | None => None
  | Some (ws, r) =>
    match gql_writes ws s with
    | (s, false) => Some (s, Err)
    | (s, true) =>
      match r with
      | Ok _ =>
        let main := sub_name schema_path +:+ ".graphqls" in
        match ask (GqlClose main) s with
        | (None, s) => Some (s, Ok tt)
        | (Some k, s) => Some (write_to (short k (WGql main (default "" (assocd main (d_gql (io_disk s)))))) s, Err)
        end
      | r => Some (s, r)
      end
    end
  end.
(** generate.go 240-252: what Close says is dropped. If the text cannot be formatted nothing is written, struct.go 282-285. *)
Definition go_faulty (n i : nat) (schema_path child name : string) (embeds : list string) (s : io) : option (io * res unit) :=
  match build_struct_log W F o_abs o_fmt A pkg ord ord' n i schema_path child name embeds with
  | None => None
  | Some ([WOut f t], r) =>
    match ask (GoCreate f) s with
    | (Some _, s) => Some (s, Err)
    | (None, s) =>
      match (match r with Ok _ => checked (GoWrite f) (WOut f t) s | _ => (write_to (WOut f t) s, true) end) with
      | (s, false) => Some (snd (ask (GoClose f) s), Err)
      | (s, true) =>
        match ask (GoClose f) s with
        | (None, s) => Some (s, r)
        | (Some k, s) => Some (write_to (short k (WOut f t)) s, r)
        end
      end
    end
  | Some (_, r) => Some (s, r)
  end.
(** avro.go 130-132 and 332, 351, 360: what these calls return is dropped *)
Fixpoint put_pieces (f : string) (ps : list string) (t : string) (s : io) : string * io :=
  match ps with
  | [] => (t, s)
  | p :: ps' =>
    match ask (AvscPiece f) s with
    | (None, s) => put_pieces f ps' (t +:+ p) s
    | (Some k, s) => put_pieces f ps' (t +:+ first_bytes k p) s
    end
  end.
(** avro.go 111-148. If the header is not written (269), the fields are left out. *)
Definition avsc_faulty (f head : string) (ps : list string) (s : io) : io * bool :=
  match ask (AvscCreate f) s with
  | (Some _, s) => (s, false)
  | (None, s) =>
    let (t, s) := put_pieces f ["{"] "" s in
    let (t, s) :=
      match ask (AvscPiece f) s with
      | (None, s) => put_pieces f ps (t +:+ head) s
      | (Some k, s) => (t +:+ first_bytes k head, s)
      end in
    let (t, s) := put_pieces f ["]}"] t s in
    checked (AvscClose f) (WOut f t) s
  end.
(** generate.go 184-209 *)
Definition avro_faulty (fuel : nat) (name file : string) (s : io) : option (io * res unit) :=
  let name := exported W name in
  let low := go_lower W name in
  let avsc := low +:+ ".avsc" in
  let fs := viewed (d_out (io_disk s)) in
  match struct_in_file fs file name with
  | None => Some (s, Err)
  | Some ty =>
    match list_pieces W o_quote_avro (sources_of o_unquote fs) fuel [] [] (field_lists (to_texpr o_unquote ty)) [] with
    | None => None
    | Some (ps, _) =>
      match avsc_faulty avsc (header o_quote_avro [] name metadata) ps s with
      | (s, false) => Some (s, Err)
      | (s, true) =>
        let p := sub_name avsc in
        match o_gogen p (default "" (assocd avsc (d_out (io_disk s)))) with
        | None => Some (s, Err)
        | Some fs =>
          match checked (AvroPackage p) (WAvro p fs) s with
          | (s, false) => Some (s, Err)
          | (s, true) =>
            match helper_values fuel name file (io_disk s) with
            | None => None
            | Some None => Some (s, Err)
            | Some (Some vals) =>
              match o_fmt (fill vals avro_template) with
              | None => Some (s, Err)
              | Some h =>
                match checked (HelperWrite (low +:+ "_avro.go")) (WOut (low +:+ "_avro.go") h) s with
                | (s, false) => Some (s, Err)
                | (s, true) =>
                  match o_fmt (fill vals avro_test_template) with
                  | None => Some (s, Err)
                  | Some h' =>
                    match checked (HelperWrite (low +:+ "_avro_test.go")) (WOut (low +:+ "_avro_test.go") h') s with
                    | (s, false) => Some (s, Err)
                    | (s, true) => Some (s, Ok tt)
                    end
                  end
                end
              end
            end
          end
        end
      end
    end
  end.
(** generate.go 136-173 *)
Fixpoint members_faulty (n fuel i : nat) (schema_path : string) (ms : list (string * string * list string)) (s : io) : option (io * res unit) :=
  match ms with
  | [] => Some (s, Ok tt)
  | (child, name, embeds) :: ms' =>
    match go_faulty n i schema_path child name embeds s with
    | Some (s, Ok _) =>
      match (if r_avro A then avro_faulty fuel name (sub_name (child_path F o_abs schema_path child) +:+ ".go") s else Some (s, Ok tt)) with
      | Some (s, Ok _) => members_faulty n fuel (S i) schema_path ms' s
      | x => x
      end
    | x => x
    end
  end.
(** generate.go 211-222 *)
Definition msgp_faulty (s : io) : io * res unit :=
  match o_msgp (d_out (io_disk s)) with
  | None => (s, Err)
  | Some None => (s, Ok tt)
  | Some (Some (p, t, t')) =>
    match checked (MsgpWrite (p +:+ "_msgp.go")) (WOut (p +:+ "_msgp.go") t) s with
    | (s, false) => (s, Err)
    | (s, true) =>
      match checked (MsgpWrite (p +:+ "_msgp_test.go")) (WOut (p +:+ "_msgp_test.go") t') s with
      | (s, false) => (s, Err)
      | (s, true) => (s, Ok tt)
      end
    end
  end.
(** generate.go 103-182 BuildStructsWithArgs *)
Definition run_faulty (n fuel : nat) (og : string -> list string -> list string) (og' : list string -> list string -> list string)
    (schema_path : string) (d : disk) : option (io * res unit) :=
  let s := Io 0 [] d in
  match f_file F (o_abs schema_path) with
  | None => Some (s, Err)
  | Some doc =>
    match schema_types doc with
    | Err => Some (s, Err)
    | Panic => Some (s, Panic)
    | Ok (alls, ones, props) =>
      match (if r_graphql A then gql_faulty n og og' schema_path s else Some (s, Ok tt)) with
      | Some (s, Ok _) =>
        match members_faulty n fuel 0 schema_path (members_of W o_abs A schema_path alls ones props) s with
        | Some (s, Ok _) => Some (if r_msgp A then msgp_faulty s else (s, Ok tt))
        | x => x
        end
      | x => x
      end
    end
  end.
End run.

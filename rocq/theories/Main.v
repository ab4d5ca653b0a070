(** main.go 40-125: the command, with the parsing of package flag (standard library, Go 1.25: FlagSet.parseOne and Parse). *)
From stdpp Require Import strings list gmap.
From Coq Require Import Ascii.
From Verif Require Import GoStr Val Conv Gen Files Gql Load Whole Flags.

(** the options, main.go 45-61 *)
Inductive kind := KBool | KString | KMap.
Definition kind_of (name : string) : option kind :=
  if decide (name ∈ ["interfaceFiles"; "nestedStructs"; "pointers"; "descriptionAsStructTag"; "embedAllOf"; "avro"; "msgp"; "graphql"; "scalarAny"]) then Some KBool
  else if decide (name ∈ ["outputPathGraphQL"; "importPath"]) then Some KString
  else if decide (name ∈ ["rename"; "renameFields"; "renameGraphQLType"]) then Some KMap
  else None.
(** the variables of the options, by name, with their defaults *)
Record values := Values { v_bool : string -> bool; v_string : string -> string; v_map : string -> gmap string string }.
Definition defaults : values :=
  Values (fun n => bool_decide (n ∈ ["nestedStructs"; "descriptionAsStructTag"; "embedAllOf"])) (fun _ => "") (fun _ => ∅).
Definition upd {X} (f : string -> X) (n : string) (x : X) : string -> X := fun m => if decide (m = n) then x else f m.
(** strconv.ParseBool *)
Definition parse_bool (v : string) : option bool :=
  if decide (v ∈ ["1"; "t"; "T"; "TRUE"; "true"; "True"]) then Some true
  else if decide (v ∈ ["0"; "f"; "F"; "FALSE"; "false"; "False"]) then Some false else None.
(** flag.Value.Set; None: an error *)
Definition set_value (k : kind) (n v : string) (o : values) : option values :=
  match k with
  | KBool => (fun b => Values (upd (v_bool o) n b) (v_string o) (v_map o)) <$> parse_bool v
  | KString => Some (Values (v_bool o) (upd (v_string o) n v) (v_map o))
  | KMap => match set_flag (v_map o n) v with (m, true) => Some (Values (v_bool o) (v_string o) (upd (v_map o) n m)) | (_, false) => None end
  end.
(** parseOne: the name after the dashes, cut at the first "=" that is not the first character *)
Definition cut_value (s : string) : string * option string :=
  match s with
  | "" => ("", None)
  | String a s' => match cut_eq s' with Some (n, v) => (String a n, Some v) | None => (s, None) end
  end.
Inductive parsed := PDone (o : values) (rest : list string) | PHelp | PBad.
(** parseOne: [Some name]: an option, after its dashes; None: not an option *)
Definition option_text (a : string) : option string :=
  match a with
  | String "-" (String "-" s) => Some s
  | String "-" (String b s) => Some (String b s)
  | _ => None
  end.
(** FlagSet.Parse *)
Fixpoint parse (args : list string) (o : values) : parsed :=
  match args with
  | [] => PDone o []
  | a :: rest =>
    match option_text a with
    | None => PDone o args
    | Some s =>
      if decide (a = "--") then PDone o rest else
      match s with
      | "" => PBad
      | String c _ =>
        if decide (c = "-"%char \/ c = "="%char) then PBad else
        let (n, v) := cut_value s in
        match kind_of n with
        | None => if decide (n = "help" \/ n = "h") then PHelp else PBad
        | Some KBool => match set_value KBool n (default "true" v) o with Some o' => parse rest o' | None => PBad end
        | Some k =>
          match v, rest with
          | Some v, _ => match set_value k n v o with Some o' => parse rest o' | None => PBad end
          | None, v :: rest' => match set_value k n v o with Some o' => parse rest' o' | None => PBad end
          | None, [] => PBad
          end
        end
      end
    end
  end.

(** generate.go 48-66 BuildArgs *)
Record build_args := BuildArgs {
  b_schema : string; b_out : string; b_out_gql : string;
  b_desc_tag : bool; b_no_nested : bool; b_pointers : bool; b_interface_files : bool;
  b_avro : bool; b_msgp : bool; b_graphql : bool; b_import : string;
  b_structs : gmap string string; b_fields : gmap string string; b_types : gmap string string;
  b_embed : bool; b_any : bool
}.
(** how the command ends; a panic of Go ends it with 2 *)
Section main.
(** [o_abs]: filepath.Abs, None: an error; [build]: generate.BuildStructsWithArgs on the files, None: it does not return *)
Context (disk : Type) (o_abs : string -> option string) (build : build_args -> disk -> option (disk * res unit)).
(** main.go 99-124 *)
Definition args_for (o : values) (input output : string) : build_args :=
  BuildArgs input output (v_string o "outputPathGraphQL")
    (v_bool o "descriptionAsStructTag") (negb (v_bool o "nestedStructs")) (v_bool o "pointers") (v_bool o "interfaceFiles")
    (v_bool o "avro") (v_bool o "msgp") (v_bool o "graphql") (v_string o "importPath")
    (v_map o "rename") (v_map o "renameFields") (v_map o "renameGraphQLType") (v_bool o "embedAllOf") (v_bool o "scalarAny").
Definition generate (b : build_args) (d : disk) : option (disk * nat) :=
  match build b d with
  | None => None
  | Some (d', Ok _) => Some (d', 0)
  | Some (d', Err) => Some (d', 4)
  | Some (d', Panic) => Some (d', 2)
  end.
(** main.go 40-125: the files and the exit code; flag.Parse exits with 0 for help and with 2 for errors *)
Definition main (args : list string) (d : disk) : option (disk * nat) :=
  match parse args defaults with
  | PHelp => Some (d, 0)
  | PBad => Some (d, 2)
  | PDone o [] => Some (d, 1)
  | PDone o (input :: more) =>
    if v_bool o "avro" && bool_decide (v_string o "importPath" = "") then Some (d, 1)
    else if v_bool o "graphql" && bool_decide (v_string o "importPath" = "") then Some (d, 1)
    else
      match o_abs input with
      | None => Some (d, 2)
      | Some inp =>
        match more with
        | [] => generate (args_for o inp "") d
        | output :: _ => match o_abs output with None => Some (d, 3) | Some out => generate (args_for o inp out) d end
        end
      end
  end.
End main.

(** generate.go 103-116: the directories, and the options as Whole.v takes them. [o_wd]: the working directory, None: an error. [o_base]: filepath.Base.
    [gen] is the run of Whole.v in the two directories, with the options, the name of the package and the path of the schema. *)
Definition run_args_of (b : build_args) : run_args :=
  RunArgs (GArgs (Args (b_desc_tag b) (b_no_nested b) (b_pointers b) (b_embed b) (fun n => b_structs b !! n) (fun n => b_fields b !! n))
             (fun n => b_types b !! n) (b_import b) (b_interface_files b) (b_any b)) (b_graphql b) (b_avro b) (b_msgp b).
Definition build_with {disk} (o_wd : option string) (o_base : string -> string)
    (gen : string -> string -> run_args -> string -> string -> disk -> option (disk * res unit)) (b : build_args) (d : disk) : option (disk * res unit) :=
  match (if decide (b_out b = "") then o_wd else Some (b_out b)) with
  | None => Some (d, Err)
  | Some out => gen out (if decide (b_out_gql b = "") then out else b_out_gql b) (run_args_of b) (o_base out) (b_schema b) d
  end.
(** generate.go 69-76 BuildStructs and 79-87 BuildStructsRename; a nil map is an empty map *)
Definition struct_args (schema out : string) (msgp : bool) (names : gmap string string) : build_args :=
  BuildArgs schema out "" true false false false false msgp false "" names ∅ ∅ false false.

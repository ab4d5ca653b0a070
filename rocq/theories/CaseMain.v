(** Command lines for the examples of PropsMain. *)
From stdpp Require Import strings list gmap.
From Coq Require Import Ascii.
From Verif Require Import GoStr Val Conv Schema Inst Load World Cases CaseGen CaseLoad Gen Files CaseFiles Gql Avro GoSrc Mapper CaseMapper CaseGo Whole CaseWhole SpecFlags FlagsL Main SpecMain.

(** the command in a directory where paths are found below "/s", that makes files of the schemas of CaseWhole *)
Definition abs_in (p : string) : option string := if decide (p = "") then None else Some (in_s p).
Definition gen_in (out gql : string) (A : run_args) (pkg sp : string) : disk -> option (disk * res unit) :=
  run W0 shelf_files in_s fmt_same id id id no_unquote (fun _ => "") id gogen (fun _ => shelf_avro) (join "/") msgp A pkg order_same keys_same 3 20 same_order as_is sp.
Definition base_in (p : string) : string := if decide (p = "/s/out") then "out" else "pkg".
Definition build_in : build_args -> disk -> option (disk * res unit) := build_with (Some "/s") base_in gen_in.
Definition command (args : list string) : option (disk * nat) := main disk abs_in build_in args nothing.
(** the names of the files and the exit code *)
Definition told (x : option (disk * nat)) : option (list string * list string * list string * nat) :=
  (fun p : disk * nat => ((d_out p.1).*1, (d_gql p.1).*1, (d_avro p.1).*1, p.2)) <$> x.
(** `-rename clip=Video --embedAllOf=0 -descriptionAsStructTag=false -graphql -importPath=x/y shelf.json out` *)
Definition line : list string := ["-rename"; "clip=Video"; "--embedAllOf=0"; "-descriptionAsStructTag=false"; "-graphql"; "-importPath=x/y"; "shelf.json"; "out"].
Definition line_options : list (string * string) := [("rename", "clip=Video"); ("embedAllOf", "0"); ("descriptionAsStructTag", "false"); ("graphql", "true"); ("importPath", "x/y")].
Ltac listed_in := apply (bool_decide_eq_true_1 _); vm_compute; reflexivity.
Ltac unlisted := apply (bool_decide_eq_false_1 _); vm_compute; reflexivity.
Lemma line_written : starts line line_options ["shelf.json"; "out"].
Proof.
  change line with (["-" +:+ "rename"; "clip=Video"] ++ ["--" +:+ "embedAllOf" +:+ "=" +:+ "0"] ++ ["-" +:+ "descriptionAsStructTag" +:+ "=" +:+ "false"] ++ ["-" +:+ "graphql"] ++
    ["-" +:+ "importPath" +:+ "=" +:+ "x/y"] ++ ["shelf.json"; "out"]).
  repeat (apply starts_cons; [first [apply writes_equals; [first [by left|by right]|listed_in]|apply writes_next; [by left|listed_in]|apply writes_switch; [by left|listed_in]]|]). apply starts_nil.
Qed.
Lemma line_valid : Forall valid line_options.
Proof.
  repeat (apply Forall_cons; split; [split; cbn; intros H; first [listed_in|exfalso; revert H; unlisted|idtac]|]); [|by apply Forall_nil].
  intros (parts & p & E & Hc & Hp & He). assert (Ep : parts = ["clip=Video"]).
  { destruct parts as [|x [|y parts]]; [done|by cbn in E; subst|]. exfalso. cbn in E. assert (Hb : without ","%char "clip=Video") by (by apply without_free).
    apply Hb. eexists x, _. exact E. }
  subst. apply elem_of_list_singleton in Hp as ->. apply He. by exists "clip", "Video".
Qed.
Lemma line_options_of : options_of line line_options ["shelf.json"; "out"].
Proof. exists ["shelf.json"; "out"]. split_and!; [exact line_written| |exact line_valid]. apply ends_word. left. intros [x E]. done. Qed.

(** Interrupted runs for the examples and refutations of PropsCrash. *)
From stdpp Require Import strings list gmap.
From Verif Require Import GoStr Val Conv Schema Inst Load FlatL SpecPath SpecLoad SpecGen SpecNamed SpecFiles WalkL Gen GenP World Cases CaseGen CaseLoad Files CaseFiles Gql Avro GoSrc Mapper CaseMapper CaseGo SpecAvro SpecGo SpecEmbed SpecWhole WholeL Whole CaseWhole Crash.

Definition meta_doc : tree := obj_of [("meta", obj_of [("x", typed "string" [])] [])] [].
Definition desk_doc : tree := TObj [("allOf", TArr [ref_to "base.json" []]); ("oneOf", TArr [ref_to "image.json" []])].
Definition desk_files : files := files_in [("/s/desk.json", desk_doc); ("/s/base.json", meta_doc); ("/s/image.json", text_field "src")].
Definition flat_args : args := Args false true false false no_names no_names.
(** what is no declaration of a type is left out *)
Definition only_types (t : string) : string := if str_in "func " t then "package pkg" else t.
(** gogen-avro refuses types that are not known *)
Definition gogen_known (p t : string) : option dir := if str_in "unknown" t then None else gogen p t.
Definition desk_avro : string -> option texpr :=
  pkg_of [("Base", meta ++ [fd "Meta" (EStar (EIdent "Meta_record"))]); ("Meta_record", [fd "X" opt_string]);
          ("Image", meta ++ [fd "Meta" (EStar (EIdent "Meta_record")); fd "Src" opt_string]); union "UnionNullString" "String" str].
(** msgp refuses directories with files that are not Go *)
Definition msgp_strict (fs : dir) : option (option (string * string * string)) :=
  if forallb (fun f : string * string => negb (has_suffix ".go" f.1) || str_in "package " f.2) fs then msgp fs else None.
Notation desk_run A := (run W0 desk_files in_s fmt_same id id id no_unquote (fun _ => "") only_types gogen_known (fun _ => desk_avro) (join "/") msgp_strict A "pkg" order_same keys_same 3 20 same_order as_is "desk.json").
Notation desk_log A := (run_log W0 desk_files in_s fmt_same id id id no_unquote (fun _ => "") only_types gogen_known (fun _ => desk_avro) (join "/") msgp_strict A "pkg" order_same keys_same 3 20 same_order as_is "desk.json").
Notation desk_interrupted A := (interrupted W0 desk_files in_s fmt_same id id id no_unquote (fun _ => "") only_types gogen_known (fun _ => desk_avro) (join "/") msgp_strict A "pkg" order_same keys_same 3 20 same_order as_is "desk.json").
(** the names of what is written *)
Definition named (w : write) : string := match w with WOut f _ => f | WGql f _ => f | WAvro p _ => "avro/" +:+ p end.
Definition names_written (x : option (list write * res unit)) : option (list string * res unit) := (fun y : list write * res unit => (map named y.1, y.2)) <$> x.
(** the state before the write [k], and in it, after the first [m] characters *)
Definition state_before (k : nat) (x : option (list write * res unit)) (d : disk) : disk := match x with Some (ws, _) => apply_writes (take k ws) d | None => d end.
Definition cut_at (m : nat) (w : write) : write :=
  match w with WOut f t => WOut f (String.substring 0 m t) | WGql f t => WGql f (String.substring 0 m t) | WAvro p fs => WAvro p (take m fs) end.
Definition state_in (k m : nat) (x : option (list write * res unit)) (d : disk) : disk :=
  match x with Some (ws, _) => match ws !! k with Some w => apply_write (apply_writes (take k ws) d) (cut_at m w) | None => d end | None => d end.
Definition reached (x : option (disk * res unit)) : disk := match x with Some (d, _) => d | None => nothing end.
Lemma substring_prefix m t : exists rest, t = String.substring 0 m t +:+ rest.
Proof.
  revert m. induction t as [|c t IH]; intros m; [exists ""; by destruct m|]. destruct m as [|m]; [by exists (String c t)|]. destruct (IH m) as [rest E]. exists rest. change (String c t = String c (String.substring 0 m t +:+ rest)). by rewrite <- E.
Qed.
Lemma cut_cut m w : cut w (cut_at m w).
Proof.
  destruct w as [f t|f t|p fs]; cbn.
  - destruct (substring_prefix m t) as [rest E]. rewrite E at 1. constructor.
  - destruct (substring_prefix m t) as [rest E]. rewrite E at 1. constructor.
  - rewrite <- (take_drop m fs) at 1. constructor.
Qed.
(** the states in which the run of the examples is interrupted *)
Lemma desk_stopped A k m d : (exists ws r, desk_log A d = Some (ws, r) /\ k < length ws) -> desk_interrupted A d (state_in k m (desk_log A d) d).
Proof.
  intros (ws & r & E & Hk). destruct (lookup_lt_is_Some_2 ws k Hk) as [w Hw]. exists (take k ws), w, (drop (S k) ws), r. split; [by rewrite take_drop_middle|].
  right. exists (cut_at m w). split; [apply cut_cut|]. unfold state_in. by rewrite E, Hw.
Qed.
Lemma desk_avro_fails : exists d1 d' d'', desk_interrupted (whole_args flat_args false true false) nothing d1 /\
  desk_run (whole_args flat_args false true false) nothing = Some (d', Ok tt) /\
  desk_run (whole_args flat_args false true false) d1 = Some (d'', Err) /\ content d1 (POut "image.go") = Some "" /\ content d'' (POut "image.go") = Some "".
Proof.
  exists (state_in 5 0 (desk_log (whole_args flat_args false true false) nothing) nothing), (reached (desk_run (whole_args flat_args false true false) nothing)),
    (reached (desk_run (whole_args flat_args false true false) (state_in 5 0 (desk_log (whole_args flat_args false true false) nothing) nothing))).
  split; [apply desk_stopped; eexists _, _; split; [vm_compute; reflexivity|cbn; lia]|]. split_and!; [vm_compute; reflexivity..].
Qed.
Lemma desk_msgp_fails : exists d1 d' d'', desk_interrupted (whole_args flat_args false false true) nothing d1 /\
  desk_run (whole_args flat_args false false true) nothing = Some (d', Ok tt) /\
  desk_run (whole_args flat_args false false true) d1 = Some (d'', Err) /\ content d1 (POut "pkg_msgp.go") = Some "pack" /\ content d'' (POut "pkg_msgp.go") = Some "pack".
Proof.
  exists (state_in 2 4 (desk_log (whole_args flat_args false false true) nothing) nothing), (reached (desk_run (whole_args flat_args false false true) nothing)),
    (reached (desk_run (whole_args flat_args false false true) (state_in 2 4 (desk_log (whole_args flat_args false false true) nothing) nothing))).
  split; [apply desk_stopped; eexists _, _; split; [vm_compute; reflexivity|cbn; lia]|]. split_and!; [vm_compute; reflexivity..].
Qed.

(** C83: what a run of the generator reports when calls that write files fail. *)
From stdpp Require Import strings list gmap.
From Verif Require Import GoStr Val Conv Schema Inst Load FlatL SpecPath SpecLoad SpecGen SpecNamed SpecFiles WalkL Gen GenP World Cases CaseGen CaseLoad Files CaseFiles.
From Verif Require Import Gql Avro GoSrc Mapper CaseMapper CaseGo SpecAvro SpecGo SpecEmbed SpecWhole WholeL Whole CaseWhole Crash CaseCrash Fault SpecFault FaultL FaultP FaultQ CaseFault.

(** When no call fails the run is that of C76. *)
Theorem C83_no_failures W F o_abs o_fmt o_quote o_trim o_quote_avro o_unquote o_tag o_types o_gogen o_declared o_join o_msgp A pkg ord ord' n fuel og og' sp d :
  (fun x : io * res unit => (io_disk x.1, io_failed x.1, x.2)) <$>
    run_faulty W F o_abs o_fmt o_quote o_trim o_quote_avro o_unquote o_tag o_types o_gogen o_declared o_join o_msgp A pkg ord ord' (fun _ => None) n fuel og og' sp d =
  (fun x : disk * res unit => (x.1, [], x.2)) <$>
    run W F o_abs o_fmt o_quote o_trim o_quote_avro o_unquote o_tag o_types o_gogen o_declared o_join o_msgp A pkg ord ord' n fuel og og' sp d.
Proof. exact (run_fine W F o_abs o_fmt o_quote o_trim o_quote_avro o_unquote o_tag o_types o_gogen o_declared o_join o_msgp A pkg ord ord' n fuel og og' sp d). Qed.
Print Assumptions C83_no_failures.
Example C83_no_failures_case : told (card_run (whole_args flat_args true true true) (fun _ => None)) = Some ([], Ok tt).
Proof. vm_compute. reflexivity. Qed.

(** Whichever calls fail: the run ends with an error, or all calls that failed were those of two kinds, the closing of a Go file and the writing of a
    piece of an Avro schema. *)
Theorem C83_reported_partial W F o_abs o_fmt o_quote o_trim o_quote_avro o_unquote o_tag o_types o_gogen o_declared o_join o_msgp A pkg ord ord' flt n fuel og og' sp d s r :
  run_faulty W F o_abs o_fmt o_quote o_trim o_quote_avro o_unquote o_tag o_types o_gogen o_declared o_join o_msgp A pkg ord ord' flt n fuel og og' sp d = Some (s, r) ->
  Forall unnoticed (io_failed s) \/ r = Err.
Proof. exact (faults_reported W F o_abs o_fmt o_quote o_trim o_quote_avro o_unquote o_tag o_types o_gogen o_declared o_join o_msgp A pkg ord ord' flt n fuel og og' sp d s r). Qed.
Print Assumptions C83_reported_partial.
(** creating a file for GraphQL fails; writing a Go file fails; writing the helpers fails *)
Example C83_reported_case : told (card_run (whole_args flat_args true false false) (failing [0])) = Some ([GqlWrite "card.graphqls"], Err) /\
  told (card_run (whole_args flat_args true false false) (failing [5])) = Some ([GoWrite "card.go"], Err) /\
  told (card_run (whole_args flat_args false true false) (failing [12])) = Some ([HelperWrite "card_avro.go"], Err).
Proof. vm_compute. split_and!; reflexivity. Qed.

(** If the run reports success, and no call of these two kinds failed, all files are as if nothing could fail. *)
Theorem C83_success_partial W F o_abs o_fmt o_quote o_trim o_quote_avro o_unquote o_tag o_types o_gogen o_declared o_join o_msgp A pkg ord ord' flt n fuel og og' sp d s :
  run_faulty W F o_abs o_fmt o_quote o_trim o_quote_avro o_unquote o_tag o_types o_gogen o_declared o_join o_msgp A pkg ord ord' flt n fuel og og' sp d = Some (s, Ok tt) ->
  (forall c, c ∈ io_failed s -> ~ unnoticed c) ->
  run W F o_abs o_fmt o_quote o_trim o_quote_avro o_unquote o_tag o_types o_gogen o_declared o_join o_msgp A pkg ord ord' n fuel og og' sp d = Some (io_disk s, Ok tt).
Proof. exact (faults_success W F o_abs o_fmt o_quote o_trim o_quote_avro o_unquote o_tag o_types o_gogen o_declared o_join o_msgp A pkg ord ord' flt n fuel og og' sp d s). Qed.
Print Assumptions C83_success_partial.
(** the calls after the last one of the run would fail *)
Example C83_success_case : told (card_run (whole_args flat_args false true false) (failing [14; 15; 16])) = Some ([], Ok tt).
Proof. vm_compute. reflexivity. Qed.

(** Without Avro and MessagePack, whichever calls fail: if the run reports success, a run in which nothing fails succeeds as well, and every file is as
    after that run, except for Go files that could not be closed, which hold the beginning of what they should. *)
Theorem C83_go_files_partial W F o_abs o_fmt o_quote o_trim o_quote_avro o_unquote o_tag o_types o_gogen o_declared o_join o_msgp A pkg ord ord' flt n fuel og og' sp d s :
  r_avro A = false -> r_msgp A = false ->
  run_faulty W F o_abs o_fmt o_quote o_trim o_quote_avro o_unquote o_tag o_types o_gogen o_declared o_join o_msgp A pkg ord ord' flt n fuel og og' sp d = Some (s, Ok tt) ->
  exists d', run W F o_abs o_fmt o_quote o_trim o_quote_avro o_unquote o_tag o_types o_gogen o_declared o_join o_msgp A pkg ord ord' n fuel og og' sp d = Some (d', Ok tt) /\
    forall p, content (io_disk s) p = content d' p \/
      exists f t whole, p = POut f /\ GoClose f ∈ io_failed s /\ content d' p = Some whole /\ content (io_disk s) p = Some t /\ beginning t whole.
Proof. exact (run_ok W F o_abs o_fmt o_quote o_trim o_quote_avro o_unquote o_tag o_types o_gogen o_declared o_join o_msgp A pkg ord ord' flt n fuel og og' sp d s). Qed.
Print Assumptions C83_go_files_partial.
Example C83_go_files_case (A := whole_args flat_args true false false) : r_avro A = false /\ r_msgp A = false /\
  told (card_run A (failing [6])) = Some ([GoClose "card.go"], Ok tt) /\
  content (after (card_run A (failing [6]))) (PGql "card.graphqls") = content (after (card_run A (failing []))) (PGql "card.graphqls") /\
  content (after (card_run A (failing []))) (PGql "card.graphqls") <> None.
Proof. vm_compute. split_and!; [reflexivity..|discriminate]. Qed.

(** Not every error is reported: a Go file that could not be closed is empty, and the run reports success. *)
Theorem C83_close_refuted : exists W F o_abs o_fmt o_quote o_trim o_quote_avro o_unquote o_tag o_types o_gogen o_declared o_join o_msgp A pkg ord ord' flt n fuel og og' sp d s,
  run_faulty W F o_abs o_fmt o_quote o_trim o_quote_avro o_unquote o_tag o_types o_gogen o_declared o_join o_msgp A pkg ord ord' flt n fuel og og' sp d = Some (s, Ok tt) /\
  exists f, GoClose f ∈ io_failed s /\ content (io_disk s) (POut f) = Some "".
Proof.
  exists W0, card_files, in_s, fmt_same, id, id, id, no_unquote, (fun _ => ""), only_types, gogen, card_avro, (join "/"), msgp, (whole_args flat_args false false false), "pkg".
  exists order_same, keys_same, (failing [2]), 3, 20, same_order, as_is, "card.json", nothing. eexists. split; [vm_compute; reflexivity|].
  exists "card.go". split; [apply elem_of_list_singleton; reflexivity|reflexivity].
Qed.
Print Assumptions C83_close_refuted.

(** A struct with fields of simple types: if writing one field (not the last) and the comma after it fail, and nothing else does, then building the Avro
    schema reports success, and the file is the complete Avro schema of the struct without that field. *)
Theorem C83_lost_field W o_quote E name fs1 f g fs2 n file s (m := io_calls s + 3 + 2 * length fs1) :
  Forall plain (fs1 ++ f :: g :: fs2) -> length (fs1 ++ f :: g :: fs2) < n ->
  exists ps s' t, list_pieces W o_quote E (S (S n)) [] [] (field_lists (EStruct (fs1 ++ f :: g :: fs2))) [] = Some (ps, []) /\
    avsc_faulty (fun i => if decide (i = m \/ i = S m) then Some 0 else None) file (header o_quote [] name metadata) ps s = (s', true) /\
    io_failed s' = io_failed s ++ [AvscPiece file; AvscPiece file] /\
    avro_file W o_quote E (S (S n)) name (EStruct (fs1 ++ g :: fs2)) = Some t /\ io_disk s' = apply_write (io_disk s) (WOut file t).
Proof. exact (field_lost W o_quote E name fs1 f g fs2 n file s). Qed.
Print Assumptions C83_lost_field.
Example C83_lost_field_case : Forall plain ([fd "A" str] ++ fd "B" (EIdent "int64") :: fd "C" (ESel "time" "Time") :: []).
Proof. repeat constructor; (eexists; split; [reflexivity|]); [left; eexists _, _; split; reflexivity|left; eexists _, _; split; reflexivity|right; eexists; reflexivity]. Qed.

(** A whole run: it reports success, the Go struct has the properties id and title, the Avro schema and the conversion have only title. *)
Theorem C83_lost_refuted : exists W F o_abs o_fmt o_quote o_trim o_quote_avro o_unquote o_tag o_types o_gogen o_declared o_join o_msgp A pkg ord ord' flt n fuel og og' sp d s,
  run_faulty W F o_abs o_fmt o_quote o_trim o_quote_avro o_unquote o_tag o_types o_gogen o_declared o_join o_msgp A pkg ord ord' flt n fuel og og' sp d = Some (s, Ok tt) /\
  exists go avsc helper, content (io_disk s) (POut "card.go") = Some go /\ content (io_disk s) (POut "card.avsc") = Some avsc /\
    content (io_disk s) (POut "card_avro.go") = Some helper /\
    str_in "json:""id,omitempty""" go = true /\ str_in "json:""title,omitempty""" go = true /\ str_in """name"":""id""" avsc = false /\ str_in """name"":""title""" avsc = true /\
    str_in "z.Id" helper = false /\ str_in "z.Title" helper = true.
Proof.
  exists W0, card_files, in_s, fmt_same, id, id, id, no_unquote, (fun _ => ""), only_types, gogen, card_avro, (join "/"), msgp, (whole_args flat_args false true false), "pkg".
  exists order_same, keys_same, (failing [6; 7]), 3, 20, same_order, as_is, "card.json", nothing. eexists. split; [vm_compute; reflexivity|].
  eexists _, _, _. split_and!; [reflexivity..|vm_compute; reflexivity|vm_compute; reflexivity|vm_compute; reflexivity|vm_compute; reflexivity|vm_compute; reflexivity|vm_compute; reflexivity].
Qed.
Print Assumptions C83_lost_refuted.

(** The property of concurrent calls of one Transformer: C75. *)
From stdpp Require Import strings list gmap.
From Coq Require Import ZArith.
From Verif Require Import GoStr Val Conv Instr Heap Schema Build Api World SpecPath Den Param Top SpecSchema SpecProj SpecRun SpecArr Cases.
From Verif Require Import Conc ConcL SpecConc ConcP ConcQ CaseConc CaseArr RunL.

(** C75. The programs of Conc.v are the calls: run without interruption, a program ends in the state and with the answer
    of the call. *)
Theorem C75_program_is_call W E perm f i c s : pseq perm (pcall W E f i c) s = serve W E perm f i c s.
Proof. exact (serve_does W E perm f i c s). Qed.
Print Assumptions C75_program_is_call.

(** If `last` has at most one entry everywhere and the only defaults are scalars and empty arrays (or, with well-named
    members and, for JSON, no array in an array, scalars and arrays of scalars), then whatever calls are
    made on a Transformer, however many of them at the same time and however their accesses to memory interleave, a
    call that returns has the answer it would have got alone on the new Transformer; ... *)
Theorem C75_independent_partial W (HW : jpath_parametric W) E f tid props items i s0 cs s ps j p r :
  apart W tid f props items -> new_transformer W tid props items st0 = (s0, Ok i) ->
  during W E f i s0 cs s ps -> ps !! j = Some p -> returned p r ->
  exists c perm, cs !! j = Some c /\ orders perm /\ (serve W E perm f i c s0).2 = r.
Proof. intros H1 H2. exact (during_answer W HW E f tid props items i s0 H1 H2 cs s ps j p r). Qed.
Print Assumptions C75_independent_partial.
(** ... if besides the schema is tame (as in C17) that is the answer of any transformer for the schema, at any
    time, to that call; ... *)
Theorem C75_as_alone_partial W (HW : jpath_parametric W) E (HE : unmarshals E) f tid props items i s0 cs s ps j p r c i' s' perm :
  apart W tid f props items -> well_named props items -> tame W tid f props items ->
  new_transformer W tid props items st0 = (s0, Ok i) ->
  during W E f i s0 cs s ps -> ps !! j = Some p -> returned p r -> cs !! j = Some c ->
  state W E f tid props items i' s' -> orders perm ->
  same r (serve W E perm f i' c s').2.
Proof. exact (tame_alone W HW E HE f tid props items i s0 cs s ps j p r c i' s' perm). Qed.
Print Assumptions C75_as_alone_partial.
(** ... and so it is for the schemas of C67, whose arrays may have transforms. *)
Theorem C75_as_alone_arrays_partial W (HW : jpath_parametric W) E (HE : unmarshals E) tid qs sc i s0 cs s ps j p r c s' perm :
  apart W tid FJson (Some qs) None -> jshaped W tid qs sc -> separate (stores sc []) sc [] [] ->
  new_transformer W tid (Some qs) None st0 = (s0, Ok i) ->
  during W E FJson i s0 cs s ps -> ps !! j = Some p -> returned p r -> cs !! j = Some c ->
  state W E FJson tid (Some qs) None i s' -> orders perm ->
  same r (serve W E perm FJson i c s').2.
Proof. exact (shaped_alone W HW E HE tid qs sc i s0 cs s ps j p r c s' perm). Qed.
Print Assumptions C75_as_alone_arrays_partial.

(** The calls leave everything as it was that existed when the Transformer was made: maps, arrays and the entries of
    transforms; ... *)
Theorem C75_nothing_changed W (HW : jpath_parametric W) E f tid props items i s0 cs s ps :
  apart W tid f props items -> new_transformer W tid props items st0 = (s0, Ok i) -> during W E f i s0 cs s ps ->
  (forall l, l < nxt s0 -> hp s !! l = hp s0 !! l) /\ (forall id, default [] (froms s !! id) = default [] (froms s0 !! id)).
Proof. intros H1 H2. exact (during_memory W HW E f tid props items i s0 H1 H2 cs s ps). Qed.
Print Assumptions C75_nothing_changed.
(** ... no goroutine writes to a map or array that another one writes to, at the same or at another time. *)
Theorem C75_no_common_writes W (HW : jpath_parametric W) E f tid props items i s0 cs s1 ps1 s2 ps2 j1 j2 l c1 c2 k1 k2 :
  apart W tid f props items -> new_transformer W tid props items st0 = (s0, Ok i) ->
  during W E f i s0 cs s1 ps1 -> rtc turn (s1, ps1) (s2, ps2) ->
  ps1 !! j1 = Some (PWrite l c1 k1) -> ps2 !! j2 = Some (PWrite l c2 k2) -> j1 = j2.
Proof. intros H1 H2. exact (during_apart W HW E f tid props items i s0 H1 H2 cs s1 ps1 s2 ps2 j1 j2 l c1 c2 k1 k2). Qed.
Print Assumptions C75_no_common_writes.

(** For every schema: no schedule goes on for ever, and a call that has not returned can always go on. *)
Theorem C75_all_return W E f i s0 cs :
  Acc (fun x y => turn y x) (s0, pcall W E f i <$> cs) /\
  forall s ps j p, during W E f i s0 cs s ps -> ps !! j = Some p ->
    (exists r, returned p r) \/ exists s' p', turn (s, ps) (s', <[j := p']> ps).
Proof. split; [exact (turn_acc s0 _)|]. intros s ps j p _. exact (can_go s ps j p). Qed.
Print Assumptions C75_all_return.

Example C75_case : apart W0 "t" FJson (Some conc_props) None /\
  (exists i s0 s ps, new_transformer W0 "t" (Some conc_props) None st0 = (s0, Ok i) /\
     during W0 conc_env FJson i s0 [Validated "one"; Unvalidated "two"; Validated "three"] s ps /\
     Forall2 returned ps
       [Ok (TObj [("tags", TArr [jstr "x"; jstr "y"]); ("name", jstr "Ada"); ("o", TObj [("n", jnum 36)])]);
        Ok (TObj [("name", jstr "?"); ("o", TObj [("n", jnum 7)])]); Err]).
Proof. split; [exact conc_apart|]. apply (run_schedule_during _ _ _ (turns 200 [0; 1; 2])). vm_compute. reflexivity. Qed.
Example C75_case_arrays : apart W0 "t" FJson (Some arr_props) None /\ jshaped W0 "t" arr_props arr_sch /\ separate (stores arr_sch []) arr_sch [] [] /\
  (exists i s0 s ps, new_transformer W0 "t" (Some arr_props) None st0 = (s0, Ok i) /\
     during W0 arr_env FJson i s0 [Validated "two"; Validated "two"] s ps /\
     Forall2 returned ps
       [Ok (TObj [("meta", TObj [("tags", TArr [jstr "none"])])]);
        Ok (TObj [("meta", TObj [("tags", TArr [jstr "none"])])])]).
Proof.
  split; [exact arr_apart|]. split; [exact arr_shaped|]. split; [exact arr_separate|].
  apply (run_schedule_during _ _ _ (turns 400 [0; 1])). vm_compute. reflexivity.
Qed.
Example C75_case_tame : apart W0 "t" FJson (Some sample_props) None /\ well_named (Some sample_props) None /\ tame W0 "t" FJson (Some sample_props) None.
Proof. split; [exact sample_apart|]. exact (shaped_ok W0 "t" _ _ _ sample_shaped). Qed.

(** The hypotheses are needed. If the default of an object is an object, two calls at the same time answer each with what
    is in the other's document: one document has only x, the other only y. *)
Theorem C75_object_default_refuted : exists i s0 s ps,
  new_transformer W0 "t" (Some shared_obj) None st0 = (s0, Ok i) /\
  during W0 shared_env FJson i s0 [Validated "one"; Validated "two"] s ps /\
  Forall2 returned ps [Ok (TObj [("o", TObj [("x", jstr "1"); ("y", jstr "2")])]); Ok (TObj [("o", TObj [("x", jstr "1"); ("y", jstr "2")])])].
Proof. apply (run_schedule_during _ _ _ (turns 200 [0; 1])). vm_compute. reflexivity. Qed.
Print Assumptions C75_object_default_refuted.
(** With two entries, `last` can take the first entry in both of two calls on a new Transformer. *)
Theorem C75_last_refuted : exists i s0 s ps,
  new_transformer W0 "t" (Some last_two) None st0 = (s0, Ok i) /\
  during W0 last_env FJson i s0 [Validated "in"; Validated "in"] s ps /\
  Forall2 returned ps [Ok (TObj [("a", jstr "1")]); Ok (TObj [("a", jstr "1")])].
Proof. apply (run_schedule_during _ _ _ (turns 5 [0] ++ turns 200 [1] ++ turns 200 [0])). vm_compute. reflexivity. Qed.
Print Assumptions C75_last_refuted.

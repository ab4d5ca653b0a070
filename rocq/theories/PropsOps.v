(** C01 - C05, C08 - C12: transform methods, conversions, operations.
    Vocabulary: SpecOps.v. Each theorem holds for every choice [W] of the library oracles and every
    representation of values ([view]). *)
From stdpp Require Import strings list gmap.
From Coq Require Import Ascii Floats.SpecFloat ZArith.
From Verif Require Import GoStr GoStrL Val Conv Instr InstrL ConvL SpecOps OpsThm World Build.

(** C01. Method `first`: the outcome (value or error) of the earliest entry that does not yield null is
    the outcome; the entries after it do not occur in it; null if there is none. *)
Theorem C01_first_value W V (view : V -> vw V) f t from input ft m
    (entry := fun i => instr_run W view f i input ft m) :
  ti_meth t = MFirst ->
  (forall pre i post, from = pre ++ i :: post ->
     Forall (fun j => yields_null view (entry j)) pre -> ~ yields_null view (entry i) ->
     tis_run W view f t from input ft m = (entry i, from)) /\
  (Forall (fun j => yields_null view (entry j)) from ->
     tis_run W view f t from input ft m = (Ok (GS SNil), from)).
Proof. exact (first_thm W view f t from input ft m). Qed.
Print Assumptions C01_first_value.
Example C01_case :
  tis_run W0 tview FJson (Tis 0 MFirst "")
    [Instr "$.a" "" []; Instr "$.b" "" []; Instr "$.c" "" []]
    (TObj [("b", TS (SStr "x")); ("c", TS (SStr "y"))]) "string" []
  = (Ok (GV (TS (SStr "x"))), [Instr "$.a" "" []; Instr "$.b" "" []; Instr "$.c" "" []]).
Proof. vm_compute. reflexivity. Qed.

(** C02. Method `last`. On the first evaluation the outcome is that of the latest entry that does not
    yield null ... *)
Theorem C02_last_first_use W V (view : V -> vw V) f t from input ft m
    (entry := fun i => instr_run W view f i input ft m) :
  ti_meth t = MLast ->
  (forall pre i post, from = pre ++ i :: post ->
     Forall (fun j => yields_null view (entry j)) post -> ~ yields_null view (entry i) ->
     fst (tis_run W view f t from input ft m) = entry i) /\
  (Forall (fun j => yields_null view (entry j)) from ->
     fst (tis_run W view f t from input ft m) = Ok (GS SNil)).
Proof. intros Hm. unfold entry. rewrite last_run by done. exact (run_first_last view _ from). Qed.
Print Assumptions C02_last_first_use.
Example C02_case :
  fst (tis_run W0 tview FJson (Tis 0 MLast "")
    [Instr "$.a" "" []; Instr "$.b" "" []; Instr "$.c" "" []]
    (TObj [("a", TS (SStr "w")); ("b", TS (SStr "x"))]) "string" [])
  = Ok (GV (TS (SStr "x"))).
Proof. vm_compute. reflexivity. Qed.

(** ... but the evaluation reverses the list it works on, so evaluation number [n] (counted from 0)
    gives the latest value if [n] is even and the EARLIEST value if [n] is odd. *)
Fixpoint after_uses W {V} (view : V -> vw V) f t (past : list (V * string * modifier)) (from : list instr)
  : list instr :=
  match past with
  | [] => from
  | (input, ft, m) :: past' =>
    after_uses W view f t past' (snd (tis_run W view f t from input ft m))
  end.
Theorem C02_last_later_uses_partial W V (view : V -> vw V) f t past from input ft m
    (entry := fun i => instr_run W view f i input ft m)
    (out := fst (tis_run W view f t (after_uses W view f t past from) input ft m)) :
  ti_meth t = MLast ->
  (Nat.Even (length past) ->
   forall pre i post, from = pre ++ i :: post ->
     Forall (fun j => yields_null view (entry j)) post -> ~ yields_null view (entry i) -> out = entry i) /\
  (Nat.Odd (length past) ->
   forall pre i post, from = pre ++ i :: post ->
     Forall (fun j => yields_null view (entry j)) pre -> ~ yields_null view (entry i) -> out = entry i).
Proof.
  intros Hm.
  assert (after_uses W view f t past from = if Nat.even (length past) then from else rev from) as E.
  { clear out entry input ft m. revert from. induction past as [|[[i ft] m] past IH]; intros from; [done|].
    cbn [after_uses length]. rewrite last_run by done. cbn [snd]. rewrite IH.
    rewrite Nat.even_succ, <- Nat.negb_even. destruct (Nat.even (length past)); cbn [negb]; [done|].
    apply rev_involutive. }
  unfold out. rewrite last_run, E by done. cbn [fst]. split; intros Hp.
  - apply Nat.even_spec in Hp. rewrite Hp. apply run_first_last.
  - apply Nat.odd_spec in Hp. rewrite <- Nat.negb_even in Hp. apply negb_true_iff in Hp. rewrite Hp.
    rewrite rev_involutive. apply run_first_first.
Qed.
Print Assumptions C02_last_later_uses_partial.

(** C03. Method `concatenate`, on the values the entries yield ([vals]: the non-null ones). *)
Theorem C03_concatenate W V (view : V -> vw V) f t from gs input ft m :
  ti_meth t = MConcat ->
  Forall2 (fun i g => instr_run W view f i input ft m = Ok g) from gs ->
  let vals := filter (fun g => is_value view g = true) gs in
  let out := fst (tis_run W view f t from input ft m) in
  (vals = [] -> yields_null view out) /\
  (forall g, vals = [g] -> out = Ok g) /\
  (forall strs, vals <> [] -> Forall2 (holds_string view) vals strs ->
     exists g, out = Ok g /\ holds_string view g (join (ti_delim t) (filter (fun s => s <> "") strs))) /\
  (2 <= length vals -> (exists g, g ∈ vals /\ forall s, ~ holds_string view g s) -> out = Err)%nat.
Proof. exact (concat_thm W view f t from gs input ft m). Qed.
Print Assumptions C03_concatenate.
Example C03_case :
  fst (tis_run W0 tview FJson (Tis 0 MConcat ", ")
    [Instr "$.a" "" []; Instr "$.b" "" []; Instr "$.c" "" []; Instr "$.d" "" []]
    (TObj [("a", TS (SStr "w")); ("c", TS (SStr "")); ("d", TS (SStr "z"))]) "string" [])
  = Ok (GS (SStr "w, z")).
Proof. vm_compute. reflexivity. Qed.
(** an error of an entry is an error of the whole *)
Theorem C03_concatenate_error W V (view : V -> vw V) f t from pre i post gs input ft m :
  ti_meth t = MConcat -> from = pre ++ i :: post ->
  Forall2 (fun i g => instr_run W view f i input ft m = Ok g) pre gs ->
  instr_run W view f i input ft m = Err ->
  fst (tis_run W view f t from input ft m) = Err.
Proof. exact (concat_err W view f t from pre i post gs input ft m). Qed.
Print Assumptions C03_concatenate_error.
Example C03_error_case :
  fst (tis_run W0 tview FJson (Tis 0 MConcat "")
    [Instr "$.a" "" []; Instr "$.b" "" [OpInverse]] (TObj [("a", TS (SStr "w")); ("b", TS (SStr "x"))])
    "string" []) = Err.
Proof. vm_compute. reflexivity. Qed.

(** C04. A successful conversion to a non-null value gives a value of the type; null and empty arrays
    give null. *)
Theorem C04_convert_type W V (view : V -> vw V) jt raw g :
  convert W view jt raw = Some (g, false) -> ~ null view g -> has_json_type view jt g.
Proof. exact (convert_go_typed W view (o_stack W) jt raw g). Qed.
Print Assumptions C04_convert_type.
Theorem C04_convert_null W V (view : V -> vw V) jt raw : (0 < o_stack W)%nat ->
  null view raw \/ gview view raw = WArr [] ->
  exists g, convert W view jt raw = Some (g, false) /\ null view g.
Proof.
  intros Hs H. unfold convert. destruct (o_stack W) as [|n]; [lia|]. exists (GS SNil). split; [|done].
  cbn [convert_go]. unfold is_nil. destruct H as [->| ->]; done.
Qed.
Print Assumptions C04_convert_null.
Example C04_case :
  convert W0 tview "number" (GV (TArr [TArr [TS (SStr "12")]; TS (SBool true)])) = Some (GS (SInt 12), false).
Proof. vm_compute. reflexivity. Qed.

(** C05. Round trips and idempotence. *)
Theorem C05_int_string_int W V (view : V -> vw V) z : (0 < o_stack W)%nat -> fits z ->
  exists s, convert W view "string" (GS (SInt z)) = Some (GS (SStr s), false) /\
            convert W view "number" (GS (SStr s)) = Some (GS (SInt z), false) /\
            convert W view "integer" (GS (SStr s)) = Some (GS (SInt z), false).
Proof. intros Hs Hz. apply (convert_int_string_number W view z Hs). by apply fits_range. Qed.
Print Assumptions C05_int_string_int.
Theorem C05_bool_string_bool W V (view : V -> vw V) b : (0 < o_stack W)%nat ->
  (exists s, convert W view "string" (GS (SBool b)) = Some (GS (SStr s), false) /\
             convert W view "boolean" (GS (SStr s)) = Some (GS (SBool b), false)) /\
  (exists z, convert W view "number" (GS (SBool b)) = Some (GS (SInt z), false) /\
             convert W view "boolean" (GS (SInt z)) = Some (GS (SBool b), false)).
Proof. exact (convert_bool_roundtrip W view b). Qed.
Print Assumptions C05_bool_string_bool.
Theorem C05_convert_idempotent W V (view : V -> vw V) jt raw g : (0 < o_stack W)%nat ->
  jt = "boolean" \/ jt = "number" \/ jt = "integer" \/ jt = "string" ->
  convert W view jt raw = Some (g, false) -> ~ null view g ->
  convert W view jt g = Some (g, false).
Proof. exact (convert_idem W view jt raw g). Qed.
Print Assumptions C05_convert_idempotent.
Example C05_case :
  fits (-9223372036854775808) /\
  convert W0 tview "string" (GV (TArr [TS (SInt (-12))])) = Some (GS (SStr "-12"), false) /\
  convert W0 tview "string" (GS (SStr "-12")) = Some (GS (SStr "-12"), false).
Proof. split; [split; [by vm_compute|by vm_compute]|]. vm_compute. auto. Qed.

(** C08. `duration`: the value is 3600*h + 60*m + s (reduced modulo 2^64 to an int, so exact whenever it
    fits); anything that is not two or three groups of digits each fitting an int is an error. *)
Theorem C08_duration W V (view : V -> vw V) raw s : holds_string view raw s ->
  (forall h m sec, clock s h m sec -> fits (number h) -> fits (number m) -> fits (number sec) ->
     exists w, op_run W view OpDuration raw = Ok (GS (SInt w)) /\
               is_wrap (3600 * number h + 60 * number m + number sec) w) /\
  ((forall h m sec, clock s h m sec -> ~ (fits (number h) /\ fits (number m) /\ fits (number sec))) ->
     op_run W view OpDuration raw = Err).
Proof.
  unfold holds_string. intros E. cbn [op_run]. unfold op_duration. rewrite E, E. split.
  - exact (duration_fits s).
  - exact (duration_err s).
Qed.
Print Assumptions C08_duration.
Theorem C08_duration_exact z w : is_wrap z w -> fits z -> w = z.
Proof. unfold is_wrap, fits. intros [H [k E]] Hz. lia. Qed.
Print Assumptions C08_duration_exact.
Theorem C08_duration_other W V (view : V -> vw V) raw :
  (null view raw -> op_run W view OpDuration raw = Ok (GS (SInt 0))) /\
  (forall x, gview view raw = WArr [x] -> (forall l, gview view x <> WArr l) ->
     op_run W view OpDuration raw = op_run W view OpDuration x) /\
  (~ null view raw -> (forall s, ~ holds_string view raw s) -> (forall x, gview view raw <> WArr [x]) ->
     op_run W view OpDuration raw = Err).
Proof.
  cbn [op_run]. unfold op_duration, null, holds_string. split; [|split].
  - intros E. rewrite E. by rewrite E.
  - intros x E N. rewrite E. destruct (gview view x) as [| [|y [|]]| | |] eqn:Ex; try (by rewrite ?Ex).
    by destruct (N [y]).
  - intros N1 N2 N3. destruct (gview view raw) as [[]|[|x [|y l]]| | |] eqn:E; rewrite ?E;
    try done.
    all: try (by destruct N1); try (by destruct (N2 s)); try (by destruct (N3 x)).
Qed.
Print Assumptions C08_duration_other.
Example C08_case : clock "1:02:03" "1" "02" "03" /\
  op_run W0 tview OpDuration (GS (SStr "1:02:03")) = Ok (GS (SInt 3723)) /\
  op_run W0 tview OpDuration (GS (SStr "1:2:3:4")) = Err.
Proof.
  split; [|vm_compute; auto].
  apply (clock_hms "1" "02" "03"); repeat (apply digits_nil || (apply digits_cons; [vm_compute; lia|])).
Qed.

(** C09. `split`. *)
Theorem C09_split W V (view : V -> vw V) args sep raw s :
  args !! "on" = Some sep -> holds_string view raw s ->
  exists pieces, op_run W view (OpSplit args) raw = Ok (GL ((fun p => GS (SStr p)) <$> pieces)) /\
  join sep pieces = s /\
  (sep <> "" -> Forall (fun p => ~ exists a b, p = a +:+ sep +:+ b) pieces) /\
  (s = "" -> pieces = []) /\ (s <> "" -> pieces <> []).
Proof.
  unfold holds_string. intros Es E. cbn [op_run]. unfold op_split, arg. rewrite E, Es.
  change (default "" (Some sep)) with sep.
  destruct (decide (s = "")) as [->|N].
  - exists []. split; [done|]. split; [done|]. split; [|done]. intros _. apply Forall_nil_2.
  - exists (split s sep). split; [done|]. split; [apply split_join|]. split; [|split; [done|]].
    + intros Hsep. eapply Forall_impl; [by apply split_free|]. intros p Hp H. apply str_in_spec in H. congruence.
    + intros _ Hnil. pose proof (split_join s sep) as J. rewrite Hnil in J. by destruct N.
Qed.
Print Assumptions C09_split.
Theorem C09_split_other W V (view : V -> vw V) args raw : (forall s, ~ holds_string view raw s) ->
  op_run W view (OpSplit args) raw = Err.
Proof.
  unfold holds_string. intros N. cbn [op_run]. unfold op_split.
  destruct (gview view raw) as [[]| | | |] eqn:E; try done. by destruct (N s).
Qed.
Print Assumptions C09_split_other.
Example C09_case : op_run W0 tview (OpSplit {["on" := "aa"]}) (GS (SStr "aaaxaab")) =
  Ok (GL [GS (SStr ""); GS (SStr "ax"); GS (SStr "b")]).
Proof. vm_compute. reflexivity. Qed.

(** C10. `max`, when some `by` value is positive: the `return` field of the earliest item with the
    largest `by` value. The arguments are "@p" and "@q"; selectors are evaluated as JSONPaths "$p" and
    "$q" on the item. [items] are the items, [fs] their `by` numbers. *)
Theorem C10_max_partial W V (view : V -> vw V) args p q items fs raw li best :
  args !! "by" = Some ("@" +:+ p) -> args !! "return" = Some ("@" +:+ q) ->
  gview view raw = WArr items ->
  Forall2 (fun item f => exists b, jget_g W view ("$" +:+ p) item = Some b /\ number_value view b f) items fs ->
  fs !! li = Some best -> float_gt best (S754_zero false) ->
  (forall j f, fs !! j = Some f -> ~ float_gt f best) ->
  (forall j f, (j < li)%nat -> fs !! j = Some f -> not_nan f -> float_gt best f) ->
  exists item, items !! li = Some item /\
  op_run W view (OpMax args) raw =
  match jget_g W view ("$" +:+ q) item with Some r => Ok r | None => Err end.
Proof. intros Hb Hq. rewrite <- !(max_arg _ _ _ Hb), <- !(max_arg _ _ _ Hq). exact (max_thm W view args items fs raw li best). Qed.
Print Assumptions C10_max_partial.
Definition max_args : gmap string string := {["by" := "@.n"; "return" := "@.v"]}.
Definition item (n : Z) (v : string) : tree := TObj [("n", TS (SF (fl n))); ("v", TS (SStr v))].
Example C10_case : op_run W0 tview (OpMax max_args) (GV (TArr [item 3 "a"; item 7 "b"; item 7 "c"; item (-9) "d"]))
  = Ok (GV (TS (SStr "b"))).
Proof. vm_compute. reflexivity. Qed.
(** If no `by` value is positive, the first item is taken, whatever the values ... *)
Theorem C10_max_no_positive_partial W V (view : V -> vw V) args p q items fs raw item :
  args !! "by" = Some ("@" +:+ p) -> args !! "return" = Some ("@" +:+ q) ->
  gview view raw = WArr items -> items !! 0%nat = Some item ->
  Forall2 (fun item f => exists b, jget_g W view ("$" +:+ p) item = Some b /\ number_value view b f) items fs ->
  Forall (fun f => ~ float_gt f (S754_zero false)) fs ->
  op_run W view (OpMax args) raw =
  match jget_g W view ("$" +:+ q) item with Some r => Ok r | None => Err end.
Proof. intros Hb Hq. rewrite <- !(max_arg _ _ _ Hb), <- !(max_arg _ _ _ Hq). exact (max_first W view args items fs raw item). Qed.
Print Assumptions C10_max_no_positive_partial.
(** ... so the property is false: -1 is larger than -5. *)
Theorem C10_max_refuted : exists items,
  op_run W0 tview (OpMax max_args) (GV (TArr items)) = Ok (GV (TS (SStr "small"))) /\
  items = [item (-5) "small"; item (-1) "large"] /\ float_gt (fl (-1)) (fl (-5)).
Proof. eexists. split; [|split; [reflexivity|reflexivity]]. vm_compute. reflexivity. Qed.
Print Assumptions C10_max_refuted.
(** An item without a number at `by` is an error. *)
Theorem C10_max_bad_item W V (view : V -> vw V) args p items raw :
  args !! "by" = Some ("@" +:+ p) ->
  gview view raw = WArr items ->
  (exists item, item ∈ items /\ forall b f, jget_g W view ("$" +:+ p) item = Some b -> ~ number_value view b f) ->
  op_run W view (OpMax args) raw = Err.
Proof. intros Hb. rewrite <- !(max_arg _ _ _ Hb). exact (max_bad W view args items raw). Qed.
Print Assumptions C10_max_bad_item.
Example C10_bad_case : op_run W0 tview (OpMax max_args) (GV (TArr [item 3 "a"; TS (SStr "x")])) = Err.
Proof. vm_compute. reflexivity. Qed.

(** C11. The only crash of an operation is `max` on the empty array. *)
Theorem C11_operations_crash_only_partial W V (view : V -> vw V) o raw :
  op_run W view o raw = Panic <-> exists args, o = OpMax args /\ gview view raw = WArr [].
Proof. exact (op_run_panic W view o raw). Qed.
Print Assumptions C11_operations_crash_only_partial.
Theorem C11_operations_never_crash_refuted : exists o, op_init W0 "max" max_args = Some o /\
  op_run W0 tview o (GV (TArr [])) = Panic.
Proof. eexists. split; [vm_compute; reflexivity|vm_compute; reflexivity]. Qed.
Print Assumptions C11_operations_never_crash_refuted.

(** C12. An operation is accepted exactly if it is a documented one with its argument keys, ... *)
Theorem C12_operation_accepted W name args :
  (exists o, op_init W name args = Some o) <-> well_formed_op (o_re_ok W) name args.
Proof. exact (op_init_thm W name args). Qed.
Print Assumptions C12_operation_accepted.
Example C12_case : well_formed_op (o_re_ok W0) "max" max_args /\ ~ well_formed_op (o_re_ok W0) "min" max_args.
Proof.
  split.
  - apply C12_operation_accepted. eexists. vm_compute. reflexivity.
  - rewrite <- C12_operation_accepted. intros [o H]. vm_compute in H. discriminate H.
Qed.
(** ... and a transform section, given as its entries (paths and operations), method and delimiter, is
    accepted exactly if all its operations and its method are; then it has these entries in this order. *)
Theorem C12_transform_accepted W entries method delim :
  (exists me from, dec_tis W (tis_json entries method delim) = Ok (me, delim, from) /\
     method_named method me /\
     Forall2 (fun e i => exists ops, i = Some (Instr (e_jpath e) (e_xpath e) ops) /\
                Forall2 (fun no o => op_init W no.1 (list_to_map no.2) = Some o) (e_ops e) ops) entries from /\
     Forall (fun e => Forall (fun no => well_formed_op (o_re_ok W) no.1 (list_to_map no.2)) (e_ops e)) entries) \/
  (dec_tis W (tis_json entries method delim) = Err /\
     ((forall me, ~ method_named method me) \/
      exists e no, e ∈ entries /\ no ∈ e_ops e /\ ~ well_formed_op (o_re_ok W) no.1 (list_to_map no.2))).
Proof. exact (dec_tis_thm W entries method delim). Qed.
Print Assumptions C12_transform_accepted.
Example C12_transform_case :
  dec_tis W0 (tis_json [Entry "@.a" "//a" [("split", [("on", ",")]); ("inverse", [])]] "concatenate" "-")
  = Ok (MConcat, "-", [Some (Instr "@.a" "//a" [OpSplit {["on" := ","]}; OpInverse])]).
Proof. vm_compute. reflexivity. Qed.

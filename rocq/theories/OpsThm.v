(** Proofs of the statements of PropsOps.v that take more than a line. *)
From stdpp Require Import strings list gmap sets.
From Coq Require Import Ascii Floats.SpecFloat ZArith Lia.
From Verif Require Import GoStr GoStrL Val Conv Instr InstrL ConvL SpecOps Heap Schema Build.

Section thm.
Context (W : oracles) {V : Type} (view : V -> vw V).
Notation G := (gval V).

Lemma yields_null_forall (step : instr -> res G) pre :
  Forall (fun i => yields_null view (step i)) pre ->
  Forall (fun j => exists g, step j = Ok g /\ is_nil view g = true) pre.
Proof.
  intros H. eapply Forall_impl; [exact H|]. intros x (g & E & Hn). exists g. split; [done|]. by apply is_nil_spec.
Qed.

Lemma first_thm f t from input ft m (step := fun i => instr_run W view f i input ft m) :
  ti_meth t = MFirst ->
  (forall pre i post, from = pre ++ i :: post -> Forall (fun j => yields_null view (step j)) pre ->
     ~ yields_null view (step i) -> tis_run W view f t from input ft m = (step i, from)) /\
  (Forall (fun j => yields_null view (step j)) from ->
     tis_run W view f t from input ft m = (Ok (GS SNil), from)).
Proof.
  intros Hm. unfold tis_run. rewrite Hm. split.
  - intros pre i post -> Hpre Hi. f_equal. unfold step in *.
    rewrite run_first_app by (by apply yields_null_forall).
    destruct (instr_run W view f i input ft m) as [g| |] eqn:E; cbn [rbind]; [|done..].
    destruct (is_nil view g) eqn:Hn; [|done]. destruct Hi. exists g. split; [done|]. by apply is_nil_spec.
  - intros H. f_equal. apply run_first_none. by apply yields_null_forall.
Qed.

Lemma last_run f t from input ft m (step := fun i => instr_run W view f i input ft m) :
  ti_meth t = MLast ->
  tis_run W view f t from input ft m = (run_first view step (rev from), rev from).
Proof. intros Hm. unfold tis_run. rewrite Hm. done. Qed.

Lemma run_first_first (step : instr -> res G) from :
  (forall pre i post, from = pre ++ i :: post -> Forall (fun j => yields_null view (step j)) pre ->
     ~ yields_null view (step i) -> run_first view step from = step i) /\
  (Forall (fun j => yields_null view (step j)) from -> run_first view step from = Ok (GS SNil)).
Proof.
  split.
  - intros pre i post -> Hpre Hi. rewrite run_first_app by (by apply yields_null_forall).
    destruct (step i) as [g| |] eqn:E; cbn [rbind]; [|done..].
    destruct (is_nil view g) eqn:Hn; [|done]. destruct Hi. exists g. split; [done|]. by apply is_nil_spec.
  - intros H. apply run_first_none. by apply yields_null_forall.
Qed.
Lemma run_first_last (step : instr -> res G) from :
  (forall pre i post, from = pre ++ i :: post -> Forall (fun j => yields_null view (step j)) post ->
     ~ yields_null view (step i) -> run_first view step (rev from) = step i) /\
  (Forall (fun j => yields_null view (step j)) from -> run_first view step (rev from) = Ok (GS SNil)).
Proof.
  destruct (run_first_first step (rev from)) as [H1 H2]. split.
  - intros pre i post -> Hpost Hi. apply (H1 (rev post) i (rev pre)); [|by apply Forall_reverse in Hpost; rewrite rev_alt|done].
    rewrite rev_app_distr. cbn. by rewrite <- app_assoc.
  - intros H. apply H2. apply Forall_reverse in H. by rewrite rev_alt.
Qed.

Lemma concat_thm f t from gs input ft m :
  ti_meth t = MConcat ->
  Forall2 (fun i g => instr_run W view f i input ft m = Ok g) from gs ->
  let vals := filter (fun g => is_value view g = true) gs in
  let out := fst (tis_run W view f t from input ft m) in
  (vals = [] -> yields_null view out) /\
  (forall g, vals = [g] -> out = Ok g) /\
  (forall strs, vals <> [] -> Forall2 (holds_string view) vals strs ->
     exists g, out = Ok g /\ holds_string view g (join (ti_delim t) (filter (fun s => s <> "") strs))) /\
  (2 <= length vals -> (exists g, g ∈ vals /\ forall s, ~ holds_string view g s) -> out = Err)%nat.
Proof.
  intros Hm HF vals0 out.
  set (vals := filter (fun g => is_nil view g = false) gs).
  assert (vals0 = vals) as ->.
  { unfold vals0, vals. clear. induction gs as [|g gs IH]; [done|]. rewrite !filter_cons, IH.
    unfold is_value, is_nil. destruct (gview view g) as [[]| | | |]; done. }
  assert (out = cfold view (ti_delim t) (GS SNil) vals) as ->.
  { unfold out, tis_run. rewrite Hm. cbn [fst].
    rewrite (run_concat_cfold view _ _ _ gs); [|done].
    rewrite (cfold_filter view _ _ gs) by by left. done. }
  assert (Forall (fun g => is_nil view g = false) vals) as Hvals.
  { apply Forall_forall. intros g Hg. by apply elem_of_list_filter in Hg as [? _]. }
  assert (forall g l, vals = g :: l -> cfold view (ti_delim t) (GS SNil) vals = cfold view (ti_delim t) g l) as Hc.
  { intros g l E. rewrite E in *. apply Forall_cons in Hvals as [Hg _]. cbn [cfold].
    by rewrite concat_nil_l. }
  split; [|split; [|split]].
  - intros ->. cbn. eexists. done.
  - intros g E. by rewrite (Hc g []).
  - intros strs Hne HS. destruct vals as [|g l] eqn:E; [done|].
    rewrite (Hc g l) by done. inversion HS as [|? s ? strs' Hg HS']; subst.
    destruct (cfold_strs view (ti_delim t) g [s] l strs') as (g' & Hf & Hv).
    { rewrite joined_one. done. }
    { done. }
    exists g'. split; [done|]. exact Hv.
  - intros Hlen (g0 & Hin & Hno). destruct vals as [|g l] eqn:E; [cbn in Hlen; lia|].
    rewrite (Hc g l) by done. apply Forall_cons in Hvals as [Hg Hl].
    apply cfold_bad; [done|done|intros ->; cbn in Hlen; lia|].
    intros [Hs HsF]. apply elem_of_cons in Hin as [->|Hin].
    + destruct Hs as [s Hs]. by eapply Hno.
    + rewrite Forall_forall in HsF. destruct (HsF _ Hin) as [s Hs']. by eapply Hno.
Qed.
Lemma concat_err f t from pre i post gs input ft m :
  ti_meth t = MConcat -> from = pre ++ i :: post ->
  Forall2 (fun i g => instr_run W view f i input ft m = Ok g) pre gs ->
  instr_run W view f i input ft m = Err ->
  fst (tis_run W view f t from input ft m) = Err.
Proof.
  intros Hm -> HF Hi. unfold tis_run. rewrite Hm. cbn [fst].
  assert (forall acc, run_concat view (fun ins => instr_run W view f ins input ft m) (ti_delim t) acc (pre ++ i :: post) =
    rbind (cfold view (ti_delim t) acc gs) (fun _ => Err)) as H.
  { induction HF as [|j g pre gs Hj HF IH]; intros acc.
    - cbn [app run_concat cfold rbind]. by rewrite Hi.
    - cbn [app run_concat cfold]. rewrite Hj. cbn [rbind].
      destruct (concat view acc g (ti_delim t)); cbn [rbind]; [|done..]. apply IH. }
  rewrite H. destruct (cfold view (ti_delim t) (GS SNil) gs) eqn:E; try done.
  exfalso. clear -E.
  assert (forall acc, cfold view (ti_delim t) acc gs <> Panic) as H; [|by eapply H]. clear E.
  induction gs as [|g gs IH]; intros acc; [done|]. cbn [cfold].
  destruct (concat view acc g (ti_delim t)) eqn:EC; cbn [rbind]; [by apply IH|done|].
  exfalso. clear -EC. unfold concat in EC. repeat case_match; done.
Qed.
End thm.

(** ** duration *)
Lemma digits_all s : digits s <-> all_digits s.
Proof.
  unfold all_digits. induction s as [|a s IH]; split; intros H.
  - done.
  - constructor.
  - inversion H as [|? ? Ha Hs]; subst. cbn. apply andb_true_iff. split; [|by apply IH].
    unfold is_digit. apply andb_true_iff. rewrite !Nat.leb_le || rewrite !N.leb_le.
    unfold nat_of_ascii in Ha. lia.
  - cbn in H. apply andb_true_iff in H as [Ha Hs]. constructor; [|by apply IH].
    unfold is_digit in Ha. apply andb_true_iff in Ha. rewrite ?Nat.leb_le, ?N.leb_le in Ha.
    unfold nat_of_ascii. lia.
Qed.

Lemma number_dec acc s : digits s -> dec_value acc s = Some (number_from acc s).
Proof.
  intros H. revert acc. induction H as [|a s Ha Hs IH]; intros acc; [done|].
  cbn [dec_value number_from].
  assert (is_digit a = true) as ->.
  { assert (digits (String a "")) as H by (apply digits_cons; [done|apply digits_nil]). apply digits_all in H.
    unfold all_digits in H. cbn in H. by apply andb_true_iff in H as [? _]. }
  rewrite IH. do 2 f_equal. unfold nat_of_ascii. lia.
Qed.
Lemma fits_range z : fits z <-> int_range z = true.
Proof.
  unfold fits, int_range, int_min, int_max. rewrite andb_true_iff, !Z.leb_le. lia.
Qed.
Lemma atoi_group_digits s : digits s ->
  atoi_group s = if int_range (number s) then Some (number s) else None.
Proof.
  intros H. unfold atoi_group. destruct (decide (s = "")) as [->|N]; [done|].
  destruct s as [|a s]; [done|].
  pose proof H as H'. apply digits_all in H'. unfold all_digits in H'. cbn in H'.
  apply andb_true_iff in H' as [Ha _]. rewrite atoi_nosign by done.
  unfold atoi_digits. rewrite number_dec by done. done.
Qed.
Lemma wrap64_is_wrap z : is_wrap z (wrap64 z).
Proof.
  unfold is_wrap, fits, wrap64.
  pose proof (Z.mod_pos_bound (z + 2 ^ 63) (2 ^ 64) ltac:(lia)) as B. split; [lia|].
  exists ((z + 2 ^ 63) / 2 ^ 64)%Z. pose proof (Z.div_mod (z + 2 ^ 63) (2 ^ 64) ltac:(lia)). lia.
Qed.

Section dur.
Context (W : oracles) {V : Type} (view : V -> vw V).
Notation G := (gval V).
Lemma duration_fits (s h m sec : string) : clock s h m sec -> fits (number h) -> fits (number m) ->
  fits (number sec) ->
  exists w, duration_str (V := V) s = Ok (GS (SInt w)) /\
            is_wrap (3600 * number h + 60 * number m + number sec) w.
Proof.
  intros Hc Hh Hm Hs.
  exists (wrap64 (3600 * number h + 60 * number m + number sec)). split; [|apply wrap64_is_wrap].
  unfold duration_str. apply fits_range in Hh, Hm, Hs.
  destruct Hc as [m sec Dm Ds|h m sec Dh Dm Ds].
  - change (":" +:+ sec) with (String ":" sec). rewrite dur_match_ms by (by apply digits_all).
    rewrite !atoi_group_digits by (done || constructor). rewrite Hh, Hm, Hs, wrap64_nest. done.
  - change (":" +:+ m +:+ ":" +:+ sec) with (String ":" (m +:+ String ":" sec)).
    rewrite dur_match_hms by (by apply digits_all).
    rewrite sapp_nil_l, !atoi_group_digits by done. rewrite Hh, Hm, Hs, wrap64_nest. done.
Qed.
Lemma duration_err (s : string) :
  (forall h m sec, clock s h m sec -> ~ (fits (number h) /\ fits (number m) /\ fits (number sec))) ->
  duration_str (V := V) s = Err.
Proof.
  intros H. unfold duration_str. destruct (dur_match "" s) as [[[g1 g2] g3]|] eqn:E; [|done].
  assert (exists h m sec, clock s h m sec /\ (g1, g2, g3) = (h, m, sec)) as (h & m & sec & Hc & Eq).
  { destruct (dur_match_complete s) as [(m & sec & Dm & Ds & ->)|(h & m & sec & Dh & Dm & Ds & ->)];
      [congruence| |].
    - exists "", m, sec. split; [apply clock_ms; by apply digits_all|].
      rewrite dur_match_ms in E by done. congruence.
    - exists h, m, sec. split; [apply clock_hms; by apply digits_all|].
      rewrite dur_match_hms in E by done. rewrite sapp_nil_l in E. congruence. }
  injection Eq as -> -> ->.
  assert (digits h /\ digits m /\ digits sec) as (Dh & Dm & Ds) by (destruct Hc; repeat split; done || constructor).
  rewrite !atoi_group_digits by done. specialize (H _ _ _ Hc). rewrite !fits_range in H.
  destruct (int_range (number h)), (int_range (number m)), (int_range (number sec)); try done. tauto.
Qed.

(** ** max *)
Lemma number_value_by by_arg item f :
  (exists b, jget_g W view by_arg item = Some b /\ number_value view b f) <-> by_value W view by_arg item = Some f.
Proof.
  unfold by_value, number_value. split.
  - intros (b & -> & [->|(z & -> & ->)]); done.
  - destruct (jget_g W view by_arg item) as [b|]; [|done]. intros H. exists b. split; [done|].
    destruct (gview view b) as [[]| | | |]; try done.
    + right. eexists. split; [done|]. unfold f_of_int in H. congruence.
    + left. congruence.
Qed.
Lemma max_thm args items fs raw li best :
  gview view raw = WArr items ->
  Forall2 (fun item f => exists b, jget_g W view (replace1 (arg args "by") "@" "$") item = Some b /\ number_value view b f) items fs ->
  fs !! li = Some best -> float_gt best f_zero ->
  (forall j f, fs !! j = Some f -> ~ float_gt f best) ->
  (forall j f, (j < li)%nat -> fs !! j = Some f -> not_nan f -> float_gt best f) ->
  exists item, items !! li = Some item /\
  op_run W view (OpMax args) raw =
  match jget_g W view (replace1 (arg args "return") "@" "$") item with Some r => Ok r | None => Err end.
Proof.
  intros Hraw HF Hli Hpos Hmax Hfirst.
  destruct (Forall2_lookup_r _ _ _ _ _ HF Hli) as (item & Hit & _). exists item. split; [done|].
  cbn [op_run]. unfold op_max. rewrite Hraw.
  assert (Forall2 (fun item f => by_value W view (replace1 (arg args "by") "@" "$") item = Some f) items fs) as HF'.
  { eapply Forall2_impl; [exact HF|]. intros x y H. by apply number_value_by. }
  destruct (max_loop_inv W view _ items fs HF' [] fs 0%nat f_zero 0%nat) as (lg & li' & E & Hle & Hinv);
    [done|done|done|by left|].
  rewrite drop_0 in E. rewrite E.
  assert (li' = li) as ->; [|by rewrite Hit].
  destruct Hinv as [[-> ->]|(Hl & Hp & Hb)].
  - exfalso. specialize (Hle _ _ Hli). unfold float_gt, f_gtb in *. congruence.
  - assert (forall f x, f_gtb x f = true -> fkey x <> None) as Hk.
    { intros f x H. unfold f_gtb in H. apply SFltb_key in H as (a & b & _ & Hb' & _). congruence. }
    assert (forall x, fkey x <> None -> not_nan x) as Hnn by (intros x Hx ->; done).
    destruct (lt_eq_lt_dec li' li) as [[Hlt|]|Hlt]; [|done|].
    + exfalso. specialize (Hfirst _ _ Hlt Hl (Hnn _ (Hk _ _ Hp))).
      specialize (Hle _ _ Hli). unfold float_gt, f_gtb in *. congruence.
    + exfalso. apply (Hmax _ _ Hl). apply (Hb _ _ Hlt Hli). by eapply Hk.
Qed.
Lemma max_first args items fs raw item :
  gview view raw = WArr items -> items !! 0%nat = Some item ->
  Forall2 (fun item f => exists b, jget_g W view (replace1 (arg args "by") "@" "$") item = Some b /\ number_value view b f) items fs ->
  Forall (fun f => ~ float_gt f f_zero) fs ->
  op_run W view (OpMax args) raw =
  match jget_g W view (replace1 (arg args "return") "@" "$") item with Some r => Ok r | None => Err end.
Proof.
  intros Hraw Hit HF Hnp. cbn [op_run]. unfold op_max. rewrite Hraw.
  assert (Forall2 (fun item f => by_value W view (replace1 (arg args "by") "@" "$") item = Some f) items fs) as HF'.
  { eapply Forall2_impl; [exact HF|]. intros x y H. by apply number_value_by. }
  destruct (max_loop_inv W view _ items fs HF' [] fs 0%nat f_zero 0%nat) as (lg & li' & E & Hle & Hinv);
    [done|done|done|by left|].
  rewrite drop_0 in E. rewrite E.
  destruct Hinv as [[-> ->]|(Hl & Hp & Hb)]; [by rewrite Hit|].
  rewrite Forall_forall in Hnp. exfalso. eapply Hnp; [by eapply elem_of_list_lookup_2|exact Hp].
Qed.
Lemma max_bad args items raw :
  gview view raw = WArr items ->
  (exists item, item ∈ items /\ forall b f, jget_g W view (replace1 (arg args "by") "@" "$") item = Some b -> ~ number_value view b f) ->
  op_run W view (OpMax args) raw = Err.
Proof.
  intros Hraw (item & Hin & Hno). cbn [op_run]. unfold op_max. rewrite Hraw.
  assert (forall i lg li, max_loop W view (replace1 (arg args "by") "@" "$") i items lg li = Err) as ->; [|done].
  clear Hraw. induction items as [|x items IH]; intros i lg li; [by apply elem_of_nil in Hin|].
  rewrite max_loop_step. destruct (by_value _ _ _ x) as [f|] eqn:Ex; [|done].
  apply elem_of_cons in Hin as [->|Hin].
  - apply number_value_by in Ex as (b & Eb & Hb). destruct (Hno _ _ Eb Hb).
  - case_match; by apply IH.
Qed.
End dur.

Lemma max_arg args k p : args !! k = Some ("@" +:+ p) -> replace1 (arg args k) "@" "$" = "$" +:+ p.
Proof. intros E. unfold arg. rewrite E. cbn. done. Qed.

(** ** op_init *)
Lemma op_init_thm W name args : (exists o, op_init W name args = Some o) <-> well_formed_op (o_re_ok W) name args.
Proof.
  assert (forall ks, NoDup ks -> (forall k, is_Some (args !! k) <-> k ∈ ks) <-> required_args ks args = true) as Hr.
  { intros ks Hnd. rewrite required_args_spec by done. split.
    - intros H. apply set_eq. intros k. rewrite elem_of_list_to_set, elem_of_dom. apply H.
    - intros E k. rewrite <- elem_of_dom, E, elem_of_list_to_set. done. }
  Local Ltac in_doc := by repeat (apply elem_of_list_here || apply elem_of_list_further).
  Local Ltac find_keys Hin :=
    unfold documented in Hin;
    repeat (apply elem_of_cons in Hin as [Hin|Hin]; [first [discriminate Hin|injection Hin as ->]|]);
    [..|by apply elem_of_nil in Hin].
  Local Ltac nodup := repeat constructor; set_solver.
  Local Ltac plain :=
    split; [intros _; eexists; split; [in_doc|]; split; [done|]; split; done|intros _; eexists; reflexivity].
  Local Ltac keyed Hr l c :=
    let e := fresh in
    match goal with |- context [op_init ?W ?n ?args] =>
      change (op_init W n args) with (if required_args l args then Some (c args) else None) end;
    split;
    [ intros [o Ho];
      match type of Ho with (if required_args l ?a then _ else _) = _ =>
        destruct (required_args l a) eqn:e; [|done] end;
      exists (Some l); split; [in_doc|]; split;
      [intros ks [= <-]; apply Hr; [nodup|done]|split; done]
    | intros (keys & Hin & Hk & _ & _); find_keys Hin;
      specialize (Hk _ eq_refl); apply Hr in Hk; [|nodup];
      rewrite Hk; eexists; reflexivity ].
  destruct (decide (name = "changeCase")) as [->|N1].
  { change (op_init W "changeCase" args) with
      (if required_args ["to"] args &&
         (bool_decide (args !! "to" = Some "lower") || bool_decide (args !! "to" = Some "upper"))
       then Some (OpChangeCase args) else None).
    split.
    - intros [o H]. destruct (required_args ["to"] args) eqn:E; [|done]. cbn [andb] in H.
      destruct (bool_decide (args !! "to" = Some "lower") || _) eqn:E2; [|done].
      rewrite orb_true_iff, !bool_decide_eq_true in E2.
      exists (Some ["to"]). split; [in_doc|]. split; [intros ks [= <-]; apply Hr; [nodup|done]|]. split; done.
    - intros (keys & Hin & Hk & Hc & _). find_keys Hin. specialize (Hk _ eq_refl). apply Hr in Hk; [|nodup].
      rewrite Hk. cbn [andb]. specialize (Hc eq_refl).
      assert (bool_decide (args !! "to" = Some "lower") || bool_decide (args !! "to" = Some "upper") = true) as ->
        by by rewrite orb_true_iff, !bool_decide_eq_true.
      eexists; done. }
  destruct (decide (name = "replace")) as [->|N2].
  { change (op_init W "replace" args) with
      (if required_args ["regex"; "new"] args && o_re_ok W (default "" (args !! "regex"))
       then Some (OpReplace args) else None).
    split.
    - intros [o H]. destruct (required_args ["regex"; "new"] args) eqn:E; [|done]. cbn [andb] in H.
      destruct (o_re_ok W _) eqn:E2; [|done].
      exists (Some ["regex"; "new"]). split; [in_doc|]. split; [intros ks [= <-]; apply Hr; [nodup|done]|].
      split; [done|]. intros _ r Er. by rewrite Er in E2.
    - intros (keys & Hin & Hk & _ & Hc). find_keys Hin. specialize (Hk _ eq_refl).
      assert (is_Some (args !! "regex")) as [r Er] by (apply Hk; set_solver).
      apply Hr in Hk; [|nodup].
      rewrite Hk. cbn [andb]. rewrite Er. change (default "" (Some r)) with r. rewrite (Hc eq_refl _ Er). eexists; done. }
  destruct (decide (name = "currentTime")) as [->|N3]; [keyed Hr ["format"] OpCurrentTime|].
  destruct (decide (name = "max")) as [->|N4]; [keyed Hr ["by"; "return"] OpMax|].
  destruct (decide (name = "split")) as [->|N5]; [keyed Hr ["on"] OpSplit|].
  destruct (decide (name = "timeParse")) as [->|N6]; [keyed Hr ["format"; "layout"] OpTimeParse|].
  destruct (decide (name = "toCamelCase")) as [->|N7]; [keyed Hr ["delimiter"] OpToCamelCase|].
  destruct (decide (name = "duration")) as [->|N8]; [plain|].
  destruct (decide (name = "inverse")) as [->|N9]; [plain|].
  destruct (decide (name = "removeHTML")) as [->|N10]; [plain|].
  destruct (decide (name = "convertToFloat64")) as [->|N11]; [plain|].
  destruct (decide (name = "convertToInt64")) as [->|N12]; [plain|].
  destruct (decide (name = "convertToBool")) as [->|N13]; [plain|].
  destruct (decide (name = "valueExists")) as [->|N14]; [plain|].
  split.
  - intros [o H]. unfold op_init in H. rewrite !decide_False in H by done. done.
  - intros (keys & Hin & _). exfalso. unfold documented in Hin.
    repeat (apply elem_of_cons in Hin as [Hin|Hin]; [by injection Hin as -> |]). by apply elem_of_nil in Hin.
Qed.

(** ** parsing a transform section *)
Lemma dec_meth_spec s me : dec_meth s = Ok me <-> method_named s me.
Proof.
  unfold dec_meth. repeat case_decide; subst; destruct me; cbn; split; intros ?; try done;
    naive_solver.
Qed.
Lemma dec_meth_err s : (forall me, ~ method_named s me) <-> dec_meth s = Err.
Proof.
  split.
  - intros H. destruct (dec_meth s) as [me| |] eqn:E; [|done|].
    + by apply dec_meth_spec, H in E.
    + unfold dec_meth in E. repeat case_decide; done.
  - intros E me H. apply dec_meth_spec in H. congruence.
Qed.
Lemma dec_args_json kvs : dec_args ((fun kv => (kv.1, str_json kv.2)) <$> kvs) = Ok (list_to_map kvs).
Proof.
  induction kvs as [|[k v] kvs IH]; [done|]. cbn [fmap list_fmap fst snd dec_args str_json].
  change (list_fmap _ _ _ kvs) with ((fun kv : string * string => (kv.1, str_json kv.2)) <$> kvs).
  rewrite IH. done.
Qed.
Lemma dec_op_json W no : dec_op W (op_json no) =
  match op_init W no.1 (list_to_map no.2) with Some o => Ok o | None => Err end.
Proof.
  destruct no as [name args]. unfold dec_op, op_json, dec_str.
  change (jlookup "type" _) with (Some (TS (SStr (name, args).1))).
  change (jlookup "args" _) with (Some (TObj ((fun kv => (kv.1, str_json kv.2)) <$> args))).
  cbn [rbind]. rewrite dec_args_json. done.
Qed.
Lemma dec_ops_json W nos :
  (exists os, dec_ops W (op_json <$> nos) = Ok os /\
     Forall2 (fun no o => op_init W no.1 (list_to_map no.2) = Some o) nos os) \/
  (dec_ops W (op_json <$> nos) = Err /\ exists no, no ∈ nos /\ op_init W no.1 (list_to_map no.2) = None).
Proof.
  induction nos as [|no nos IH]; [left; eexists; split; [done|constructor]|].
  rewrite fmap_cons. cbn [dec_ops]. rewrite dec_op_json.
  destruct (op_init W no.1 (list_to_map no.2)) as [o|] eqn:E; cbn [rbind].
  - destruct IH as [(os & -> & HF)|(-> & no' & Hin & Hno)]; cbn [rbind].
    + left. eexists. split; [done|]. by constructor.
    + right. split; [done|]. exists no'. split; [by apply elem_of_list_further|done].
  - right. split; [done|]. exists no. split; [apply elem_of_list_here|done].
Qed.
Lemma dec_instr_json W e : dec_instr W (entry_json e) =
  rbind (dec_ops W (op_json <$> e_ops e)) (fun ops => Ok (Some (Instr (e_jpath e) (e_xpath e) ops))).
Proof. reflexivity. Qed.
Lemma dec_tis_thm W entries method delim :
  (exists me from, dec_tis W (tis_json entries method delim) = Ok (me, delim, from) /\
     method_named method me /\
     Forall2 (fun e i => exists ops, i = Some (Instr (e_jpath e) (e_xpath e) ops) /\
                Forall2 (fun no o => op_init W no.1 (list_to_map no.2) = Some o) (e_ops e) ops) entries from /\
     Forall (fun e => Forall (fun no => well_formed_op (o_re_ok W) no.1 (list_to_map no.2)) (e_ops e)) entries) \/
  (dec_tis W (tis_json entries method delim) = Err /\
     ((forall me, ~ method_named method me) \/
      exists e no, e ∈ entries /\ no ∈ e_ops e /\ ~ well_formed_op (o_re_ok W) no.1 (list_to_map no.2))).
Proof.
  assert ((exists from, dec_from W (entry_json <$> entries) = Ok from /\
     Forall2 (fun e i => exists ops, i = Some (Instr (e_jpath e) (e_xpath e) ops) /\
                Forall2 (fun no o => op_init W no.1 (list_to_map no.2) = Some o) (e_ops e) ops) entries from /\
     Forall (fun e => Forall (fun no => well_formed_op (o_re_ok W) no.1 (list_to_map no.2)) (e_ops e)) entries) \/
   (dec_from W (entry_json <$> entries) = Err /\
      exists e no, e ∈ entries /\ no ∈ e_ops e /\ ~ well_formed_op (o_re_ok W) no.1 (list_to_map no.2))) as HF.
  { induction entries as [|e entries IH].
    - left. exists []. split; [done|]. split; constructor.
    - rewrite fmap_cons. cbn [dec_from]. rewrite dec_instr_json.
      destruct (dec_ops_json W (e_ops e)) as [(os & -> & HO)|(-> & no & Hin & Hno)]; cbn [rbind].
      + destruct IH as [(from & -> & H1 & H2)|(-> & e' & no & He & Hin & Hno)]; cbn [rbind].
        * left. eexists. split; [done|]. split.
          -- constructor; [|done]. by eexists.
          -- constructor; [|done]. apply Forall_forall. intros no Hin.
             apply elem_of_list_lookup_1 in Hin as [i Hi].
             destruct (Forall2_lookup_l _ _ _ _ _ HO Hi) as (o & _ & Ho). apply op_init_thm. by eexists.
        * right. split; [done|]. exists e', no. split; [by apply elem_of_list_further|done].
      + right. split; [done|]. exists e, no. split; [apply elem_of_list_here|]. split; [done|].
        rewrite <- op_init_thm. intros [o Ho]. congruence. }
  assert (dec_tis W (tis_json entries method delim) =
    rbind (dec_from W (entry_json <$> entries)) (fun from =>
    rbind (dec_meth method) (fun me => Ok (me, delim, from)))) as -> by reflexivity.
  destruct HF as [(from & -> & H1 & H2)|(-> & H)]; cbn [rbind].
  - destruct (dec_meth method) as [me| |] eqn:Em; cbn [rbind].
    + left. exists me, from. split; [done|]. split; [by apply dec_meth_spec|done].
    + right. split; [done|]. left. by apply dec_meth_err.
    + unfold dec_meth in Em. repeat case_decide; done.
  - right. split; [done|]. by right.
Qed.

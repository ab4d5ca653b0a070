(** Proofs about failing calls: runs without Avro, runs without failures, lost fields. *)
From stdpp Require Import strings list gmap.
From Coq Require Import Ascii Lia.
From Verif Require Import GoStr GoStrL Val Conv Schema Inst Load SpecFiles SpecWhole Gen GenL Files FilesL Gql Avro GoSrc Mapper Template Whole WholeL Crash CrashL Fault SpecFault FaultL.
Set Default Proof Using "Type".

Section proofs.
Context (W : oracles) (F : files) (o_abs : string -> string) (o_fmt : string -> option string).
Context (o_quote o_trim o_quote_avro : string -> string) (o_unquote : string -> option string) (o_tag : afield -> string).
Context (o_types : string -> string) (o_gogen : string -> string -> option dir) (o_declared : dir -> string -> option texpr).
Context (o_join : list string -> string) (o_msgp : dir -> option (option (string * string * string))).
Context (A : run_args) (pkg : string).
Context (ord : nat -> string -> list string -> list string) (ord' : nat -> list string -> list string -> list string).
Context (flt : nat -> option nat).
Notation SA := (ga (r_gql A)).
Notation run := (run W F o_abs o_fmt o_quote o_trim o_quote_avro o_unquote o_tag o_types o_gogen o_declared o_join o_msgp A pkg ord ord').
Notation run_log := (run_log W F o_abs o_fmt o_quote o_trim o_quote_avro o_unquote o_tag o_types o_gogen o_declared o_join o_msgp A pkg ord ord').
Notation members_log := (build_members_log W F o_abs o_fmt o_quote_avro o_unquote o_tag o_types o_gogen o_declared o_join A pkg ord ord').
Notation avro_log := (build_avro_log W o_fmt o_quote_avro o_unquote o_tag o_types o_gogen o_declared o_join A pkg).
Notation gql_log := (build_gql_log W F o_abs o_quote o_trim A pkg).
Notation struct_log := (build_struct_log W F o_abs o_fmt A pkg ord ord').
Notation run_f := (run_faulty W F o_abs o_fmt o_quote o_trim o_quote_avro o_unquote o_tag o_types o_gogen o_declared o_join o_msgp A pkg ord ord' flt).
Notation members_f := (members_faulty W F o_abs o_fmt o_quote_avro o_unquote o_tag o_types o_gogen o_declared o_join A pkg ord ord' flt).
Notation avro_f := (avro_faulty W o_fmt o_quote_avro o_unquote o_tag o_types o_gogen o_declared o_join A pkg flt).
Notation gql_f := (gql_faulty W F o_abs o_quote o_trim A pkg flt).
Notation go_f := (go_faulty W F o_abs o_fmt A pkg ord ord' flt).
Notation ask := (ask flt).
Notation checked := (checked flt).

(** ** the results *)
Lemma faults_reported n fuel og og' sp d s r : run_f n fuel og og' sp d = Some (s, r) -> Forall unnoticed (io_failed s) \/ r = Err.
Proof. intros (x & H1 & H2 & H3)%run_stage. by rewrite H1. Qed.
Lemma faults_none n fuel og og' sp d s r : run_f n fuel og og' sp d = Some (s, r) -> io_failed s = [] -> run n fuel og og' sp d = Some (io_disk s, r).
Proof.
  intros (x & H1 & H2 & H3)%run_stage H. cbn in H1. rewrite H in H1. destruct (H3 (eq_sym H1)) as (ws & L1 & L2). rewrite run_is_log, L1, L2. done.
Qed.
Lemma faults_success n fuel og og' sp d s : run_f n fuel og og' sp d = Some (s, Ok tt) -> (forall c, c ∈ io_failed s -> ~ unnoticed c) ->
  run n fuel og og' sp d = Some (io_disk s, Ok tt).
Proof.
  intros H Hn. apply faults_none in H as H'; [done|]. apply faults_reported in H as [H|]; [|done]. destruct (io_failed s) as [|c x]; [done|].
  exfalso. apply (Hn c); [by left|]. by inversion H.
Qed.

(** ** without Avro and MessagePack *)
Definition cut_only (x : list call) (d d' : disk) : Prop :=
  forall p, content d' p = content d p \/
    exists f t whole, p = POut f /\ GoClose f ∈ x /\ content d p = Some whole /\ content d' p = Some t /\ beginning t whole.
Lemma cut_write x d d' w : cut_only x d d' -> cut_only x (apply_write d w) (apply_write d' w).
Proof.
  intros H p. rewrite !content_write. destruct (text_of w p) as [t|] eqn:E; [by left|]. destruct (H p) as [K|(f & t & whole & -> & K1 & K2 & K3 & K4)]; [by left|].
  right. exists f, t, whole. split_and!; done.
Qed.
Lemma cut_more x y d d' : (forall c, c ∈ x -> c ∈ y) -> cut_only x d d' -> cut_only y d d'.
Proof. intros H K p. destruct (K p) as [|(f & t & whole & -> & K1 & K2 & K3 & K4)]; [by left|right]. exists f, t, whole. split_and!; auto. Qed.
Lemma gql_writes_all ws : forall s s', gql_writes flt ws s = (s', true) -> io_failed s' = io_failed s /\ io_disk s' = apply_writes ws (io_disk s).
Proof.
  induction ws as [|w ws IH]; intros s s'; cbn [gql_writes]; [by intros [= <-]|]. destruct (checked _ w s) as [s1 b1] eqn:E. destruct b1; [|done].
  apply checked_fine in E as [E1 E2]. intros [H1 H2]%IH. by rewrite H1, H2, E1, E2.
Qed.
Lemma gql_ok n o o' sp s s' : gql_f n o o' sp s = Some (s', Ok tt) -> io_failed s' = io_failed s /\ exists ws, gql_log n o o' sp = Some (ws, Ok tt) /\ io_disk s' = apply_writes ws (io_disk s).
Proof.
  unfold gql_faulty. destruct (gql_log n o o' sp) as [[ws r0]|]; [|done]. destruct (gql_writes flt ws s) as [s1 b] eqn:E. destruct b; [|done].
  apply gql_writes_all in E as [E1 E2]. destruct r0 as [[]| |]; [|done..]. cbn zeta. destruct (ask _ s1) as [[k|] s2] eqn:K; [done|]. intros [= <-].
  apply ask_fine in K as [K1 K2]. rewrite K1, K2. eauto.
Qed.
Lemma go_ok n i sp child name embeds s s' d : cut_only (io_failed s) d (io_disk s) -> go_f n i sp child name embeds s = Some (s', Ok tt) ->
  exists ws, struct_log n i sp child name embeds = Some (ws, Ok tt) /\ cut_only (io_failed s') (apply_writes ws d) (io_disk s').
Proof.
  intros Hc. unfold go_faulty. destruct (struct_log n i sp child name embeds) as [[ws r0]|] eqn:E; [|done].
  destruct (struct_log_one _ _ _ _ _ _ _ _ _ _ _ _ _ _ _ _ E) as [[-> Hr]|(f & t & ->)]; [by intros [= <- ->]|].
  destruct (ask (GoCreate f) s) as [[k|] s1] eqn:E1; [done|]. apply ask_fine in E1 as [E1 E1'].
  destruct r0 as [[]| |].
  - destruct (checked (GoWrite f) (WOut f t) s1) as [s2 b] eqn:E2. destruct b; [|done]. apply checked_fine in E2 as [E2 E2'].
    intros H. exists [WOut f t]. split; [done|]. change (apply_writes [WOut f t] d) with (apply_write d (WOut f t)).
    pose proof (cut_write _ _ _ (WOut f t) Hc) as Hw. rewrite <- E1' , <- E2' in Hw.
    destruct (ask (GoClose f) s2) as [[k|] s3] eqn:E3; injection H as <-.
    + apply ask_fails in E3 as [E3 E3']. cbn [io_failed io_disk write_to short]. rewrite E3, E2, E1, E3'. intros p. rewrite content_write. cbn [text_of short].
      assert (Hmore : cut_only (io_failed s ++ [GoClose f]) (apply_write d (WOut f t)) (io_disk s2)) by (eapply cut_more; [|exact Hw]; intros c Hx; apply elem_of_app; by left).
      destruct p as [f'|f'|p' f'].
      * destruct (decide (f' = f)) as [->|N].
        -- right. exists f, (first_bytes k t), t. split_and!; [done|apply elem_of_app; right; by left| |done|apply first_beginning]. rewrite content_write. cbn. by destruct (decide (f = f)).
        -- exact (Hmore (POut f')).
      * exact (Hmore (PGql f')).
      * exact (Hmore (PAvro p' f')).
    + apply ask_fine in E3 as [E3 E3']. rewrite E3, E3', E2, E1. exact Hw.
  - destruct (ask _ _) as [[k|] s3]; done.
  - destruct (ask _ _) as [[k|] s3]; done.
Qed.
Local Arguments apply_writes : simpl never.
Lemma members_ok n fuel sp ms : r_avro A = false -> forall i s s' d, cut_only (io_failed s) d (io_disk s) -> members_f n fuel i sp ms s = Some (s', Ok tt) ->
  exists ws, members_log n fuel i sp ms d = Some (ws, Ok tt) /\ cut_only (io_failed s') (apply_writes ws d) (io_disk s').
Proof.
  intros Ha. induction ms as [|[[child name] embeds] ms IH]; intros i s s' d Hc; cbn [members_faulty build_members_log]; [intros [= <-]; by exists []|].
  destruct (go_f n i sp child name embeds s) as [[s1 r1]|] eqn:E1; [|done]. destruct r1 as [[]| |]; [|done..]. rewrite Ha.
  apply (go_ok _ _ _ _ _ _ _ _ d Hc) in E1 as (ws & L & Hc1). rewrite L. cbn [fst]. rewrite app_nil_r. intros H. apply (IH _ _ _ _ Hc1) in H as (ws' & M & Hc2).
  rewrite M. eexists. split; [done|]. by rewrite !apply_app.
Qed.
Lemma run_ok n fuel og og' sp d s : r_avro A = false -> r_msgp A = false -> run_f n fuel og og' sp d = Some (s, Ok tt) ->
  exists d', run n fuel og og' sp d = Some (d', Ok tt) /\ cut_only (io_failed s) d' (io_disk s).
Proof.
  intros Ha Hm. unfold run_faulty. rewrite run_is_log. unfold Crash.run_log. cbn zeta.
  destruct (f_file F (o_abs sp)) as [doc|]; [|done]. destruct (schema_types doc) as [[[alls ones] props]| |]; [|done..]. rewrite Hm.
  assert (E1 : forall s1, (if r_graphql A then gql_f n og og' sp (Io 0 [] d) else Some (Io 0 [] d, Ok tt)) = Some (s1, Ok tt) ->
    exists ws, (if r_graphql A then gql_log n og og' sp else Some ([], Ok tt)) = Some (ws, Ok tt) /\ io_disk s1 = apply_writes ws d).
  { intros s1. destruct (r_graphql A); [|intros [= <-]; by exists []]. intros [_ H]%gql_ok. exact H. }
  destruct (if r_graphql A then gql_f _ _ _ _ _ else _) as [[s1 [[]| |]]|]; [|done..]. destruct (E1 s1 eq_refl) as (ws & L & Ld). rewrite L.
  destruct (members_f _ _ _ _ _ s1) as [[s2 [[]| |]]|] eqn:E2; [|done..]. intros [= <-].
  apply (members_ok _ _ _ _ Ha _ _ _ (apply_writes ws d)) in E2 as (ws' & M & Hc); [|intros p; left; by rewrite Ld]. rewrite M. eexists. split; [done|]. by rewrite apply_app.
Qed.
End proofs.

(** ** runs in which nothing fails *)
Section fine.
Context (W : oracles) (F : files) (o_abs : string -> string) (o_fmt : string -> option string).
Context (o_quote o_trim o_quote_avro : string -> string) (o_unquote : string -> option string) (o_tag : afield -> string).
Context (o_types : string -> string) (o_gogen : string -> string -> option dir) (o_declared : dir -> string -> option texpr).
Context (o_join : list string -> string) (o_msgp : dir -> option (option (string * string * string))).
Context (A : run_args) (pkg : string).
Context (ord : nat -> string -> list string -> list string) (ord' : nat -> list string -> list string -> list string).
Notation fine := (fun _ : nat => @None nat).
Notation run := (run W F o_abs o_fmt o_quote o_trim o_quote_avro o_unquote o_tag o_types o_gogen o_declared o_join o_msgp A pkg ord ord').
Notation run_log := (run_log W F o_abs o_fmt o_quote o_trim o_quote_avro o_unquote o_tag o_types o_gogen o_declared o_join o_msgp A pkg ord ord').
Notation members_log := (build_members_log W F o_abs o_fmt o_quote_avro o_unquote o_tag o_types o_gogen o_declared o_join A pkg ord ord').
Notation avro_log := (build_avro_log W o_fmt o_quote_avro o_unquote o_tag o_types o_gogen o_declared o_join A pkg).
Notation gql_log := (build_gql_log W F o_abs o_quote o_trim A pkg).
Notation struct_log := (build_struct_log W F o_abs o_fmt A pkg ord ord').
Notation run_f := (run_faulty W F o_abs o_fmt o_quote o_trim o_quote_avro o_unquote o_tag o_types o_gogen o_declared o_join o_msgp A pkg ord ord' fine).
Notation members_f := (members_faulty W F o_abs o_fmt o_quote_avro o_unquote o_tag o_types o_gogen o_declared o_join A pkg ord ord' fine).
Notation avro_f := (avro_faulty W o_fmt o_quote_avro o_unquote o_tag o_types o_gogen o_declared o_join A pkg fine).
Notation gql_f := (gql_faulty W F o_abs o_quote o_trim A pkg fine).
Notation go_f := (go_faulty W F o_abs o_fmt A pkg ord ord' fine).
(** [out] of a stage that begins in [s] is what the log says *)
Definition as_log (s : io) (out : option (io * res unit)) (log : option (list write * res unit)) : Prop :=
  match out, log with
  | Some (s', r), Some (ws, r') => r = r' /\ io_failed s' = io_failed s /\ io_disk s' = apply_writes ws (io_disk s)
  | None, None => True
  | _, _ => False
  end.
Lemma gql_writes_fine ws : forall s, exists s', gql_writes fine ws s = (s', true) /\ io_failed s' = io_failed s /\ io_disk s' = apply_writes ws (io_disk s).
Proof.
  induction ws as [|w ws IH]; intros s; [by exists s|]. cbn [gql_writes Fault.checked Fault.ask].
  destruct (IH (write_to w (Io (S (io_calls s)) (io_failed s) (io_disk s)))) as (s' & H1 & H2 & H3). exists s'. by rewrite H1, H2, H3.
Qed.
Lemma gql_fine n o o' sp s : as_log s (gql_f n o o' sp s) (gql_log n o o' sp).
Proof.
  unfold gql_faulty. destruct (gql_log n o o' sp) as [[ws r0]|]; [|done]. destruct (gql_writes_fine ws s) as (s1 & -> & H1 & H2). destruct r0 as [[]| |]; done.
Qed.
Lemma go_fine n i sp child name embeds s : as_log s (go_f n i sp child name embeds s) (struct_log n i sp child name embeds).
Proof.
  unfold go_faulty. destruct (struct_log n i sp child name embeds) as [[ws r0]|] eqn:E; [|done].
  destruct (struct_log_one _ _ _ _ _ _ _ _ _ _ _ _ _ _ _ _ E) as [[-> Hr]|(f & t & ->)]; [done|]. by destruct r0 as [[]| |].
Qed.
Lemma pieces_fine f ps : forall t s, exists s', put_pieces fine f ps t s = (t +:+ glue ps, s') /\ io_failed s' = io_failed s /\ io_disk s' = io_disk s.
Proof.
  induction ps as [|p ps IH]; intros t s; cbn [put_pieces Fault.ask]; [exists s; by rewrite sapp_nil_r|].
  destruct (IH (t +:+ p) (Io (S (io_calls s)) (io_failed s) (io_disk s))) as (s' & H1 & H2 & H3). exists s'. rewrite H1, H2, H3. cbn [glue foldr].
  change (foldr String.append "" ps) with (glue ps). by rewrite app_assoc_s.
Qed.
Lemma avsc_fine f head ps s : exists s', avsc_faulty fine f head ps s = (s', true) /\ io_failed s' = io_failed s /\
  io_disk s' = apply_write (io_disk s) (WOut f ("{" +:+ head +:+ glue ps +:+ "]}")).
Proof.
  unfold avsc_faulty. cbn [Fault.ask]. set (s1 := Io _ _ _). destruct (pieces_fine f ["{"] "" s1) as (s2 & -> & H1 & H2). cbn zeta.
  set (s3 := Io _ _ _). destruct (pieces_fine f ps (("" +:+ glue ["{"]) +:+ head) s3) as (s4 & -> & H3 & H4).
  destruct (pieces_fine f ["]}"] ((("" +:+ glue ["{"]) +:+ head) +:+ glue ps) s4) as (s5 & -> & H5 & H6). eexists. split; [reflexivity|].
  cbn [io_failed io_disk write_to]. rewrite H5, H6, H3, H4. cbn [io_failed io_disk s3]. rewrite H1, H2. split; [done|]. do 2 f_equal.
  cbn [glue foldr]. rewrite !sapp_nil_r. change ("" +:+ "{") with "{". by rewrite !app_assoc_s.
Qed.
Lemma avro_fine fuel name file s : as_log s (avro_f fuel name file s) (avro_log fuel name file (io_disk s)).
Proof.
  unfold avro_faulty, build_avro_log. cbn zeta. unfold avro_schema. set (nm := exported W name). set (low := go_lower W nm). set (fs := viewed o_types (d_out (io_disk s))).
  destruct (struct_in_file fs file nm) as [ty|] eqn:Ety; [|done].
  unfold avro_file. rewrite (proj1 (pieces_text W o_quote_avro (sources_of o_unquote fs) fuel)).
  destruct (list_pieces W o_quote_avro (sources_of o_unquote fs) fuel [] [] (field_lists (to_texpr o_unquote ty)) []) as [[ps seen]|]; [|done].
  cbn [fmap option_fmap option_map obind fst snd]. set (avsc := low +:+ ".avsc"). set (p := sub_name avsc). set (head := header _ _ _ _).
  destruct (avsc_fine avsc head ps s) as (s1 & -> & H1 & H2). set (t := "{" +:+ _) in *.
  replace (default "" (assocd avsc (d_out (io_disk s1)))) with t by (rewrite H2; cbn; rewrite assocd_put; by destruct (decide _)).
  destruct (o_gogen p t) as [gs|] eqn:Eg; [|done]. cbn [Fault.checked Fault.ask]. set (s2 := write_to _ _).
  assert (H3 : io_disk s2 = apply_writes [WOut avsc t; WAvro p gs] (io_disk s)) by (cbn; by rewrite H2).
  rewrite H3. destruct (Whole.helper_values _ _ _ _ _ _ _ _ _ _ _ _) as [[vals|]|]; [| |done].
  - destruct (o_fmt (fill vals avro_template)) as [h|]; [|done]. destruct (o_fmt (fill vals avro_test_template)) as [h'|].
    + unfold as_log, s2. cbn [io_failed io_disk write_to]. rewrite H1, ?H2. done.
    + unfold as_log, s2. cbn [io_failed io_disk write_to]. rewrite H1, ?H2. done.
  - split_and!; [done..|exact H3].
Qed.
Lemma members_fine n fuel sp ms : forall i s, as_log s (members_f n fuel i sp ms s) (members_log n fuel i sp ms (io_disk s)).
Proof.
  induction ms as [|[[child name] embeds] ms IH]; intros i s; cbn [members_faulty build_members_log]; [done|].
  pose proof (go_fine n i sp child name embeds s) as G. destruct (go_f n i sp child name embeds s) as [[s1 r1]|], (struct_log n i sp child name embeds) as [[ws r]|]; try done.
  destruct G as (<- & G1 & G2). destruct r1 as [[]| |]; [|split_and!; done..]. rewrite <- G2.
  set (file := sub_name _ +:+ _). assert (K : as_log s1 (if r_avro A then avro_f fuel name file s1 else Some (s1, Ok tt)) (if r_avro A then avro_log fuel name file (io_disk s1) else Some ([], Ok tt))).
  { destruct (r_avro A); [apply avro_fine|done]. }
  destruct (if r_avro A then avro_f _ _ _ _ else _) as [[s2 r2]|], (if r_avro A then avro_log _ _ _ _ else _) as [[ws2 r2']|]; try done.
  destruct K as (<- & K1 & K2). destruct r2 as [[]| |]; [|split_and!; [done|by rewrite K1|by rewrite apply_app, K2, G2]..].
  rewrite apply_app, <- G2, <- K2. pose proof (IH (S i) s2) as L. destruct (members_f n fuel (S i) sp ms s2) as [[s3 r3]|], (members_log n fuel (S i) sp ms (io_disk s2)) as [[ws3 r3']|]; try done.
  destruct L as (<- & L1 & L2). split_and!; [done|by rewrite L1, K1|by rewrite !apply_app, L2, K2, G2].
Qed.
Lemma run_fine n fuel og og' sp d : (fun x : io * res unit => (io_disk x.1, io_failed x.1, x.2)) <$> run_f n fuel og og' sp d = (fun x : disk * res unit => (x.1, [], x.2)) <$> run n fuel og og' sp d.
Proof.
  rewrite run_is_log. assert (K : as_log (Io 0 [] d) (run_f n fuel og og' sp d) (run_log n fuel og og' sp d)).
  2:{ destruct (run_f n fuel og og' sp d) as [[s r]|], (run_log n fuel og og' sp d) as [[ws r']|]; try done. destruct K as (<- & K1 & K2). cbn. by rewrite K1, K2. }
  unfold run_faulty, Crash.run_log. cbn zeta. set (s := Io 0 [] d). destruct (f_file F (o_abs sp)) as [doc|]; [|done].
  destruct (schema_types doc) as [[[alls ones] props]| |]; [|done..].
  assert (G : as_log s (if r_graphql A then gql_f n og og' sp s else Some (s, Ok tt)) (if r_graphql A then gql_log n og og' sp else Some ([], Ok tt))).
  { destruct (r_graphql A); [apply gql_fine|done]. }
  destruct (if r_graphql A then gql_f _ _ _ _ _ else _) as [[s1 r1]|], (if r_graphql A then gql_log _ _ _ _ else _) as [[ws1 r1']|]; try done.
  destruct G as (<- & G1 & G2). destruct r1 as [[]| |]; [|split_and!; done..]. change (io_disk s) with d in G2. rewrite <- G2.
  set (ms := members_of W o_abs A sp alls ones props). pose proof (members_fine n fuel sp ms 0 s1) as K.
  destruct (members_f n fuel 0 sp ms s1) as [[s2 r2]|], (members_log n fuel 0 sp ms (io_disk s1)) as [[ws2 r2']|]; try done.
  destruct K as (<- & K1 & K2). destruct r2 as [[]| |]; [|split_and!; [done|by rewrite K1|by rewrite apply_app, K2, G2]..].
  destruct (r_msgp A); [|split_and!; [done|by rewrite K1|by rewrite apply_app, K2, G2]]. rewrite apply_app, <- G2, <- K2. unfold msgp_faulty, build_msgp_log.
  destruct (o_msgp _) as [[[[p t] t']|]|]; unfold as_log; cbn [Fault.checked Fault.ask io_failed io_disk write_to]; rewrite ?K1, ?K2, ?G2, ?apply_app; (split_and!; [done| |]); cbn; rewrite ?K1, ?K2, ?G2; try done.
Qed.
End fine.

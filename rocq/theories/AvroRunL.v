(** Proofs about running Avro code. *)
From stdpp Require Import strings list gmap.
From Coq Require Import ZArith Lia.
From Verif Require Import GoStr Val Conv AvroRun SpecAvroRun.

(** ** times *)
Lemma wrap_small z : (- 2 ^ 63 <= z < 2 ^ 63)%Z -> wrap64 z = z.
Proof. intros H. unfold wrap64. rewrite Z.mod_small; lia. Qed.
Lemma wrap_wrap a b : wrap64 (wrap64 a + b) = wrap64 (a + b).
Proof.
  unfold wrap64. f_equal.
  replace ((a + 2 ^ 63) mod 2 ^ 64 - 2 ^ 63 + b + 2 ^ 63)%Z with ((a + 2 ^ 63) mod 2 ^ 64 + b)%Z by lia.
  rewrite Zplus_mod_idemp_l. f_equal. lia.
Qed.
Lemma unix_nano_eq t : unix_nano t = wrap64 (nanoseconds t).
Proof. unfold unix_nano, nanoseconds. by rewrite wrap_wrap. Qed.
Lemma unix_nano_rep t : representable t -> unix_nano t = nanoseconds t.
Proof. intros H. rewrite unix_nano_eq. by apply wrap_small. Qed.
Lemma avro_time_within t : representable t -> (Z.abs (avro_time t * 1000000 - nanoseconds t) < 1000000)%Z.
Proof.
  intros H. unfold avro_time. rewrite unix_nano_rep by done.
  assert (E := Z.quot_rem' (nanoseconds t) 1000000). assert (B := Z.rem_bound_abs (nanoseconds t) 1000000 ltac:(lia)). lia.
Qed.
Lemma avro_time_mono t u : representable t -> representable u -> (nanoseconds t <= nanoseconds u)%Z -> (avro_time t <= avro_time u)%Z.
Proof. intros H1 H2 H. unfold avro_time. rewrite !unix_nano_rep by done. apply Z.quot_le_mono; lia. Qed.
Lemma avro_time_exact t k : representable t -> nanoseconds t = (k * 1000000)%Z -> avro_time t = k.
Proof. intros H1 H. unfold avro_time. rewrite unix_nano_rep, H by done. apply Z.quot_mul. lia. Qed.
Lemma avro_optional t : avro_optional_time t = match t with None => 0%Z | Some t => avro_time t end.
Proof. by destruct t. Qed.
Lemma optional_times_eq ts acc : optional_times ts acc = acc ++ (avro_time <$> omap id ts).
Proof.
  revert acc. induction ts as [|[t|] ts IH]; intros acc; cbn.
  - by rewrite app_nil_r.
  - rewrite IH, <- app_assoc. done.
  - rewrite IH. done.
Qed.
Lemma avro_slice ts : length (avro_time_slice ts) = length ts /\ forall i t, ts !! i = Some t -> avro_time_slice ts !! i = Some (avro_time t).
Proof.
  unfold avro_time_slice. split; [apply map_length|]. intros i t E. change (map avro_time ts) with (avro_time <$> ts). by rewrite list_lookup_fmap, E.
Qed.
Lemma avro_optional_slice ts l : avro_optional_time_slice ts = Some l <-> l = avro_time <$> omap id ts /\ l <> [].
Proof.
  unfold avro_optional_time_slice. rewrite optional_times_eq, app_nil_l.
  destruct (avro_time <$> omap id ts) as [|x r]; split; [done|intros [-> H]; done|intros [= <-]; done|intros [-> H]; done].
Qed.
Lemma avro_optional_slice_none ts : avro_optional_time_slice ts = None <-> Forall (fun t => t = None) ts.
Proof.
  unfold avro_optional_time_slice. rewrite optional_times_eq, app_nil_l. split.
  - intros E. destruct (omap id ts) as [|x r] eqn:Eo; [|done]. clear E.
    induction ts as [|[t|] ts IH]; [done|done|]. constructor; [done|]. by apply IH.
  - intros H. replace (omap id ts) with (@nil gtime); [done|]. induction H as [|x ts -> _ IH]; [done|]. apply IH.
Qed.

(** ** single records *)
Section run.
Context {T F : Type} (mapping : T -> F) (zero : F).
Lemma write_cf_records now c z t r : r ∈ (write_cf mapping zero now c z t).1 ->
  exists x, z = Some x /\ r = ARec (avro_time (if t_zero t then now else t)) false (mapping x).
Proof.
  unfold write_cf, write_record. destruct z as [x|]; [|by intros []%elem_of_nil].
  destruct (negb (c_new c)); [by intros []%elem_of_nil|]. destruct (negb (c_record c _)); [by intros []%elem_of_nil|].
  cbn. intros ->%elem_of_list_singleton. eauto.
Qed.
Lemma write_cf_ok now c z t : (write_cf mapping zero now c z t).2 = true -> exists r, (write_cf mapping zero now c z t).1 = [r].
Proof.
  unfold write_cf, write_record. destruct z as [x|]; [|done].
  destruct (negb (c_new c)); [done|]. destruct (negb (c_record c _)); [done|]. cbn. eauto.
Qed.
Lemma write_deleted_records now c z t r : r ∈ (write_deleted_cf mapping zero now c z t).1 ->
  exists x, z = Some x /\ r = ARec (avro_time (if t_zero t then now else t)) true (mapping x).
Proof.
  unfold write_deleted_cf, write_record. destruct z as [x|]; [|by intros []%elem_of_nil].
  destruct (negb (c_new c)); [by intros []%elem_of_nil|]. destruct (negb (c_record c _)); [by intros []%elem_of_nil|].
  cbn. intros ->%elem_of_list_singleton. eauto.
Qed.
Lemma write_deleted_ok now c z t : (write_deleted_cf mapping zero now c z t).2 = true -> exists r, (write_deleted_cf mapping zero now c z t).1 = [r].
Proof.
  unfold write_deleted_cf, write_record. destruct z as [x|]; [|done].
  destruct (negb (c_new c)); [done|]. destruct (negb (c_record c _)); [done|]. cbn. eauto.
Qed.

Lemma write_cf_exact now c x t : let r := ARec (avro_time (if t_zero t then now else t)) false (mapping x) in
  write_cf mapping zero now c (Some x) t = (if c_new c && c_record c r then [r] else [], c_new c && c_record c r && c_flush c).
Proof.
  cbn. unfold write_record, write_time. destruct (c_new c), (c_record c _) eqn:E; cbn; rewrite ?E; done.
Qed.
Lemma write_deleted_exact now c x t : let r := ARec (avro_time (if t_zero t then now else t)) true (mapping x) in
  write_deleted_cf mapping zero now c (Some x) t = (if c_new c && c_record c r then [r] else [], c_new c && c_record c r && c_flush c).
Proof.
  cbn. unfold write_record, write_time. destruct (c_new c), (c_record c _) eqn:E; cbn; rewrite ?E; done.
Qed.

Lemma write_nil now c t : write_cf mapping zero now c None t = ([], false) /\ write_deleted_cf mapping zero now c None t = ([], false).
Proof. done. Qed.

(** ** the bulk writer *)
Notation conv := (convert_to_avro mapping zero).
Notation wrote t dn := (AHeader :: map (fun z => ARecord (conv z t)) dn).
(** some items were written and the rest was not *)
Definition partly (t : gtime) (sent q : list (option T)) (a : list bact) : Prop :=
  exists dn x, sent = dn ++ x ++ q /\ length x <= 1 /\ (a = wrote t dn \/ (a = [] /\ dn = [])).
Definition ended (t : gtime) (sent : list (option T)) (c : bool) (q : list (option T)) (e : nat) (a : list bact) : Prop :=
  (c = true /\ q = [] /\ e = 0 /\ a = wrote t sent ++ [AFlush]) \/
  (e <= 1 /\ exists p, partly t sent q p /\ a = p ++ [AError]).
Definition inv (t : gtime) (sent : list (option T)) (s : bst) : Prop :=
  let '(BSt pc q c e a) := s in
  match pc with
  | BNew => sent = q /\ a = [] /\ e = 0
  | BRecv => exists dn, sent = dn ++ q /\ a = wrote t dn /\ e = 0
  | BWrite z => exists dn, sent = dn ++ z :: q /\ a = wrote t dn /\ e = 0
  | BFlush => q = [] /\ c = true /\ a = wrote t sent /\ e = 0
  | BReport => e = 0 /\ partly t sent q a
  | BClose => ended t sent c q e a
  | BDone => exists p, ended t sent c q e p /\ a = p ++ [AClose]
  end.
Lemma inv_g t sent s s' : inv t sent s -> gstep mapping zero t s s' -> inv t sent s'.
Proof.
  intros I H. destruct H; cbn [inv] in *.
  - destruct I as (-> & -> & ->). by exists [].
  - destruct I as (-> & -> & ->). split; [done|]. exists [], []. split; [done|]. split; [cbn; lia|]. by right.
  - destruct I as (dn & -> & -> & ->). by exists dn.
  - destruct I as (dn & -> & -> & ->). by rewrite app_nil_r.
  - destruct I as (dn & -> & -> & ->). exists (dn ++ [z]). rewrite <- app_assoc, map_app. done.
  - destruct I as (dn & -> & -> & ->). split; [done|]. exists dn, [z]. split; [done|]. split; [cbn; lia|]. by left.
  - destruct I as (-> & -> & -> & ->). by left.
  - destruct I as (-> & -> & -> & ->). split; [done|]. exists sent, []. rewrite !app_nil_r. split; [done|]. split; [cbn; lia|]. by left.
  - destruct I as (-> & I). right. split; [lia|]. by exists a.
  - by exists a.
Qed.
Lemma partly_snoc t sent q z a : partly t sent q a -> partly t (sent ++ [z]) (q ++ [z]) a.
Proof. intros (dn & x & -> & H). exists dn, x. by rewrite <- !app_assoc. Qed.
Lemma ended_send t sent z q e a : ended t sent false q e a -> ended t (sent ++ [z]) false (q ++ [z]) e a.
Proof. intros [(? & _)|(He & p & Hp & ->)]; [done|]. right. split; [done|]. exists p. split; [|done]. by apply partly_snoc. Qed.
Lemma inv_send t sent s z s' : inv t sent s -> estep s (Some z) s' -> inv t (sent ++ [z]) s'.
Proof.
  intros I H. inversion H; subst. destruct pc; cbn [inv] in *.
  - destruct I as (-> & -> & ->). done.
  - destruct I as (dn & -> & -> & ->). exists dn. by rewrite app_assoc.
  - destruct I as (dn & -> & -> & ->). exists dn. by rewrite <- app_assoc.
  - destruct I as (_ & ? & _). done.
  - destruct I as (-> & I). split; [done|]. by apply partly_snoc.
  - by apply ended_send.
  - destruct I as (p & I & ->). exists p. split; [|done]. by apply ended_send.
Qed.
Lemma ended_close t sent q e a : ended t sent false q e a -> ended t sent true q e a.
Proof. intros [(? & _)|I]; [done|by right]. Qed.
Lemma ended_recv t sent c q e a : ended t sent c q (S e) a -> ended t sent c q e a.
Proof. intros [(_ & _ & ? & _)|(He & I)]; [done|]. right. split; [lia|done]. Qed.
Lemma inv_env t sent s s' : inv t sent s -> estep s None s' -> inv t sent s'.
Proof.
  intros I H. inversion H; subst; destruct pc; cbn [inv] in *; try naive_solver (eauto using ended_close, ended_recv).
Qed.
Lemma run_inv t sent n s : brun mapping zero t b_init sent n s -> inv t sent s.
Proof.
  remember b_init as s0 eqn:E0. induction 1; subst.
  - done.
  - eapply inv_g; eauto.
  - eapply inv_send; eauto.
  - eapply inv_env; eauto.
Qed.

Lemma conv_eq t z : conv z t = item_record mapping zero t z.
Proof. by destruct z. Qed.
Lemma records_wrote t dn : records (wrote t dn) = map (item_record mapping zero t) dn.
Proof. unfold records. cbn. induction dn as [|z dn IH]; [done|]. cbn. by rewrite IH, conv_eq. Qed.
Lemma records_app (a b : list (@bact F)) : records (a ++ b) = records a ++ records b.
Proof. unfold records. apply omap_app. Qed.
Lemma errors_app (a b : list (@bact F)) : errors (a ++ b) = errors a + errors b.
Proof. unfold errors. by rewrite List.filter_app, app_length. Qed.
Lemma closes_app (a b : list (@bact F)) : closes (a ++ b) = closes a + closes b.
Proof. unfold closes. by rewrite List.filter_app, app_length. Qed.
Lemma errors_wrote t dn : errors (wrote t dn) = 0.
Proof. unfold errors. cbn. by induction dn. Qed.
Lemma closes_wrote t dn : closes (wrote t dn) = 0.
Proof. unfold closes. cbn. by induction dn. Qed.
Lemma partly_facts t sent q a : partly t sent q a ->
  (exists dn x, sent = dn ++ x ++ q /\ length x <= 1 /\ records a = map (item_record mapping zero t) dn) /\ errors a = 0 /\ closes a = 0.
Proof.
  intros (dn & x & -> & Hx & [->|[-> ->]]); [|split; [by exists [], x|done]].
  split; [|by rewrite errors_wrote, closes_wrote]. exists dn, x. by rewrite records_wrote.
Qed.
Lemma ended_facts t sent c q e a : ended t sent c q e a ->
  (exists dn x, sent = dn ++ x ++ q /\ length x <= 1 /\ records a = map (item_record mapping zero t) dn) /\ errors a <= 1 /\ closes a = 0 /\
  (errors a = 0 -> c = true /\ q = [] /\ records a = map (item_record mapping zero t) sent /\ exists p, a = p ++ [AFlush]) /\
  (errors a = 1 -> exists p, a = p ++ [AError] /\ errors p = 0).
Proof.
  intros [(-> & -> & -> & ->)|(He & p & Hp & ->)].
  - rewrite records_app, errors_app, closes_app, records_wrote, errors_wrote, closes_wrote. cbn [errors closes records List.filter omap length list_omap Nat.add]. rewrite app_nil_r.
    split; [exists sent, []; rewrite !app_nil_r; cbn; split; [done|split; [lia|done]]|]. split; [lia|]. split; [done|]. split; [|done]. intros _. split; [done|]. split; [done|]. split; [done|]. by exists (wrote t sent).
  - apply partly_facts in Hp as ((dn & x & -> & Hx & Hk) & H1 & H2). rewrite records_app, errors_app, closes_app, H1, H2, Hk. cbn. rewrite app_nil_r.
    split; [eauto|]. split; [lia|]. split; [done|]. split; [done|]. intros _. by exists p.
Qed.
(** written in order: what was received, but perhaps the last item *)
Lemma bulk_order t sent n s : brun mapping zero t b_init sent n s ->
  exists dn x, sent = dn ++ x ++ b_queue s /\ length x <= 1 /\ records (b_acts s) = map (item_record mapping zero t) dn.
Proof.
  intros I%run_inv. destruct s as [pc q c e a]. destruct pc; cbn [inv b_acts b_queue] in *.
  - destruct I as (-> & -> & _). exists [], []. cbn. split; [done|]. split; [lia|done].
  - destruct I as (dn & -> & -> & _). exists dn, []. rewrite records_wrote. cbn. split; [done|]. split; [lia|done].
  - destruct I as (dn & -> & -> & _). exists dn, [z]. rewrite records_wrote. cbn. split; [done|]. split; [lia|done].
  - destruct I as (-> & _ & -> & _). exists sent, []. rewrite records_wrote. cbn. rewrite app_nil_r. split; [done|]. split; [lia|done].
  - destruct I as (_ & I). by apply partly_facts in I as (I & _).
  - by apply ended_facts in I as (I & _).
  - destruct I as (p & I & ->). apply ended_facts in I as ((dn & x & -> & Hx & I) & _). exists dn, x. rewrite records_app, I. cbn. by rewrite app_nil_r.
Qed.
(** everything is written if no error is reported *)
Lemma bulk_all t sent n s : brun mapping zero t b_init sent n s -> b_pc s = BDone -> errors (b_acts s) = 0 ->
  b_closed s = true /\ records (b_acts s) = map (item_record mapping zero t) sent /\ exists p, b_acts s = p ++ [AFlush; AClose].
Proof.
  intros I%run_inv. destruct s as [pc q c e a]. cbn [b_pc b_acts b_closed]. intros ->. cbn [inv] in I. destruct I as (p & I & ->).
  apply ended_facts in I as (_ & _ & _ & I & _). rewrite errors_app, records_app. cbn. rewrite Nat.add_0_r, app_nil_r. intros E.
  destruct (I E) as (-> & _ & -> & p' & ->). split; [done|]. split; [done|]. exists p'. by rewrite <- app_assoc.
Qed.
Lemma bulk_errors t sent n s : brun mapping zero t b_init sent n s ->
  errors (b_acts s) <= 1 /\
  (errors (b_acts s) = 1 -> exists p, errors p = 0 /\ (b_acts s = p ++ [AError] \/ b_acts s = p ++ [AError; AClose])).
Proof.
  intros I%run_inv. destruct s as [pc q c e a]. destruct pc; cbn [inv b_acts] in *.
  - destruct I as (_ & -> & _). split; [cbn; lia|done].
  - destruct I as (dn & -> & -> & _). rewrite errors_wrote. split; [lia|done].
  - destruct I as (dn & -> & -> & _). rewrite errors_wrote. split; [lia|done].
  - destruct I as (_ & _ & -> & _). rewrite errors_wrote. split; [lia|done].
  - destruct I as (_ & I). apply partly_facts in I as (_ & -> & _). split; [lia|done].
  - apply ended_facts in I as (_ & H & _ & _ & I). split; [done|]. intros E. destruct (I E) as (p & -> & Hp). eauto.
  - destruct I as (p & I & ->). apply ended_facts in I as (_ & H & _ & _ & I). rewrite errors_app. cbn. rewrite Nat.add_0_r. split; [done|].
    intros E. destruct (I E) as (p' & -> & Hp). exists p'. split; [done|]. right. by rewrite <- app_assoc.
Qed.
Lemma bulk_close t sent n s : brun mapping zero t b_init sent n s ->
  (b_pc s = BDone -> exists p, b_acts s = p ++ [AClose] /\ closes p = 0) /\ (b_pc s <> BDone -> closes (b_acts s) = 0).
Proof.
  intros I%run_inv. destruct s as [pc q c e a]. destruct pc; cbn [inv b_acts b_pc] in *; (split; [intros H; try discriminate H|intros H]).
  - destruct I as (_ & -> & _). done.
  - destruct I as (dn & -> & -> & _). apply closes_wrote.
  - destruct I as (dn & -> & -> & _). apply closes_wrote.
  - destruct I as (_ & _ & -> & _). apply closes_wrote.
  - destruct I as (_ & I). by apply partly_facts in I as (_ & _ & ->).
  - by apply ended_facts in I as (_ & _ & -> & _).
  - destruct I as (p & I & ->). exists p. split; [done|]. by apply ended_facts in I as (_ & _ & -> & _).
  - done.
Qed.
(** it is never stuck except waiting for an item *)
Lemma bulk_progress t sent n s : brun mapping zero t b_init sent n s -> b_pc s <> BDone ->
  (exists s', gstep mapping zero t s s') \/ (b_pc s = BRecv /\ b_queue s = [] /\ b_closed s = false).
Proof.
  intros I%run_inv. destruct s as [pc q c e a]. destruct pc; cbn [inv b_pc b_queue b_closed] in *; intros N.
  - left. eexists. constructor.
  - destruct q as [|z q]; [|left; eexists; constructor]. destruct c; [left; eexists; constructor|by right].
  - left. eexists. constructor.
  - left. eexists. constructor.
  - destruct I as (-> & _). left. eexists. constructor. lia.
  - left. eexists. constructor.
  - done.
Qed.
(** how many steps are left at most *)
Definition left_over (s : @bst T F) : nat :=
  match b_pc s with
  | BNew => 5 + 2 * length (b_queue s) | BRecv => 4 + 2 * length (b_queue s) | BWrite _ => 5 + 2 * length (b_queue s)
  | BFlush => 3 | BReport => 2 | BClose => 1 | BDone => 0
  end.
Lemma gstep_less t s s' : gstep mapping zero t s s' -> left_over s' < left_over s /\ b_closed s' = b_closed s.
Proof. destruct 1; cbn; split; done || lia. Qed.
Lemma bulk_ends t s sent n s' : brun mapping zero t s sent n s' -> b_closed s = true -> n + left_over s' <= left_over s /\ b_closed s' = true.
Proof.
  intros H C. induction H as [|s sent n s1 s2 H IH G|s sent n s1 z s2 H IH E|s sent n s1 s2 H IH E].
  - split; [lia|done].
  - destruct (IH C) as [H1 H2]. apply gstep_less in G as [G1 G2]. split; [lia|congruence].
  - destruct (IH C) as [H1 H2]. inversion E; subst. done.
  - destruct (IH C) as [H1 H2]. inversion E; subst; [done|]. split; [|done]. cbn in *. unfold left_over in *. cbn in *. lia.
Qed.
Lemma bulk_ends_error t s sent n s' : brun mapping zero t s sent n s' -> b_pc s = BReport -> n + left_over s' <= 2.
Proof.
  intros H C. assert (K : (b_pc s' = BReport \/ b_pc s' = BClose \/ b_pc s' = BDone) /\ n + left_over s' <= 2); [|by destruct K].
  induction H as [|s sent n s1 s2 H IH G|s sent n s1 z s2 H IH E|s sent n s1 s2 H IH E].
  - split; [by left|]. unfold left_over. rewrite C. lia.
  - destruct (IH C) as [Hp Hl]. assert (L := gstep_less _ _ _ G). destruct L as [L _]. split; [|lia].
    destruct G; cbn in *; naive_solver.
  - destruct (IH C) as [Hp Hl]. inversion E; subst. cbn in *. split; [done|]. unfold left_over in *. cbn in *. by destruct Hp as [->|[->| ->]].
  - destruct (IH C) as [Hp Hl]. inversion E; subst; cbn in *; (split; [done|]); unfold left_over in *; cbn in *; by destruct Hp as [->|[->| ->]].
Qed.
Lemma left_over_le (s : @bst T F) : left_over s <= 5 + 2 * length (b_queue s).
Proof. unfold left_over. destruct (b_pc s); lia. Qed.
Lemma bulk_bound t s sent n s' : brun mapping zero t s sent n s' -> b_closed s = true -> n <= 5 + 2 * length (b_queue s).
Proof. intros H C. apply bulk_ends in H as [H _]; [|done]. assert (L := left_over_le s). lia. Qed.
Lemma bulk_bound_error t s sent n s' : brun mapping zero t s sent n s' -> b_pc s = BReport -> n <= 2.
Proof. intros H C. apply bulk_ends_error in H; [|done]. lia. Qed.
End run.

Lemma bulk_case : exists s, brun (fun x : nat => x) 0 (GTime 5 0 0) b_init [Some 7; None] 8 s /\ b_pc s = BDone /\ errors (b_acts s) = 0 /\
  b_acts s = [AHeader; ARecord (ARec 5000 false 7); ARecord (ARec 5000 true 0); AFlush; AClose].
Proof.
  exists (BSt BDone [] true 0 [AHeader; ARecord (ARec 5000 false 7); ARecord (ARec 5000 true 0); AFlush; AClose]).
  split; [|split; [|split; [|reflexivity]]; reflexivity].
  change [AHeader; ARecord (ARec 5000 false 7); ARecord (ARec 5000 true 0); AFlush; AClose]
    with ((((([] ++ [AHeader]) ++ [ARecord (convert_to_avro (fun x : nat => x) 0 (Some 7) (GTime 5 0 0))]) ++
          [ARecord (convert_to_avro (fun x : nat => x) 0 None (GTime 5 0 0))]) ++ [AFlush]) ++ [@AClose nat]).
  eapply run_g; [|apply g_close]. eapply run_g; [|apply g_flush_ok]. eapply run_g; [|apply g_recv_closed].
  eapply run_env; [|apply e_close]. eapply run_g; [|apply (g_write_ok _ _ _ None)]. eapply run_g; [|apply g_recv].
  eapply run_g; [|apply (g_write_ok _ _ _ (Some 7))].
  eapply (run_send _ _ _ _ [Some 7] _ _ None); [|apply (e_send None _ [])]. eapply run_g; [|apply g_recv].
  eapply run_g; [|apply g_new_ok]. eapply (run_send _ _ _ _ [] _ _ (Some 7)); [|apply (e_send _ _ [])]. apply run_nil.
Qed.
Lemma bulk_fail_case : exists s, brun (fun x : nat => x) 0 (GTime 5 0 0) b_init [Some 7; None; Some 8] 7 s /\ b_pc s = BDone /\ errors (b_acts s) = 1 /\
  b_queue s = [Some 8] /\ b_acts s = [AHeader; ARecord (ARec 5000 false 7); AError; AClose].
Proof.
  exists (BSt BDone [Some 8] false 1 [AHeader; ARecord (ARec 5000 false 7); AError; AClose]).
  split; [|split; [|split; [|split; [|reflexivity]]]; reflexivity].
  change [AHeader; ARecord (ARec 5000 false 7); AError; AClose]
    with (((([] ++ [AHeader]) ++ [ARecord (convert_to_avro (fun x : nat => x) 0 (Some 7) (GTime 5 0 0))]) ++ [AError]) ++ [@AClose nat]).
  eapply run_g; [|apply g_close]. eapply run_g; [|apply g_report; lia].
  eapply run_g; [|apply (g_write_fail _ _ _ None)]. eapply run_g; [|apply g_recv].
  eapply run_g; [|apply (g_write_ok _ _ _ (Some 7))].
  eapply (run_send _ _ _ _ [Some 7; None] _ _ (Some 8)); [|apply (e_send _ _ [None])].
  eapply (run_send _ _ _ _ [Some 7] _ _ None); [|apply (e_send None _ [])]. eapply run_g; [|apply g_recv].
  eapply run_g; [|apply g_new_ok]. eapply (run_send _ _ _ _ [] _ _ (Some 7)); [|apply (e_send _ _ [])]. apply run_nil.
Qed.

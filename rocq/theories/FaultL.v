(** Proofs about runs of the generator in which calls that write files fail. *)
From stdpp Require Import strings list gmap.
From Coq Require Import Ascii Lia.
From Verif Require Import GoStr GoStrL Val Conv Schema Inst Load SpecFiles SpecWhole Gen GenL Files FilesL Gql Avro GoSrc Mapper Whole WholeL Crash CrashL Fault SpecFault.
Set Default Proof Using "Type".

Lemma glue_app a b : glue (a ++ b) = glue a +:+ glue b.
Proof. induction a as [|x a IH]; [done|]. cbn [app glue foldr]. change (foldr String.append "" ?l) with (glue l). by rewrite IH, app_assoc_s. Qed.
Lemma first_beginning k t : beginning (first_bytes k t) t.
Proof.
  revert k. induction t as [|c t IH]; intros k; [exists EmptyString; destruct k; reflexivity|]. destruct k as [|k]; [by exists (String c t)|].
  destruct (IH k) as [rest E]. exists rest. exact (f_equal (String c) E).
Qed.

(** ** the pieces of an Avro schema *)
Section pieces.
Context (W : oracles) (o_quote : string -> string) (E : sources).
Notation glued := (fun x : list string * list string => (glue x.1, x.2)).
Notation glued' := (fun x : option (list string) * list string => (glue <$> x.1, x.2)).
Lemma list_pieces_S n ns excl ls seen : list_pieces W o_quote E (S n) ns excl ls seen =
  match ls with
  | [] => Some ([], seen)
  | fs :: ls' =>
    obind (fields_pieces W o_quote E n ns excl (field_map fs) (num_fields fs) 0 fs seen) (fun '(t1, seen1) =>
    obind (list_pieces W o_quote E n ns excl ls' seen1) (fun '(t2, seen2) => Some (t1 ++ t2, seen2)))
  end.
Proof. reflexivity. Qed.
Lemma fields_pieces_S n ns excl own len i fs seen : fields_pieces W o_quote E (S n) ns excl own len i fs seen =
  match fs with
  | [] => Some ([], seen)
  | f :: fs' =>
    obind (field_pieces W o_quote E n ns excl own f seen) (fun '(r, seen1) =>
    obind (fields_pieces W o_quote E n ns excl own len (S i) fs' seen1) (fun '(t2, seen2) =>
    Some (match r with Some t1 => t1 ++ (if decide (S i = len) then [] else [","]) ++ t2 | None => t2 end, seen2)))
  end.
Proof. reflexivity. Qed.
Lemma field_pieces_S n ns excl own f seen : field_pieces W o_quote E (S n) ns excl own f seen =
  match af_names f with
  | [] =>
    match af_type f with
    | EIdent e =>
      if decide (e ∈ seen) then Some (None, seen) else
      obind (struct_to_filename W e) (fun file =>
      match src_file E file e with
      | None => Some (Some ["{""type"":""embedded struct not found""}"], seen)
      | Some t => obind (list_pieces W o_quote E n (ns ++ [e]) own (field_lists t) seen) (fun '(txt, seen1) => Some (Some txt, e :: seen1))
      end)
    | _ => Some (None, seen)
    end
  | go :: _ =>
    if decide (go ∈ excl) then Some (None, seen) else
    let name := if decide (tag_name f = "") then go else tag_name f in
    obind (conv_type W o_quote E n ns (af_type f) name (tag_omit W f) seen) (fun '(ty, seen1) =>
    Some (Some [field_text o_quote ns name (af_desc f) ty], seen1))
  end.
Proof. reflexivity. Qed.
Lemma write_field_S n ns excl own f seen : write_field W o_quote E (S n) ns excl own f seen =
  match af_names f with
  | [] =>
    match af_type f with
    | EIdent e =>
      if decide (e ∈ seen) then Some (None, seen) else
      obind (struct_to_filename W e) (fun file =>
      match src_file E file e with
      | None => Some (Some "{""type"":""embedded struct not found""}", seen)
      | Some t => obind (write_lists W o_quote E n (ns ++ [e]) own (field_lists t) seen) (fun '(txt, seen1) => Some (Some txt, e :: seen1))
      end)
    | _ => Some (None, seen)
    end
  | go :: _ =>
    if decide (go ∈ excl) then Some (None, seen) else
    let name := if decide (tag_name f = "") then go else tag_name f in
    obind (conv_type W o_quote E n ns (af_type f) name (tag_omit W f) seen) (fun '(ty, seen1) =>
    Some (Some (field_text o_quote ns name (af_desc f) ty), seen1))
  end.
Proof. reflexivity. Qed.
Lemma pieces_text fuel : 
  (forall ns excl ls seen, write_lists W o_quote E fuel ns excl ls seen = glued <$> list_pieces W o_quote E fuel ns excl ls seen) /\
  (forall ns excl own len i fs seen, write_fields W o_quote E fuel ns excl own len i fs seen = glued <$> fields_pieces W o_quote E fuel ns excl own len i fs seen) /\
  (forall ns excl own f seen, write_field W o_quote E fuel ns excl own f seen = glued' <$> field_pieces W o_quote E fuel ns excl own f seen).
Proof.
  induction fuel as [|n (IH1 & IH2 & IH3)]; [done|]. split_and!.
  - intros ns excl ls seen. rewrite list_pieces_S. cbn [write_lists]. destruct ls as [|fs ls]; [done|]. rewrite IH2.
    destruct (fields_pieces _ _ _ _ _ _ _ _ _ _ _) as [[t1 s1]|]; [|done]. cbn [fmap option_fmap option_map obind fst snd]. rewrite IH1.
    destruct (list_pieces _ _ _ _ _ _ _ _) as [[t2 s2]|]; [|done]. cbn [fmap option_fmap option_map obind fst snd]. by rewrite glue_app.
  - intros ns excl own len i fs seen. rewrite fields_pieces_S. cbn [write_fields]. destruct fs as [|f fs]; [done|]. rewrite IH3.
    destruct (field_pieces _ _ _ _ _ _ _ _ _) as [[r s1]|]; [|done]. cbn [fmap option_fmap option_map obind fst snd]. rewrite IH2.
    destruct (fields_pieces _ _ _ _ _ _ _ _ _ _ _) as [[t2 s2]|]; [|done]. cbn [fmap option_fmap option_map obind fst snd].
    destruct r as [t1|]; [|done]. cbn [fmap option_fmap option_map]. rewrite !glue_app. by destruct (decide _).
  - intros ns excl own f seen. rewrite field_pieces_S, write_field_S. destruct (af_names f) as [|go l].
    + destruct (af_type f); try done. destruct (decide _); [done|]. destruct (struct_to_filename W _); [|done]. cbn [obind].
      destruct (src_file E _ _); [|by cbn; rewrite sapp_nil_r]. rewrite IH1. by destruct (list_pieces _ _ _ _ _ _ _ _) as [[t2 s2]|].
    + destruct (decide _); [done|]. cbn zeta. destruct (conv_type _ _ _ _ _ _ _ _ _) as [[ty s1]|]; [|done]. cbn [obind fmap option_fmap option_map fst snd glue foldr]. by rewrite sapp_nil_r.
Qed.
End pieces.

Section proofs.
Context (W : oracles) (F : files) (o_abs : string -> string) (o_fmt : string -> option string).
Context (o_quote o_trim o_quote_avro : string -> string) (o_unquote : string -> option string) (o_tag : afield -> string).
Context (o_types : string -> string) (o_gogen : string -> string -> option dir) (o_declared : dir -> string -> option texpr).
Context (o_join : list string -> string) (o_msgp : dir -> option (option (string * string * string))).
Context (A : run_args) (pkg : string).
Context (ord : nat -> string -> list string -> list string) (ord' : nat -> list string -> list string -> list string).
Context (flt : nat -> option nat).
Notation SA := (ga (r_gql A)).
Notation run := (run W F o_abs o_fmt o_quote o_trim o_quote_avro o_unquote o_tag o_types o_gogen o_declared o_join o_msgp A pkg ord ord').
Notation run_log := (run_log W F o_abs o_fmt o_quote o_trim o_quote_avro o_unquote o_tag o_types o_gogen o_declared o_join o_msgp A pkg ord ord').
Notation members_log := (build_members_log W F o_abs o_fmt o_quote_avro o_unquote o_tag o_types o_gogen o_declared o_join A pkg ord ord').
Notation avro_log := (build_avro_log W o_fmt o_quote_avro o_unquote o_tag o_types o_gogen o_declared o_join A pkg).
Notation gql_log := (build_gql_log W F o_abs o_quote o_trim A pkg).
Notation struct_log := (build_struct_log W F o_abs o_fmt A pkg ord ord').
Notation run_f := (run_faulty W F o_abs o_fmt o_quote o_trim o_quote_avro o_unquote o_tag o_types o_gogen o_declared o_join o_msgp A pkg ord ord' flt).
Notation members_f := (members_faulty W F o_abs o_fmt o_quote_avro o_unquote o_tag o_types o_gogen o_declared o_join A pkg ord ord' flt).
Notation avro_f := (avro_faulty W o_fmt o_quote_avro o_unquote o_tag o_types o_gogen o_declared o_join A pkg flt).
Notation gql_f := (gql_faulty W F o_abs o_quote o_trim A pkg flt).
Notation go_f := (go_faulty W F o_abs o_fmt A pkg ord ord' flt).
Notation ask := (ask flt).
Notation checked := (checked flt).

(** [s'] is reached from [s]; if no call fails [w] are the writes; a failure is unnoticed or the result is [bad] *)
Definition steps (s s' : io) (ws : list write) (bad : Prop) : Prop :=
  exists x, io_failed s' = io_failed s ++ x /\ (x = [] -> io_disk s' = apply_writes ws (io_disk s)) /\ (Forall unnoticed x \/ bad).
Lemma steps_refl s bad : steps s s [] bad.
Proof. exists []. rewrite app_nil_r. split_and!; [done..|by left]. Qed.
Lemma steps_trans s1 s2 s3 ws1 ws2 (bad : Prop) : steps s1 s2 ws1 False -> steps s2 s3 ws2 bad -> steps s1 s3 (ws1 ++ ws2) bad.
Proof.
  intros (x & H1 & H2 & H3) (y & K1 & K2 & K3). exists (x ++ y). split_and!.
  - by rewrite K1, H1, app_assoc.
  - intros [-> ->]%app_eq_nil. by rewrite K2, H2, apply_app.
  - destruct H3 as [H3|[]]. destruct K3 as [K3|K3]; [left; by apply Forall_app|by right].
Qed.
Lemma steps_weaken s s' ws (bad bad' : Prop) : (bad -> bad') -> steps s s' ws bad -> steps s s' ws bad'.
Proof. intros H (x & H1 & H2 & H3). exists x. split_and!; [done..|]. destruct H3; [by left|right; auto]. Qed.
Lemma ask_fine c s s' : ask c s = (None, s') -> io_failed s' = io_failed s /\ io_disk s' = io_disk s.
Proof. unfold Fault.ask. destruct (flt _); [done|]. by intros [= <-]. Qed.
Lemma ask_fails c s s' k : ask c s = (Some k, s') -> io_failed s' = io_failed s ++ [c] /\ io_disk s' = io_disk s.
Proof. unfold Fault.ask. destruct (flt _); [|done]. by intros [= <- <-]. Qed.
Lemma checked_fine c w s s' : checked c w s = (s', true) -> io_failed s' = io_failed s /\ io_disk s' = apply_write (io_disk s) w.
Proof. unfold Fault.checked. destruct (ask c s) as [[k|] s1] eqn:E; [done|]. apply ask_fine in E as [E1 E2]. intros [= <-]. cbn. by rewrite E2. Qed.
Lemma checked_fails c w s s' : checked c w s = (s', false) -> io_failed s' = io_failed s ++ [c].
Proof. unfold Fault.checked. destruct (ask c s) as [[k|] s1] eqn:E; [|done]. apply ask_fails in E as [E1 E2]. by intros [= <-]. Qed.
Lemma steps_ask c s s' : ask c s = (None, s') -> steps s s' [] False.
Proof. intros [E1 E2]%ask_fine. exists []. rewrite E1, E2, app_nil_r. split_and!; [done..|by left]. Qed.
Lemma steps_checked c w s s' : checked c w s = (s', true) -> steps s s' [w] False.
Proof. intros [E1 E2]%checked_fine. exists []. rewrite E1, E2, app_nil_r. split_and!; [done..|by left]. Qed.
Lemma steps_stop s s' c ws : io_failed s' = io_failed s ++ [c] -> steps s s' ws True.
Proof. intros E. exists [c]. rewrite E. split_and!; [done..|by right]. Qed.
Lemma steps_bad s s1 s' ws ws' c : steps s s1 ws' False -> io_failed s' = io_failed s1 ++ [c] -> steps s s' ws True.
Proof.
  intros (x & H1 & H2 & H3) E. exists (x ++ [c]). split_and!; [by rewrite E, H1, app_assoc|by intros [_ ?]%app_eq_nil|by right].
Qed.

(** ** GraphQL *)
Lemma gql_writes_steps ws : forall s s' b, gql_writes flt ws s = (s', b) ->
  if b then steps s s' ws False else exists s1 ws' c, steps s s1 ws' False /\ io_failed s' = io_failed s1 ++ [c].
Proof.
  induction ws as [|w ws IH]; intros s s' b; cbn [gql_writes]; [intros [= <- <-]; apply steps_refl|].
  set (c := GqlWrite _). destruct (checked c w s) as [s1 b1] eqn:E. destruct b1.
  - intros H. apply IH in H. destruct b.
    + apply (steps_trans s s1 s' [w] ws); [by eapply steps_checked|done].
    + destruct H as (s2 & ws' & c' & H1 & H2). exists s2, ([w] ++ ws'), c'. split; [|done]. eapply steps_trans; [by eapply steps_checked|done].
  - intros [= <- <-]. apply checked_fails in E. exists s, [], c. split; [apply steps_refl|done].
Qed.
(** the outcome of a stage against the log of the stage *)
Definition stage (s s' : io) (r : res unit) (log : option (list write * res unit)) : Prop :=
  exists x, io_failed s' = io_failed s ++ x /\ (Forall unnoticed x \/ r = Err) /\
    (x = [] -> exists ws, log = Some (ws, r) /\ io_disk s' = apply_writes ws (io_disk s)).
Lemma stage_steps s s' r ws log : log = Some (ws, r) -> steps s s' ws False -> stage s s' r log.
Proof. intros E (x & H1 & H2 & H3). exists x. split_and!; [done|by destruct H3; [left|]|]. intros ->. eexists. split; [exact E|auto]. Qed.
Lemma stage_bad s s1 s' log ws c : steps s s1 ws False -> io_failed s' = io_failed s1 ++ [c] -> stage s s' Err log.
Proof.
  intros (x & H1 & H2 & H3) E. exists (x ++ [c]). split_and!; [by rewrite E, H1, app_assoc|by right|by intros [_ ?]%app_eq_nil].
Qed.
Lemma gql_stage n o o' sp s s' r : gql_f n o o' sp s = Some (s', r) -> stage s s' r (gql_log n o o' sp).
Proof.
  unfold gql_faulty. destruct (gql_log n o o' sp) as [[ws r0]|]; [|done]. destruct (gql_writes flt ws s) as [s1 b] eqn:E. apply gql_writes_steps in E.
  destruct b.
  - destruct r0 as [[]| |].
    + cbn zeta. destruct (ask _ s1) as [[k|] s2] eqn:K; intros [= <- <-].
      * apply ask_fails in K as [K1 K2]. eapply stage_bad; [exact E|exact K1].
      * apply (stage_steps _ _ _ (ws ++ [])); [by rewrite app_nil_r|]. eapply steps_trans; [exact E|by eapply steps_ask].
    + intros [= <- <-]. by eapply stage_steps.
    + intros [= <- <-]. by eapply stage_steps.
  - intros [= <- <-]. destruct E as (s2 & ws' & c & H1 & H2). by eapply stage_bad.
Qed.
(** ** Go files *)
Lemma struct_log_one n i sp child name embeds ws r : struct_log n i sp child name embeds = Some (ws, r) -> (ws = [] /\ r <> Ok tt) \/ exists f t, ws = [WOut f t].
Proof.
  unfold build_struct_log. destruct (load_schema _ _ _ _ _) as [[schema| |]|]; try done; try (intros [= <- <-]; by left).
  destruct (new_file _ _ _ _ _ _); try (intros [= <- <-]; by left). cbn zeta. destruct (o_fmt _); intros [= <- <-]; right; eauto.
Qed.
Lemma go_stage n i sp child name embeds s s' r : go_f n i sp child name embeds s = Some (s', r) -> stage s s' r (struct_log n i sp child name embeds).
Proof.
  unfold go_faulty. destruct (struct_log n i sp child name embeds) as [[ws r0]|] eqn:E; [|done].
  destruct (struct_log_one _ _ _ _ _ _ _ _ E) as [[-> Hr]|(f & t & ->)].
  - intros [= <- <-]. eapply stage_steps; [done|apply steps_refl].
  - destruct (ask (GoCreate f) s) as [[k|] s1] eqn:E1.
    { intros [= <- <-]. apply ask_fails in E1 as [E1 _]. eapply stage_bad; [apply steps_refl|exact E1]. }
    apply steps_ask in E1. destruct (match r0 with Ok _ => _ | _ => _ end) as [s2 b] eqn:E2.
    assert (K : if b then steps s1 s2 [WOut f t] False else io_failed s2 = io_failed s1 ++ [GoWrite f] /\ r0 = Ok tt).
    { destruct r0 as [[]| |]; [destruct b; [by eapply steps_checked|split; [by eapply checked_fails|done]]|..]; injection E2 as <- <-;
        (exists []; rewrite app_nil_r; split_and!; [done..|by left]). }
    destruct b.
    + pose proof (steps_trans _ _ _ _ _ _ E1 K) as K2. cbn [app] in K2. destruct (ask (GoClose f) s2) as [[k|] s3] eqn:E3.
      * intros [= <- <-]. apply ask_fails in E3 as [E3 E4]. destruct K2 as (x & H1 & H2 & H3). exists (x ++ [GoClose f]). split_and!.
        -- cbn. by rewrite E3, H1, app_assoc.
        -- left. apply Forall_app. destruct H3 as [H3|[]]. split; [done|]. by repeat constructor.
        -- by intros [_ ?]%app_eq_nil.
      * intros [= <- <-]. eapply (stage_steps _ _ _ ([WOut f t] ++ [])); [done|]. eapply steps_trans; [exact K2|by eapply steps_ask].
    + destruct K as [K ->]. intros [= <- <-]. destruct (ask (GoClose f) s2) as [[k|] s3] eqn:E3; cbn [snd].
      * apply ask_fails in E3 as [E3 E4]. destruct E1 as (x & H1 & H2 & H3). exists (x ++ [GoWrite f] ++ [GoClose f]).
        split_and!; [by rewrite E3, K, H1, !app_assoc|by right|]. by intros [_ ?]%app_eq_nil.
      * apply ask_fine in E3 as [E3 _]. eapply stage_bad; [exact E1|by rewrite E3].
Qed.
(** ** Avro *)
Lemma pieces_steps f ps : forall t s t' s', put_pieces flt f ps t s = (t', s') ->
  exists x, io_failed s' = io_failed s ++ x /\ io_disk s' = io_disk s /\ Forall unnoticed x /\ (x = [] -> t' = t +:+ glue ps).
Proof.
  induction ps as [|p ps IH]; intros t s t' s'; cbn [put_pieces].
  - intros [= <- <-]. exists []. rewrite app_nil_r. split_and!; [done..|]. intros _. by rewrite sapp_nil_r.
  - destruct (ask (AvscPiece f) s) as [[k|] s1] eqn:E; intros H; apply IH in H as (x & H1 & H2 & H3 & H4).
    + apply ask_fails in E as [E1 E2]. exists (AvscPiece f :: x). rewrite H1, E1, H2, E2, <- app_assoc. split_and!; [done..| |done]. by constructor.
    + apply ask_fine in E as [E1 E2]. exists x. rewrite H1, E1, H2, E2. split_and!; [done..|]. intros Hx. rewrite (H4 Hx). cbn [glue foldr].
      change (foldr String.append "" ps) with (glue ps). by rewrite app_assoc_s.
Qed.
Lemma avsc_steps f head ps s s' b : avsc_faulty flt f head ps s = (s', b) ->
  if b then steps s s' [WOut f ("{" +:+ head +:+ glue ps +:+ "]}")] False
  else exists s1 ws c, steps s s1 ws False /\ io_failed s' = io_failed s1 ++ [c].
Proof.
  unfold avsc_faulty. destruct (ask (AvscCreate f) s) as [[k|] s1] eqn:E.
  { intros [= <- <-]. apply ask_fails in E as [E _]. exists s, [], (AvscCreate f). split; [apply steps_refl|done]. }
  apply ask_fine in E as [F1 F2].
  destruct (put_pieces flt f ["{"] "" s1) as [t2 s2] eqn:E2. apply pieces_steps in E2 as (x2 & G1 & G2 & G3 & G4).
  destruct (match ask (AvscPiece f) s2 with (Some _, _) => _ | _ => _ end) as [t3 s3] eqn:E3.
  assert (K : exists x, io_failed s3 = io_failed s2 ++ x /\ io_disk s3 = io_disk s2 /\ Forall unnoticed x /\ (x = [] -> t3 = t2 +:+ head +:+ glue ps)).
  { destruct (ask (AvscPiece f) s2) as [[k|] s2'] eqn:E4.
    - injection E3 as <- <-. apply ask_fails in E4 as [E4 E5]. exists [AvscPiece f]. split_and!; [done..|by repeat constructor|done].
    - apply ask_fine in E4 as [E4 E5]. apply pieces_steps in E3 as (x & H1 & H2 & H3 & H4). exists x. rewrite H1, E4, H2, E5. split_and!; [done..|].
      intros Hx. by rewrite (H4 Hx), app_assoc_s. }
  destruct K as (x3 & K1 & K2 & K3 & K4).
  destruct (put_pieces flt f ["]}"] t3 s3) as [t4 s4] eqn:E4. apply pieces_steps in E4 as (x4 & L1 & L2 & L3 & L4).
  assert (M : io_failed s4 = io_failed s ++ (x2 ++ x3 ++ x4) /\ io_disk s4 = io_disk s /\ Forall unnoticed (x2 ++ x3 ++ x4)).
  { rewrite L1, K1, G1, F1, L2, K2, G2, F2, <- !app_assoc. split_and!; [done..|]. by rewrite !Forall_app. }
  destruct M as (M1 & M2 & M3). intros H. destruct b.
  - apply checked_fine in H as [H1 H2]. exists (x2 ++ x3 ++ x4). rewrite H1, H2, M1, M2. split_and!; [done| |by left].
    intros [-> [-> ->]%app_eq_nil]%app_eq_nil. cbn. do 2 f_equal. rewrite (L4 eq_refl), (K4 eq_refl), (G4 eq_refl). cbn [glue foldr]. rewrite !sapp_nil_r.
    change ("" +:+ "{") with "{". by rewrite !app_assoc_s.
  - apply checked_fails in H. exists s4, [], (AvscClose f). split; [|done]. exists (x2 ++ x3 ++ x4). split_and!; [done| |by left]. intros _. by rewrite M2.
Qed.
Lemma stage_fail s s1 s' log : (exists s2 ws c, steps s1 s2 ws False /\ io_failed s' = io_failed s2 ++ [c]) -> forall ws0, steps s s1 ws0 False -> stage s s' Err log.
Proof. intros (s2 & ws2 & c & H1 & H2) ws0 H0. eapply stage_bad; [|exact H2]. by eapply steps_trans. Qed.
(** if a call failed before, the log does not matter *)
Lemma stage_maybe s s' r ws log : steps s s' ws False -> (io_failed s' = io_failed s -> io_disk s' = apply_writes ws (io_disk s) -> log = Some (ws, r)) -> stage s s' r log.
Proof.
  intros (x & H1 & H2 & H3) H. exists x. split_and!; [done|by destruct H3; [left|]|]. intros ->. exists ws. rewrite app_nil_r in H1. auto.
Qed.
Lemma steps_none s s1 s2 ws1 ws2 : steps s s1 ws1 False -> steps s1 s2 ws2 False -> io_failed s2 = io_failed s -> io_failed s1 = io_failed s /\ io_disk s1 = apply_writes ws1 (io_disk s).
Proof.
  intros (x & H1 & H2 & _) (y & K1 & K2 & _) E. rewrite K1, H1, <- app_assoc in E.
  assert (E' : x ++ y = []) by (apply (f_equal length) in E; rewrite app_length in E; destruct (x ++ y); [done|cbn in E; lia]).
  apply app_eq_nil in E' as [-> ->]. rewrite app_nil_r in H1. auto.
Qed.
Lemma checked_cases c w s s' b : checked c w s = (s', b) -> if b then steps s s' [w] False else exists s2 ws c, steps s s2 ws False /\ io_failed s' = io_failed s2 ++ [c].
Proof. destruct b; intros H; [by eapply steps_checked|]. apply checked_fails in H. eexists s, [], _. split; [apply steps_refl|exact H]. Qed.
Lemma avro_stage fuel name file s s' r : avro_f fuel name file s = Some (s', r) -> stage s s' r (avro_log fuel name file (io_disk s)).
Proof.
  unfold avro_faulty, build_avro_log. cbn zeta. unfold avro_schema. set (nm := exported W name). set (low := go_lower W nm). set (fs := viewed o_types (d_out (io_disk s))).
  destruct (struct_in_file fs file nm) as [ty|] eqn:Ety; [|intros [= <- <-]; eapply stage_steps; [done|apply steps_refl]].
  unfold avro_file. rewrite (proj1 (pieces_text W o_quote_avro (sources_of o_unquote fs) fuel)).
  destruct (list_pieces W o_quote_avro (sources_of o_unquote fs) fuel [] [] (field_lists (to_texpr o_unquote ty)) []) as [[ps seen]|]; [|done].
  cbn [fmap option_fmap option_map obind fst snd]. set (t := "{" +:+ _). set (avsc := low +:+ ".avsc"). set (p := sub_name avsc).
  destruct (avsc_faulty flt avsc _ ps s) as [s1 b1] eqn:E1. apply avsc_steps in E1. fold t in E1.
  destruct b1; [|intros [= <- <-]; eapply stage_fail; [exact E1|apply steps_refl]].
  assert (R1 : io_failed s1 = io_failed s -> io_disk s1 = apply_writes [WOut avsc t] (io_disk s) -> default "" (assocd avsc (d_out (io_disk s1))) = t).
  { intros _ ->. cbn. rewrite assocd_put. by destruct (decide _). }
  destruct (o_gogen p (default "" (assocd avsc (d_out (io_disk s1))))) as [gs|] eqn:Eg.
  2:{ intros [= <- <-]. eapply (stage_maybe _ _ _ [WOut avsc t]); [exact E1|]. intros G1 G2. rewrite (R1 G1 G2) in Eg. by rewrite Eg. }
  destruct (checked (AvroPackage p) (WAvro p gs) s1) as [s2 b2] eqn:E2. apply checked_cases in E2.
  destruct b2; [|intros [= <- <-]; eapply stage_fail; [exact E2|exact E1]].
  pose proof (steps_trans _ _ _ _ _ _ E1 E2) as E12. cbn [app] in E12.
  assert (R2 : io_failed s2 = io_failed s -> io_disk s2 = apply_writes [WOut avsc t; WAvro p gs] (io_disk s) -> o_gogen p t = Some gs).
  { intros G1 G2. destruct (steps_none _ _ _ _ _ E1 E2 G1) as [G3 G4]. by rewrite <- (R1 G3 G4). }
  destruct (Whole.helper_values W o_unquote o_tag o_types o_declared o_join A pkg fuel nm file (io_disk s2)) as [[vals|]|] eqn:Ev; [| |done].
  2:{ intros [= <- <-]. eapply (stage_maybe _ _ _ [WOut avsc t; WAvro p gs]); [exact E12|]. intros G1 G2. rewrite (R2 G1 G2), <- G2, Ev. done. }
  destruct (o_fmt (fill vals Template.avro_template)) as [h|] eqn:Eh.
  2:{ intros [= <- <-]. eapply (stage_maybe _ _ _ [WOut avsc t; WAvro p gs]); [exact E12|]. intros G1 G2. rewrite (R2 G1 G2), <- G2, Ev, Eh. done. }
  destruct (checked (HelperWrite (low +:+ "_avro.go")) (WOut (low +:+ "_avro.go") h) s2) as [s3 b3] eqn:E3. apply checked_cases in E3.
  destruct b3; [|intros [= <- <-]; eapply stage_fail; [exact E3|exact E12]].
  pose proof (steps_trans _ _ _ _ _ _ E12 E3) as E13. cbn [app] in E13.
  destruct (o_fmt (fill vals Template.avro_test_template)) as [h'|] eqn:Eh'.
  2:{ intros [= <- <-]. eapply (stage_maybe _ _ _ _); [exact E13|]. intros G1 _. destruct (steps_none _ _ _ _ _ E12 E3 G1) as [G3 G4].
      rewrite (R2 G3 G4), <- G4, Ev, Eh, Eh'. done. }
  destruct (checked (HelperWrite (low +:+ "_avro_test.go")) (WOut (low +:+ "_avro_test.go") h') s3) as [s4 b4] eqn:E4. apply checked_cases in E4.
  destruct b4; [|intros [= <- <-]; eapply stage_fail; [exact E4|exact E13]].
  pose proof (steps_trans _ _ _ _ _ _ E13 E4) as E14. cbn [app] in E14. intros [= <- <-].
  eapply (stage_maybe _ _ _ _); [exact E14|]. intros G1 _. destruct (steps_none _ _ _ _ _ E13 E4 G1) as [G3 G4].
  destruct (steps_none _ _ _ _ _ E12 E3 G3) as [G5 G6]. rewrite (R2 G5 G6), <- G6, Ev, Eh, Eh'. done.
Qed.
(** ** the loop *)
Lemma stage_then s s1 s2 r (log1 log2 log : option (list write * res unit)) : stage s s1 (Ok tt) log1 -> stage s1 s2 r log2 ->
  (forall ws1 ws2, log1 = Some (ws1, Ok tt) -> io_disk s1 = apply_writes ws1 (io_disk s) -> log2 = Some (ws2, r) -> log = Some (ws1 ++ ws2, r)) -> stage s s2 r log.
Proof.
  intros (x & H1 & H2 & H3) (y & K1 & K2 & K3) H. exists (x ++ y). split_and!.
  - by rewrite K1, H1, app_assoc.
  - destruct H2 as [H2|]; [|done]. destruct K2 as [K2|K2]; [left; by apply Forall_app|by right].
  - intros [-> ->]%app_eq_nil. destruct (H3 eq_refl) as (ws1 & L1 & L2). destruct (K3 eq_refl) as (ws2 & M1 & M2). exists (ws1 ++ ws2). split; [by apply H|].
    by rewrite apply_app, <- L2.
Qed.
Lemma stage_ends s s' r (log1 log : option (list write * res unit)) : stage s s' r log1 -> (forall ws, log1 = Some (ws, r) -> log = Some (ws, r)) -> stage s s' r log.
Proof. intros (x & H1 & H2 & H3) H. exists x. split_and!; [done..|]. intros Hx. destruct (H3 Hx) as (ws & L1 & L2). eauto. Qed.
Local Arguments apply_writes : simpl never.
Lemma members_stage n fuel sp ms : forall i s s' r, members_f n fuel i sp ms s = Some (s', r) -> stage s s' r (members_log n fuel i sp ms (io_disk s)).
Proof.
  induction ms as [|[[child name] embeds] ms IH]; intros i s s' r; cbn [members_faulty build_members_log].
  { intros [= <- <-]. eapply stage_steps; [done|apply steps_refl]. }
  destruct (go_f n i sp child name embeds s) as [[s1 r1]|] eqn:E1; [|done]. apply go_stage in E1.
  destruct r1 as [[]| |].
  2,3: intros [= <- <-]; eapply stage_ends; [exact E1|intros ws ->; done].
  destruct (if r_avro A then _ else _) as [[s2 r2]|] eqn:E2; [|done].
  assert (E2' : stage s1 s2 r2 (if r_avro A then avro_log fuel name (sub_name (child_path F o_abs sp child) +:+ ".go") (io_disk s1) else Some ([], Ok tt))).
  { destruct (r_avro A); [by apply avro_stage|]. injection E2 as <- <-. eapply stage_steps; [done|apply steps_refl]. }
  clear E2. destruct r2 as [[]| |].
  2,3: intros [= <- <-]; eapply stage_then; [exact E1|exact E2'|]; intros ws1 ws2 L1 L2 L3; rewrite L1, <- L2, L3; done.
  intros H. apply IH in H.
  set (next := match (if r_avro A then avro_log fuel name (sub_name (child_path F o_abs sp child) +:+ ".go") (io_disk s1) else Some ([], Ok tt)) with
    | Some (ws', Ok _) => match members_log n fuel (S i) sp ms (apply_writes ws' (io_disk s1)) with Some (ws'', r) => Some (ws' ++ ws'', r) | None => None end
    | x => x end).
  assert (HN : stage s1 s' r next).
  { eapply stage_then; [exact E2'|exact H|]. intros ws1 ws2 L1 L2 L3. unfold next. rewrite L1, <- L2, L3. done. }
  eapply stage_then; [exact E1|exact HN|]. intros ws1 ws2 L1 L2 L3. unfold next in L3. rewrite L1, <- L2. clear - L2 L3.
  destruct (if r_avro A then _ else _) as [[ws' [[]| |]]|]; try (injection L3 as <- <-; done); [|done]. rewrite apply_app, <- L2.
  destruct (members_log _ _ _ _ _ _) as [[ws'' r'']|]; [|done]. by injection L3 as <- <-.
Qed.
Lemma msgp_stage s s' r : msgp_faulty o_msgp flt s = (s', r) -> stage s s' r (Some (build_msgp_log o_msgp (io_disk s))).
Proof.
  unfold msgp_faulty, build_msgp_log. destruct (o_msgp _) as [[[[p t] t']|]|]; [|intros [= <- <-]; eapply stage_steps; [done|apply steps_refl]..].
  destruct (checked _ _ s) as [s1 b1] eqn:E1. apply checked_cases in E1. destruct b1; [|intros [= <- <-]; eapply stage_fail; [exact E1|apply steps_refl]].
  destruct (checked _ _ s1) as [s2 b2] eqn:E2. apply checked_cases in E2. destruct b2; [|intros [= <- <-]; eapply stage_fail; [exact E2|exact E1]].
  intros [= <- <-]. eapply stage_steps; [done|]. exact (steps_trans _ _ _ _ _ _ E1 E2).
Qed.
Lemma run_stage n fuel og og' sp d s' r : run_f n fuel og og' sp d = Some (s', r) -> stage (Io 0 [] d) s' r (run_log n fuel og og' sp d).
Proof.
  unfold run_faulty, Crash.run_log. cbn zeta. set (s := Io 0 [] d).
  destruct (f_file F (o_abs sp)) as [doc|]; [|intros [= <- <-]; eapply stage_steps; [done|apply steps_refl]].
  destruct (schema_types doc) as [[[alls ones] props]| |]; [|intros [= <- <-]; eapply stage_steps; [done|apply steps_refl]..].
  destruct (if r_graphql A then _ else Some (s, Ok tt)) as [[s1 r1]|] eqn:E1; [|done].
  assert (E1' : stage s s1 r1 (if r_graphql A then gql_log n og og' sp else Some ([], Ok tt))).
  { destruct (r_graphql A); [by apply gql_stage|]. injection E1 as <- <-. eapply stage_steps; [done|apply steps_refl]. }
  clear E1. destruct r1 as [[]| |].
  2,3: intros [= <- <-]; eapply stage_ends; [exact E1'|intros ws ->; done].
  destruct (members_f _ _ _ _ _ _) as [[s2 r2]|] eqn:E2; [|done]. apply members_stage in E2. destruct r2 as [[]| |].
  2,3: intros [= <- <-]; eapply stage_then; [exact E1'|exact E2|]; intros ws1 ws2 L1 L2 L3; rewrite L1; change d with (io_disk s); rewrite <- L2, L3; done.
  destruct (r_msgp A) eqn:Em.
  - destruct (msgp_faulty _ _ _) as [s3 r3] eqn:E3. apply msgp_stage in E3. intros [= <- <-].
    set (ms := members_of W o_abs A sp alls ones props) in *.
    assert (HN : stage s1 s3 r3 (match members_log n fuel 0 sp ms (io_disk s1) with
      | Some (ws', Ok _) => let (ws'', r) := build_msgp_log o_msgp (apply_writes ws' (io_disk s1)) in Some (ws' ++ ws'', r) | x => x end)).
    { eapply stage_then; [exact E2|exact E3|]. intros ws1 ws2 L1 L2 L3. rewrite L1, <- L2. by injection L3 as ->. }
    eapply stage_then; [exact E1'|exact HN|]. intros ws1 ws2 L1 L2 L3. rewrite L1. change (io_disk s) with d in L2. rewrite <- L2. clear - L2 L3.
    destruct (members_log _ _ _ _ _ _) as [[ws' [[]| |]]|]; try (injection L3 as <- <-; done); [|done]. rewrite apply_app, <- L2.
    destruct (build_msgp_log _ _) as [ws'' r'']. by injection L3 as <- <-.
  - intros [= <- <-]. eapply stage_then; [exact E1'|exact E2|]. intros ws1 ws2 L1 L2 L3. rewrite L1. change d with (io_disk s). rewrite <- L2, L3. done.
Qed.
End proofs.

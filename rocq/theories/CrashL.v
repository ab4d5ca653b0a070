(** Proofs about interrupted runs of the generator. *)
From stdpp Require Import strings list gmap.
From Coq Require Import Ascii Lia.
From Verif Require Import GoStr GoStrL Val Conv Schema Inst Load SpecFiles SpecWhole Gen GenL Files FilesL Gql Avro GoSrc Mapper Whole WholeL Crash.
Set Default Proof Using "Type".

(** ** writes and contents *)
Definition text_of (w : write) (x : place) : option string :=
  match w, x with
  | WOut f t, POut f' => if decide (f' = f) then Some t else None
  | WGql f t, PGql f' => if decide (f' = f) then Some t else None
  | WAvro p fs, PAvro p' f' => if decide (p' = p) then assocd f' (put_all fs []) else None
  | _, _ => None
  end.
Lemma assocd_put_all {B} (fs dst : list (string * B)) f : assocd f (put_all fs dst) = match assocd f (put_all fs []) with Some t => Some t | None => assocd f dst end.
Proof.
  assert (H : forall e : list (string * B), (forall g, assocd g e = match assocd g ([] : list (string * B)) with Some t => Some t | None => assocd g e end)) by done.
  cut (forall fs (a b dst : list (string * B)), (forall g, assocd g a = match assocd g b with Some t => Some t | None => assocd g dst end) ->
    assocd f (put_all fs a) = match assocd f (put_all fs b) with Some t => Some t | None => assocd f dst end).
  { intros K. by apply K. }
  clear. induction fs as [|[k v] fs IH]; intros a b dst Hab; [apply Hab|]. cbn [put_all fold_left fst snd]. change (fold_left ?g ?s ?d) with (put_all s d).
  apply IH. intros g. rewrite !assocd_put. destruct (decide (g = k)); [done|apply Hab].
Qed.
Lemma content_write d w x : content (apply_write d w) x = match text_of w x with Some t => Some t | None => content d x end.
Proof.
  destruct w as [f t|f t|p fs], x as [f'|f'|p' f']; cbn; try done.
  - rewrite assocd_put. by destruct (decide (f' = f)).
  - rewrite assocd_put. by destruct (decide (f' = f)).
  - rewrite assocd_put. destruct (decide (p' = p)) as [->|]; [|done]. cbn. rewrite assocd_put_all. destruct (assocd f' (put_all fs [])); [done|]. by destruct (assocd p (d_avro d)).
Qed.
Fixpoint last_text (ws : list write) (x : place) : option string :=
  match ws with [] => None | w :: ws' => match last_text ws' x with Some t => Some t | None => text_of w x end end.
Lemma content_writes ws d x : content (apply_writes ws d) x = match last_text ws x with Some t => Some t | None => content d x end.
Proof.
  revert d. induction ws as [|w ws IH]; intros d; [done|]. cbn. change (foldl apply_write (apply_write d w) ws) with (apply_writes ws (apply_write d w)).
  rewrite IH, content_write. by destruct (last_text ws x).
Qed.
Lemma apply_app ws ws' d : apply_writes (ws ++ ws') d = apply_writes ws' (apply_writes ws d).
Proof. unfold apply_writes. by rewrite foldl_app. Qed.
Lemma last_app ws ws' x : last_text (ws ++ ws') x = match last_text ws' x with Some t => Some t | None => last_text ws x end.
Proof. induction ws as [|w ws IH]; cbn; [by destruct (last_text ws' x)|]. rewrite IH. by destruct (last_text ws' x), (last_text ws x). Qed.
Lemma assocd_none {B} f (l : list (string * B)) : assocd f l = None <-> f ∉ l.*1.
Proof.
  induction l as [|[k v] l IH]; cbn; [split; [intros _; apply not_elem_of_nil|done]|]. rewrite not_elem_of_cons. destruct (decide (k = f)) as [->|N]; [split; [done|by intros [[] _]]|].
  rewrite IH. split; [intros H; split; [congruence|done]|by intros [_ ?]].
Qed.
Lemma put_all_none {B} f (fs : list (string * B)) : assocd f (put_all fs []) = None <-> f ∉ fs.*1.
Proof.
  induction fs as [|[k v] fs IH]; cbn [fmap list_fmap fst]; [split; [intros _; apply not_elem_of_nil|done]|].
  cbn [put_all fold_left fst snd]. change (fold_left ?g ?s ?d) with (put_all s d). rewrite assocd_put_all. rewrite not_elem_of_cons.
  destruct (assocd f (put_all fs [])) as [t|] eqn:E.
  - split; [done|]. intros [_ H]. apply IH in H. done.
  - cbn. destruct (decide (k = f)) as [->|N]; [split; [done|by intros [[] _]]|]. split; [|done]. intros _. split; [congruence|by apply IH].
Qed.
Lemma cut_text w w' x : cut w w' -> text_of w x = None -> text_of w' x = None.
Proof.
  destruct 1 as [f t rest|f t rest|p fs f t rest more|p fs more]; destruct x as [f'|f'|p' f']; cbn; try done; try (by destruct (decide (f' = f))); destruct (decide (p' = p)); try done; rewrite !put_all_none, !fmap_app; cbn; rewrite !not_elem_of_app.
  - intros [H1 H2]. split; [done|]. rewrite not_elem_of_cons in *. split; [by destruct H2|apply not_elem_of_nil].
  - by intros [H1 H2].
Qed.

Section proofs.
Context (W : oracles) (F : files) (o_abs : string -> string) (o_fmt : string -> option string).
Context (o_quote o_trim o_quote_avro : string -> string) (o_unquote : string -> option string) (o_tag : afield -> string).
Context (o_types : string -> string) (o_gogen : string -> string -> option dir) (o_declared : dir -> string -> option texpr).
Context (o_join : list string -> string) (o_msgp : dir -> option (option (string * string * string))).
Context (A : run_args) (pkg : string).
Context (ord : nat -> string -> list string -> list string) (ord' : nat -> list string -> list string -> list string).
Notation GA := (r_gql A).
Notation SA := (ga (r_gql A)).
Notation title := (exported W).
Notation lower := (go_lower W).
Notation run := (run W F o_abs o_fmt o_quote o_trim o_quote_avro o_unquote o_tag o_types o_gogen o_declared o_join o_msgp A pkg ord ord').
Notation build_members := (build_members W F o_abs o_fmt o_quote_avro o_unquote o_tag o_types o_gogen o_declared o_join A pkg ord ord').
Notation build_avro := (build_avro W o_fmt o_quote_avro o_unquote o_tag o_types o_gogen o_declared o_join A pkg).
Notation build_gql := (build_gql W F o_abs o_quote o_trim A pkg).
Notation one_file := (build_struct_file W F o_abs o_fmt SA pkg ord ord').
Notation run_log := (run_log W F o_abs o_fmt o_quote o_trim o_quote_avro o_unquote o_tag o_types o_gogen o_declared o_join o_msgp A pkg ord ord').
Notation members_log := (build_members_log W F o_abs o_fmt o_quote_avro o_unquote o_tag o_types o_gogen o_declared o_join A pkg ord ord').
Notation avro_log := (build_avro_log W o_fmt o_quote_avro o_unquote o_tag o_types o_gogen o_declared o_join A pkg).
Notation gql_log := (build_gql_log W F o_abs o_quote o_trim A pkg).
Notation struct_log := (build_struct_log W F o_abs o_fmt A pkg ord ord').
Notation interrupted := (interrupted W F o_abs o_fmt o_quote o_trim o_quote_avro o_unquote o_tag o_types o_gogen o_declared o_join o_msgp A pkg ord ord').
Notation did d := (fun x : list write * res unit => (apply_writes x.1 d, x.2)).

(** ** the log is what the run does *)
Lemma impls_log o o' name all : forall ms common main d, gql_impls W o_quote o_trim A o o' name all common ms main d =
  (apply_writes (gql_impls_log W o_quote o_trim A o o' name all common ms main).1 d, (gql_impls_log W o_quote o_trim A o o' name all common ms main).2).
Proof.
  induction ms as [|m ms IH]; intros common main d; [done|]. cbn [gql_impls gql_impls_log].
  destruct (q_new W GA o m (from_name m) all) as [g| |]; [|done..]. destruct (if a_embed SA then _ else _) as [more| |]; [|done..]. cbn zeta.
  destruct (ga_files GA); rewrite IH; destruct (gql_impls_log _ _ _ _ _ _ _ _ _ _ _) as [ws r]; done.
Qed.
Lemma gql_logged n o o' sp d : build_gql n o o' sp d = did d <$> gql_log n o o' sp.
Proof.
  unfold Whole.build_gql, build_gql_log. cbn zeta. destruct (load_schema _ _ _ _ _) as [[schema| |]|]; [|done..]. destruct (seqs _) as [common| |]; [|done..].
  rewrite impls_log. set (head := q_header +:+ _). set (first := if (match n_allOf schema with [] => false | _ => true end) then _ else _).
  destruct (gql_impls_log _ _ _ _ _ _ _ _ _ _ _) as [ws [t| |]]; cbn [fst snd]; [|by cbn; rewrite ?apply_app..].
  destruct (n_allOf schema); [destruct (n_oneOf schema)|]; [destruct (q_new _ _ _ _ _ _)| |]; cbn; rewrite ?foldl_app; done.
Qed.
Lemma struct_logged n i sp child name embeds d :
  one_file n i sp child name embeds (d_out d) = (fun x : list write * res unit => (d_out (apply_writes x.1 d), x.2)) <$> struct_log n i sp child name embeds /\
  (forall ws r, struct_log n i sp child name embeds = Some (ws, r) -> Disk (d_out (apply_writes ws d)) (d_gql d) (d_avro d) = apply_writes ws d).
Proof.
  unfold build_struct_file, build_struct_log. destruct (load_schema _ _ _ _ _) as [[schema| |]|]; try (split; [done|by intros ws r [= <- <-]; destruct d]).
  destruct (new_file _ _ _ _ _ _); try (split; [done|by intros ws r [= <- <-]; destruct d]). cbn zeta. destruct (o_fmt _); (split; [done|by intros ws r [= <- <-]; destruct d]).
Qed.
Lemma avro_logged fuel name file d : build_avro fuel name file d = did d <$> avro_log fuel name file d.
Proof.
  unfold Whole.build_avro, build_avro_log. cbn zeta. destruct (avro_schema _ _ _ _ _ _ _) as [[t| |]|]; [|done..].
  destruct (o_gogen _ _) as [fs|]; [|done]. change (apply_writes [WOut ?f ?t; WAvro ?p ?fs] d) with (avro_put p fs (out_put f t d)).
  destruct (helper_values _ _ _ _ _ _ _ _ _ _ _ _) as [[vals|]|]; [|done..]. destruct (o_fmt _); [|done]. by destruct (o_fmt _).
Qed.
Local Arguments apply_writes : simpl never.
Lemma members_logged n fuel sp ms : forall i d, build_members n fuel i sp ms d = did d <$> members_log n fuel i sp ms d.
Proof.
  induction ms as [|[[child name] embeds] ms IH]; intros i d; [done|]. cbn [Whole.build_members build_members_log]. unfold Whole.build_one.
  destruct (struct_logged n i sp child name embeds d) as [E1 E2]. rewrite E1. destruct (struct_log n i sp child name embeds) as [[ws r]|]; [|done]. cbn. rewrite (E2 ws r eq_refl).
  destruct r as [[]| |]; [|done..]. destruct (r_avro A).
  - rewrite avro_logged. destruct (avro_log _ _ _ _) as [[ws' r']|]; [|done]. cbn. destruct r' as [[]| |]; [|by cbn; rewrite apply_app..].
    rewrite IH, apply_app. destruct (members_log _ _ _ _ _ _) as [[ws'' r'']|]; [|done]. cbn. by rewrite !apply_app.
  - rewrite IH, app_nil_r. destruct (members_log _ _ _ _ _ _) as [[ws'' r'']|]; [|done]. cbn. by rewrite !apply_app.
Qed.
Lemma run_logged n fuel og og' sp d : run n fuel og og' sp d = did d <$> run_log n fuel og og' sp d.
Proof.
  unfold Whole.run, Crash.run_log. destruct (f_file F (o_abs sp)) as [doc|]; [|done]. destruct (schema_types doc) as [[[alls ones] props]| |]; [|done..].
  assert (E : (if r_graphql A then build_gql n og og' sp d else Some (d, Ok tt)) = did d <$> (if r_graphql A then gql_log n og og' sp else Some ([], Ok tt))).
  { destruct (r_graphql A); [apply gql_logged|done]. }
  rewrite E. clear E. destruct (if r_graphql A then _ else _) as [[ws r]|]; [|done]. cbn. destruct r as [[]| |]; [|done..].
  rewrite members_logged. destruct (members_log _ _ _ _ _ _) as [[ws' r']|]; [|done]. cbn. destruct r' as [[]| |]; [|by cbn; rewrite apply_app..].
  destruct (r_msgp A); [|by cbn; rewrite apply_app]. unfold build_msgp, build_msgp_log. rewrite apply_app.
  destruct (o_msgp _) as [[[[p t] t']|]|]; cbn; by rewrite !apply_app.
Qed.

(** ** every write is to a file of the schema *)
Definition own_write (go gql avro : string -> Prop) (w : write) : Prop := match w with WOut f _ => go f | WGql f _ => gql f | WAvro p _ => avro p end.
Lemma own_weaken (P Q R P' Q' R' : string -> Prop) ws : (forall f, P f -> P' f) -> (forall f, Q f -> Q' f) -> (forall f, R f -> R' f) -> Forall (own_write P Q R) ws -> Forall (own_write P' Q' R') ws.
Proof. intros H1 H2 H3. intros H. eapply Forall_impl; [exact H|]. intros [] K; cbn in *; auto. Qed.
Notation none := (fun _ : string => False).
Notation avro_dir name := (sub_name (low title lower name +:+ ".avsc")).
Lemma impls_own o o' sp all : forall ms common main, Forall (own_write none (gql_name sp) none) (gql_impls_log W o_quote o_trim A o o' (sub_name sp) all common ms main).1.
Proof.
  induction ms as [|m ms IH]; intros common main; cbn [gql_impls_log]; [constructor|].
  destruct (q_new W GA o m (from_name m) all) as [g| |]; [|constructor..]. destruct (if a_embed SA then _ else _) as [more| |]; [|constructor..]. cbn zeta.
  match goal with |- context [gql_impls_log W o_quote o_trim A o o' ?n ?a ?c ?m ?x] => specialize (IH c x) end.
  destruct (gql_impls_log _ _ _ _ _ _ _ _ _ _ _) as [ws r]. cbn in *. constructor; [|done]. destruct (ga_files GA); cbn; [apply impl_named|by exists ""].
Qed.
Lemma gql_own n o o' sp ws r : gql_log n o o' sp = Some (ws, r) -> Forall (own_write none (gql_name sp) none) ws.
Proof.
  assert (Hm : gql_name sp (sub_name sp +:+ ".graphqls")) by (by exists "").
  unfold build_gql_log. cbn zeta. destruct (load_schema _ _ _ _ _) as [[schema| |]|]; try done; try (intros [= <- <-]; by repeat constructor).
  destruct (seqs _) as [common| |]; try (intros [= <- <-]; by repeat constructor).
  match goal with |- context [gql_impls_log W o_quote o_trim A o o' ?n ?a ?c ?m ?x] => pose proof (impls_own o o' sp a m c x) as H; destruct (gql_impls_log W o_quote o_trim A o o' n a c m x) as [ws' [t| |]] end;
    cbn in H; [|intros [= <- <-]; by repeat (constructor; [done|])..].
  destruct (n_allOf schema); [destruct (n_oneOf schema)|]; [destruct (q_new _ _ _ _ _ _)| |]; intros [= <- <-]; do 2 (constructor; [done|]); try done. apply Forall_app. split; [done|]. by repeat constructor.
Qed.
Lemma struct_own n i sp child name embeds ws r : struct_log n i sp child name embeds = Some (ws, r) ->
  Forall (own_write (fun f => f = sub_name (child_path F o_abs sp child) +:+ ".go") none none) ws.
Proof.
  unfold build_struct_log. destruct (load_schema _ _ _ _ _) as [[schema| |]|]; try done; try (intros [= <- <-]; constructor).
  destruct (new_file _ _ _ _ _ _); try (intros [= <- <-]; constructor). cbn zeta. destruct (o_fmt _); intros [= <- <-]; by repeat constructor.
Qed.
Lemma avro_own fuel name file d ws r : avro_log fuel name file d = Some (ws, r) ->
  Forall (own_write (fun f => f ∈ avro_names title lower name) none (fun p => p = avro_dir name)) ws.
Proof.
  unfold build_avro_log. cbn zeta. change (go_lower W (title name)) with (low title lower name).
  assert (H1 : low title lower name +:+ ".avsc" ∈ avro_names title lower name) by left. assert (H2 : low title lower name +:+ "_avro.go" ∈ avro_names title lower name) by (right; left).
  assert (H3 : low title lower name +:+ "_avro_test.go" ∈ avro_names title lower name) by (right; right; left).
  destruct (avro_schema _ _ _ _ _ _ _) as [[t| |]|]; try done; try (intros [= <- <-]; constructor).
  destruct (o_gogen _ _) as [fs|]; [|intros [= <- <-]; by repeat constructor]. destruct (helper_values _ _ _ _ _ _ _ _ _ _ _ _) as [[vals|]|]; try done; [|intros [= <- <-]; by repeat constructor].
  destruct (o_fmt _); [|intros [= <- <-]; by repeat constructor]. destruct (o_fmt _); intros [= <- <-]; by repeat constructor.
Qed.
Notation member_writes ms := (own_write (fun f => exists m, m ∈ ms /\ f ∈ names_for title lower (r_avro A) (child_path F o_abs _ m.1.1) m.1.2) none
    (fun p => exists m, m ∈ ms /\ r_avro A = true /\ p = avro_dir m.1.2)).
Lemma members_own n fuel sp ms : forall i d ws r, members_log n fuel i sp ms d = Some (ws, r) ->
  Forall (own_write (fun f => exists m, m ∈ ms /\ f ∈ names_for title lower (r_avro A) (child_path F o_abs sp m.1.1) m.1.2) none
    (fun p => exists m, m ∈ ms /\ r_avro A = true /\ p = avro_dir m.1.2)) ws.
Proof.
  induction ms as [|[[child name] embeds] ms IH]; intros i d ws r; cbn [build_members_log]; [intros [= <- <-]; constructor|].
  destruct (struct_log n i sp child name embeds) as [[ws1 r1]|] eqn:E1; [|done]. apply struct_own in E1.
  match goal with |- _ -> Forall ?P _ => assert (H1 : Forall P ws1) end.
  { eapply own_weaken; [..|exact E1]; [|done..]. intros f ->. exists (child, name, embeds). split; [left|]. left. }
  destruct r1 as [[]| |]; [|by intros [= <- <-]..].
  destruct (if r_avro A then _ else _) as [[ws2 r2]|] eqn:E2; [|done].
  match goal with |- _ -> Forall ?P _ => assert (H2 : Forall P ws2) end.
  { destruct (r_avro A) eqn:Ha; [|injection E2 as <- <-; constructor]. apply avro_own in E2. eapply own_weaken; [..|exact E2]; [|done|].
    - intros f Hf. exists (child, name, embeds). split; [left|]. by right.
    - intros p ->. exists (child, name, embeds). split; [left|done]. }
  destruct r2 as [[]| |]; [|intros [= <- <-]; by apply Forall_app..].
  destruct (members_log _ _ _ _ _ _) as [[ws3 r3]|] eqn:E3; [|done]. intros [= <- <-]. apply Forall_app. split; [done|]. apply Forall_app. split; [done|].
  apply IH in E3. eapply own_weaken; [..|exact E3]; [|done|]; intros f (m & Hm & Hf); exists m; (split; [by right|done]).
Qed.
Lemma run_own n fuel og og' sp doc i d ws r : f_file F (o_abs sp) = Some doc -> d_inst false doc = Ok i -> run_log n fuel og og' sp d = Some (ws, r) ->
  Forall (own_write (fun f => (exists ref name, member title (a_structNames SA) i (o_abs sp) ref name /\ f ∈ names_for title lower (r_avro A) (child_path F o_abs sp ref) name) \/
                  (r_msgp A = true /\ exists p, f = p +:+ "_msgp.go" \/ f = p +:+ "_msgp_test.go"))
    (fun f => r_graphql A = true /\ gql_name sp f)
    (fun p => r_avro A = true /\ exists ref name, member title (a_structNames SA) i (o_abs sp) ref name /\ p = avro_dir name)) ws.
Proof.
  intros Hdoc Hi. unfold Crash.run_log. rewrite Hdoc, (types_own _ _ Hi). set (ms := members_of _ _ _ _ _ _ _).
  destruct (if r_graphql A then _ else _) as [[ws1 r1]|] eqn:E1; [|done].
  match goal with |- _ -> Forall ?P _ => assert (H1 : Forall P ws1) end.
  { destruct (r_graphql A); [|injection E1 as <- <-; constructor]. apply gql_own in E1. eapply own_weaken; [..|exact E1]; done. }
  destruct r1 as [[]| |]; [|by intros [= <- <-]..]. destruct (members_log _ _ _ _ _ _) as [[ws2 r2]|] eqn:E2; [|done]. apply members_own in E2.
  match goal with |- _ -> Forall ?P _ => assert (H2 : Forall P ws2) end.
  { eapply own_weaken; [..|exact E2]; [|done|].
    - intros f (m & Hm & Hf). left. exists m.1.1, m.1.2. split; [by apply members_are|done].
    - intros p (m & Hm & Ha & Hf). split; [done|]. exists m.1.1, m.1.2. split; [by apply members_are|done]. }
  destruct r2 as [[]| |]; [|intros [= <- <-]; by apply Forall_app..]. destruct (r_msgp A) eqn:Hm; [|intros [= <- <-]; by apply Forall_app].
  unfold build_msgp_log. destruct (o_msgp _) as [[[[p t] t']|]|]; intros [= <- <-]; (apply Forall_app; split; [done|]; apply Forall_app; split; [done|]); try constructor; [|constructor; [|constructor]];
    right; (split; [done|]); exists p; [by left|by right].
Qed.

(** ** where a run can be interrupted *)
Notation of_member sp m := (own_write (fun f => f ∈ names_for title lower (r_avro A) (child_path F o_abs sp m.1.1) m.1.2) none (fun p => r_avro A = true /\ p = avro_dir m.1.2)).
Lemma split_log (ws1 ws2 b a : list write) w : ws1 ++ ws2 = b ++ w :: a -> (exists k, ws1 = b ++ w :: k) \/ (exists k, b = ws1 ++ k /\ ws2 = k ++ w :: a).
Proof.
  intros H. apply app_eq_inv in H as [(k & H1 & H2)|(k & H1 & H2)]; [|right; eauto]. destruct k as [|x k]; cbn in H2.
  - right. exists []. subst. by rewrite !app_nil_r.
  - injection H2 as <- ->. left. eauto.
Qed.
Lemma members_point n fuel sp ms : forall i d b w a r, members_log n fuel i sp ms d = Some (b ++ w :: a, r) ->
  exists before m after b1 b2, ms = before ++ m :: after /\ members_log n fuel i sp before d = Some (b1, Ok tt) /\ b = b1 ++ b2 /\ Forall (of_member sp m) (b2 ++ [w]).
Proof.
  induction ms as [|[[child name] embeds] ms IH]; intros i d b w a r; cbn [build_members_log]; [intros [= H _]; by destruct b|].
  destruct (struct_log n i sp child name embeds) as [[ws1 r1]|] eqn:E1; [|done]. pose proof (struct_own _ _ _ _ _ _ _ _ E1) as H1. set (m := (child, name, embeds)).
  assert (Hs : Forall (of_member sp m) ws1) by (eapply own_weaken; [..|exact H1]; [|done..]; intros f ->; left). clear H1.
  assert (Hown : forall ws k, ws = b ++ w :: k -> Forall (of_member sp m) ws -> Forall (of_member sp m) (b ++ [w])).
  { intros ws k -> [H2 [H3 _]%Forall_cons]%Forall_app. apply Forall_app. split; [done|]. by constructor. }
  assert (Hstop : forall ws k, ws = b ++ w :: k -> Forall (of_member sp m) ws -> exists before m0 after b1 b2, m :: ms = before ++ m0 :: after /\ members_log n fuel i sp before d = Some (b1, Ok tt) /\ b = b1 ++ b2 /\ Forall (of_member sp m0) (b2 ++ [w])).
  { intros ws k E H. exists [], m, ms, [], b. split_and!; [done..|]. by eapply Hown. }
  destruct r1 as [[]| |]; [|intros [= E _]; by eapply Hstop..].
  destruct (if r_avro A then _ else _) as [[ws2 r2]|] eqn:E2; [|done].
  assert (H2 : Forall (of_member sp m) ws2).
  { destruct (r_avro A) eqn:Ha; [|injection E2 as <- <-; constructor]. apply avro_own in E2. eapply own_weaken; [..|exact E2]; [|done|].
    - intros f Hf. by right.
    - by intros p ->. }
  assert (H12 : Forall (of_member sp m) (ws1 ++ ws2)) by (by apply Forall_app).
  destruct r2 as [[]| |]; [|intros [= E _]; by eapply Hstop..].
  destruct (members_log _ _ _ _ _ _) as [[ws3 r3]|] eqn:E3; [|done]. rewrite app_assoc. intros [= E <-]. apply split_log in E as [[k E]|(k & -> & ->)].
  - by eapply Hstop.
  - destruct (IH _ _ _ _ _ _ E3) as (before & m' & after & b1 & b2 & -> & H & -> & Hm'). exists (m :: before), m', after, ((ws1 ++ ws2) ++ b1), b2. split_and!; [done| |by rewrite app_assoc|done].
    unfold m. cbn [build_members_log]. rewrite E1, E2, H. by rewrite app_assoc.
Qed.
Lemma own_texts (P Q R : string -> Prop) ws x : Forall (own_write P Q R) ws -> ~ match x with POut f => P f | PGql f => Q f | PAvro p _ => R p end -> last_text ws x = None.
Proof.
  intros H Hx. induction H as [|w ws Hw _ IH]; [done|]. cbn. rewrite IH. destruct w as [f t|f t|p fs], x as [f'|f'|p' f']; cbn in *; try done; case_decide; subst; done.
Qed.
(** what is interrupted in [w] after [b]: [d1] *)
Definition stopped (b : list write) (w : write) (d d1 : disk) : Prop := d1 = apply_writes b d \/ exists w', cut w w' /\ d1 = apply_write (apply_writes b d) w'.
Lemma stopped_app b1 b2 w d d1 : stopped (b1 ++ b2) w d d1 <-> stopped b2 w (apply_writes b1 d) d1.
Proof. unfold stopped. by rewrite apply_app. Qed.
Lemma stopped_own (P Q R : string -> Prop) b w d d1 x : stopped b w d d1 -> Forall (own_write P Q R) (b ++ [w]) -> ~ match x with POut f => P f | PGql f => Q f | PAvro p _ => R p end ->
  content d1 x = content d x.
Proof.
  intros Hd H Hx. pose proof (own_texts _ _ _ _ _ H Hx) as K. rewrite last_app in K. cbn in K. destruct (text_of w x) eqn:Ew; [done|]. destruct Hd as [->|(w' & Hc & ->)].
  - rewrite content_writes. by rewrite K.
  - rewrite content_write, (cut_text _ _ _ Hc Ew), content_writes. by rewrite K.
Qed.
Lemma interrupted_point n fuel og og' sp doc i d d1
    (ms := members_of W o_abs A sp (map n_ref (n_allOf i)) (map n_ref (n_oneOf i)) (sort_strings (default [] (n_props i)).*1)) :
  f_file F (o_abs sp) = Some doc -> d_inst false doc = Ok i -> interrupted n fuel og og' sp d d1 ->
  (r_graphql A = true /\ (forall x, ~ (exists f, x = PGql f /\ gql_name sp f) -> content d1 x = content d x)) \/
  exists dg, (r_graphql A = false /\ dg = d \/ r_graphql A = true /\ build_gql n og og' sp d = Some (dg, Ok tt)) /\
   ((exists before m after d2, ms = before ++ m :: after /\ build_members n fuel 0 sp before dg = Some (d2, Ok tt) /\
      forall x, ~ match x with POut f => f ∈ names_for title lower (r_avro A) (child_path F o_abs sp m.1.1) m.1.2 | PGql _ => False | PAvro p _ => r_avro A = true /\ p = avro_dir m.1.2 end ->
        content d1 x = content d2 x) \/
    (r_msgp A = true /\ exists d2, build_members n fuel 0 sp ms dg = Some (d2, Ok tt) /\
      forall x, ~ (exists p, x = POut (p +:+ "_msgp.go") \/ x = POut (p +:+ "_msgp_test.go")) -> content d1 x = content d2 x)).
Proof.
  intros Hdoc Hi (b & w & a & r & H & Hd). change (stopped b w d d1) in Hd. revert H. unfold Crash.run_log. rewrite Hdoc, (types_own _ _ Hi).
  change (members_of W o_abs A sp (map n_ref (n_allOf i)) (map n_ref (n_oneOf i)) (sort_strings (default [] (n_props i)).*1)) with ms.
  destruct (if r_graphql A then _ else _) as [[ws1 r1]|] eqn:E1; [|done].
  assert (Hg : forall k, ws1 = b ++ w :: k -> r_graphql A = true /\ (forall x, ~ (exists f, x = PGql f /\ gql_name sp f) -> content d1 x = content d x)).
  { intros k ->. destruct (r_graphql A); [|injection E1; by destruct b]. split; [done|]. intros x Hx. apply gql_own in E1. eapply stopped_own; [exact Hd| |].
    - apply Forall_app in E1 as [H1 [H2 _]%Forall_cons]. apply Forall_app. split; [exact H1|]. constructor; [exact H2|constructor].
    - destruct x as [f|f|p f]; [by intros []|intros Hf; apply Hx; eauto|by intros []]. }
  destruct r1 as [[]| |]; [|intros [= E _]; left; by eapply Hg..].
  set (dg := apply_writes ws1 d).
  assert (Hdg : r_graphql A = false /\ dg = d \/ r_graphql A = true /\ build_gql n og og' sp d = Some (dg, Ok tt)).
  { destruct (r_graphql A); [right|left]; (split; [done|]); [by rewrite gql_logged, E1|by injection E1 as <-]. }
  destruct (members_log _ _ _ _ _ _) as [[ws2 r2]|] eqn:E2; [|done].
  assert (Hm : forall k, ws1 ++ ws2 = b ++ w :: k ->
    (r_graphql A = true /\ (forall x, ~ (exists f, x = PGql f /\ gql_name sp f) -> content d1 x = content d x)) \/
    (exists before m after d2, ms = before ++ m :: after /\ build_members n fuel 0 sp before dg = Some (d2, Ok tt) /\
      forall x, ~ match x with POut f => f ∈ names_for title lower (r_avro A) (child_path F o_abs sp m.1.1) m.1.2 | PGql _ => False | PAvro p _ => r_avro A = true /\ p = avro_dir m.1.2 end ->
        content d1 x = content d2 x)).
  { intros k E. apply split_log in E as [[k' E]|(k' & -> & ->)]; [left; by eapply Hg|]. right. destruct (members_point _ _ _ _ _ _ _ _ _ _ E2) as (before & m & after & b1 & b2 & E & Hb & -> & Ho).
    exists before, m, after, (apply_writes b1 dg). split_and!; [done|by rewrite members_logged; fold dg in Hb; rewrite Hb|]. intros x Hx. rewrite !stopped_app in Hd.
    eapply stopped_own; [exact Hd|exact Ho|]. done. }
  destruct r2 as [[]| |]; [|intros [= E _]; destruct (Hm _ E) as [H|H]; [by left|right; exists dg; split; [done|by left]]..].
  destruct (r_msgp A) eqn:Hms; [|intros [= E _]; destruct (Hm _ E) as [H|H]; [by left|right; exists dg; split; [done|by left]]].
  assert (Hb : build_members n fuel 0 sp ms dg = Some (apply_writes ws2 dg, Ok tt)) by (rewrite members_logged; fold dg in E2; by rewrite E2).
  destruct (build_msgp_log _ _) as [ws3 r3] eqn:E3. rewrite app_assoc. intros [= E _]. apply split_log in E as [[k E]|(k & -> & ->)].
  { destruct (Hm _ E) as [H|H]; [by left|right; exists dg; split; [done|by left]]. }
  right. exists dg. split; [done|]. right. split; [done|]. exists (apply_writes ws2 dg). split; [done|]. intros x Hx. rewrite stopped_app, apply_app in Hd.
  eapply (stopped_own (fun f => exists p, f = p +:+ "_msgp.go" \/ f = p +:+ "_msgp_test.go") none none); [exact Hd| |].
  - assert (K : Forall (own_write (fun f => exists p, f = p +:+ "_msgp.go" \/ f = p +:+ "_msgp_test.go") none none) (k ++ w :: a)).
    { revert E3. unfold build_msgp_log. destruct (o_msgp _) as [[[[p t] t']|]|]; intros [= <- _]; [|constructor..]. constructor; [exists p; by left|]. constructor; [exists p; by right|constructor]. }
    apply Forall_app in K as [K1 [K2 _]%Forall_cons]. apply Forall_app. split; [exact K1|]. constructor; [exact K2|constructor].
  - destruct x as [f|f|p f]; [|by intros []..]. intros (p & [->| ->]); apply Hx; exists p; [by left|by right].
Qed.
(** ** interrupted runs *)
Lemma interrupted_content n fuel og og' sp d d1 : interrupted n fuel og og' sp d d1 ->
  exists ws r, run_log n fuel og og' sp d = Some (ws, r) /\ forall x, last_text ws x = None -> content d1 x = content d x.
Proof.
  intros (before & w & after & r & H & Hd). exists (before ++ w :: after), r. split; [done|]. intros x Hx. rewrite last_app in Hx. cbn in Hx.
  destruct (last_text after x); [done|]. destruct (text_of w x) eqn:Ew; [done|]. destruct Hd as [->|(w' & Hc & ->)].
  - rewrite content_writes. by rewrite Hx.
  - rewrite content_write, (cut_text _ _ _ Hc Ew), content_writes. by rewrite Hx.
Qed.
Definition own_place (go gql avro : string -> Prop) (x : place) : Prop := match x with POut f => go f | PGql f => gql f | PAvro p _ => avro p end.
Lemma interrupted_frame n fuel og og' sp doc i d d1 x : f_file F (o_abs sp) = Some doc -> d_inst false doc = Ok i -> interrupted n fuel og og' sp d d1 ->
  ~ own_place (fun f => (exists ref name, member title (a_structNames SA) i (o_abs sp) ref name /\ f ∈ names_for title lower (r_avro A) (child_path F o_abs sp ref) name) \/
                  (r_msgp A = true /\ exists p, f = p +:+ "_msgp.go" \/ f = p +:+ "_msgp_test.go"))
    (fun f => r_graphql A = true /\ gql_name sp f)
    (fun p => r_avro A = true /\ exists ref name, member title (a_structNames SA) i (o_abs sp) ref name /\ p = avro_dir name) x ->
  content d1 x = content d x.
Proof.
  intros Hdoc Hi H Hx. destruct (interrupted_content _ _ _ _ _ _ _ H) as (ws & r & Hl & Hc). apply Hc. eapply own_texts; [|exact Hx]. by eapply run_own.
Qed.
(** without Avro what is written does not depend on the files *)
Lemma members_same n fuel sp ms : r_avro A = false -> forall i d d', members_log n fuel i sp ms d = members_log n fuel i sp ms d'.
Proof.
  intros Ha. induction ms as [|[[child name] embeds] ms IH]; intros i d d'; [done|]. cbn [build_members_log]. rewrite Ha.
  destruct (struct_log n i sp child name embeds) as [[ws [[]| |]]|]; [|done..]. by rewrite (IH _ _ (apply_writes (ws ++ []) d')).
Qed.
Definition msgp_file (x : place) : Prop := match x with POut f => exists p, f = p +:+ "_msgp.go" \/ f = p +:+ "_msgp_test.go" | _ => False end.
Lemma log_same n fuel og og' sp d d1 ws r : r_avro A = false ->
  (r_msgp A = true -> forall a b, (forall f, assocd f a = assocd f b) -> o_msgp a = o_msgp b) ->
  run_log n fuel og og' sp d = Some (ws, r) -> (forall x, last_text ws x = None -> content d1 x = content d x) ->
  (r_msgp A = true -> forall x, msgp_file x -> content d1 x = content d x) ->
  run_log n fuel og og' sp d1 = Some (ws, r).
Proof.
  intros Ha Hm. unfold Crash.run_log. destruct (f_file F (o_abs sp)) as [doc|]; [|done]. destruct (schema_types doc) as [[[alls ones] props]| |]; [|done..].
  destruct (if r_graphql A then _ else _) as [[ws1 [[]| |]]|]; [|done..]. rewrite (members_same n fuel sp _ Ha 0 (apply_writes ws1 d1) (apply_writes ws1 d)).
  destruct (members_log _ _ _ _ _ _) as [[ws2 [[]| |]]|]; [|done..]. destruct (r_msgp A); [|done]. intros H Hc Hx. specialize (Hm eq_refl). specialize (Hx eq_refl).
  assert (E : build_msgp_log o_msgp (apply_writes (ws1 ++ ws2) d1) = build_msgp_log o_msgp (apply_writes (ws1 ++ ws2) d)); [|by rewrite E].
  unfold build_msgp_log. rewrite (Hm _ (d_out (apply_writes (ws1 ++ ws2) d))); [done|]. intros f. change (content (apply_writes (ws1 ++ ws2) d1) (POut f) = content (apply_writes (ws1 ++ ws2) d) (POut f)).
  rewrite !content_writes. destruct (last_text (ws1 ++ ws2) (POut f)) eqn:El; [done|]. unfold build_msgp_log in H.
  destruct (o_msgp _) as [[[[p t] t']|]|]; injection H as <- <-; rewrite app_assoc in Hc; try (apply Hc; rewrite last_app; cbn; by rewrite El).
  destruct (decide (f = p +:+ "_msgp_test.go")) as [->|N1]; [apply Hx; exists p; by right|]. destruct (decide (f = p +:+ "_msgp.go")) as [->|N2]; [apply Hx; exists p; by left|].
  apply Hc. rewrite last_app. cbn. rewrite !decide_False by done. done.
Qed.
Lemma interrupted_repeat n fuel og og' sp d d1 d' r : r_avro A = false ->
  (r_msgp A = true -> forall a b, (forall f, assocd f a = assocd f b) -> o_msgp a = o_msgp b) ->
  run n fuel og og' sp d = Some (d', r) -> interrupted n fuel og og' sp d d1 -> (r_msgp A = true -> forall x, msgp_file x -> content d1 x = content d x) ->
  exists d'', run n fuel og og' sp d1 = Some (d'', r) /\ forall x, content d'' x = content d' x.
Proof.
  intros Ha Hm Hr Hi Hx. destruct (interrupted_content _ _ _ _ _ _ _ Hi) as (ws & r' & Hl & Hc). rewrite run_logged, Hl in Hr. injection Hr as <- ->.
  pose proof (log_same _ _ _ _ _ _ _ _ _ Ha Hm Hl Hc Hx) as Hl1. exists (apply_writes ws d1). split; [by rewrite run_logged, Hl1|].
  intros x. cbn. rewrite !content_writes. destruct (last_text ws x) eqn:El; [done|]. by apply Hc.
Qed.
(** and the same goes for any directory *)
Lemma run_forgets n fuel og og' sp d e d' r : r_avro A = false -> r_msgp A = false -> run n fuel og og' sp d = Some (d', r) ->
  exists e', run n fuel og og' sp e = Some (e', r) /\ forall x, content e' x = content d' x \/ (content d' x = content d x /\ content e' x = content e x).
Proof.
  intros Ha Hm. rewrite !run_logged. destruct (run_log n fuel og og' sp d) as [[ws r']|] eqn:El; [|done]. intros [= <- <-].
  assert (E : run_log n fuel og og' sp e = Some (ws, r')).
  { revert El. unfold Crash.run_log. destruct (f_file F (o_abs sp)) as [doc|]; [|done]. destruct (schema_types doc) as [[[alls ones] props]| |]; [|done..].
    destruct (if r_graphql A then _ else _) as [[ws1 [[]| |]]|]; [|done..]. rewrite (members_same n fuel sp _ Ha 0 (apply_writes ws1 e) (apply_writes ws1 d)).
    destruct (members_log _ _ _ _ _ _) as [[ws2 [[]| |]]|]; [|done..]. by rewrite Hm. }
  rewrite E. eexists. split; [done|]. intros x. cbn. rewrite !content_writes. destruct (last_text ws x); [by left|by right].
Qed.
Lemma run_is_log n fuel og og' sp d : run n fuel og og' sp d = match run_log n fuel og og' sp d with Some (ws, r) => Some (apply_writes ws d, r) | None => None end.
Proof. rewrite run_logged. by destruct (run_log n fuel og og' sp d) as [[ws r]|]. Qed.
Lemma interrupted_only n fuel og og' sp doc i d d1 (members := member title (a_structNames SA) i (o_abs sp)) : f_file F (o_abs sp) = Some doc -> d_inst false doc = Ok i -> interrupted n fuel og og' sp d d1 ->
  (forall f, ~ ((exists ref name, members ref name /\ f ∈ names_for title lower (r_avro A) (if has_prefix "/" ref then o_abs ref else f_rel F sp ref) name) \/
                (r_msgp A = true /\ exists p, f = p +:+ "_msgp.go" \/ f = p +:+ "_msgp_test.go")) -> content d1 (POut f) = content d (POut f)) /\
  (forall f, ~ (r_graphql A = true /\ gql_name sp f) -> content d1 (PGql f) = content d (PGql f)) /\
  (forall p f, ~ (r_avro A = true /\ exists ref name, members ref name /\ p = avro_dir name) -> content d1 (PAvro p f) = content d (PAvro p f)).
Proof. intros Hdoc Hi H. split_and!; intros; eapply interrupted_frame; eauto. Qed.
Lemma interrupted_again n fuel og og' sp d d1 d' r : r_avro A = false ->
  (r_msgp A = true -> forall a b, (forall f, assocd f a = assocd f b) -> o_msgp a = o_msgp b) ->
  run n fuel og og' sp d = Some (d', r) -> interrupted n fuel og og' sp d d1 ->
  (r_msgp A = true -> forall p, content d1 (POut (p +:+ "_msgp.go")) = content d (POut (p +:+ "_msgp.go")) /\
                                content d1 (POut (p +:+ "_msgp_test.go")) = content d (POut (p +:+ "_msgp_test.go"))) ->
  exists d'', run n fuel og og' sp d1 = Some (d'', r) /\ forall x, content d'' x = content d' x.
Proof.
  intros Ha Hm Hr Hi Hx. eapply interrupted_repeat; eauto. intros Hms [f|f|p f]; [|by intros []..]. intros (p & [->| ->]); by apply Hx.
Qed.
End proofs.

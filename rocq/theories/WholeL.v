(** Proofs about whole runs of the generator. *)
From stdpp Require Import strings list gmap.
From Coq Require Import Ascii Lia.
From Verif Require Import GoStr GoStrL Val Conv Schema Inst Load FlatL SpecPath SpecWalk SpecLoad SpecGen SpecNamed SpecFiles WalkL Gen GenL GenP GenT Files FilesL.
From Verif Require Import DescL Gql Avro GoSrc Mapper SpecAvro SpecGo SpecEmbed SpecWhole SortL NamedL GoSrcQ GoSrcC EmbedL AvroFuel Whole.
From Verif Require NamedU.
Set Default Proof Using "Type".

Section proofs.
Context (W : oracles) (F : files) (o_abs : string -> string) (o_fmt : string -> option string).
Context (o_quote o_trim o_quote_avro : string -> string) (o_unquote : string -> option string) (o_tag : afield -> string).
Context (o_types : string -> string) (o_gogen : string -> string -> option dir) (o_declared : dir -> string -> option texpr).
Context (o_join : list string -> string) (o_msgp : dir -> option (option (string * string * string))).
Context (A : run_args) (pkg : string).
Context (ord : nat -> string -> list string -> list string) (ord' : nat -> list string -> list string -> list string).
Notation GA := (r_gql A).
Notation SA := (ga (r_gql A)).
Notation title := (exported W).
Notation lower := (go_lower W).
Notation run := (run W F o_abs o_fmt o_quote o_trim o_quote_avro o_unquote o_tag o_types o_gogen o_declared o_join o_msgp A pkg ord ord').
Notation build_members := (build_members W F o_abs o_fmt o_quote_avro o_unquote o_tag o_types o_gogen o_declared o_join A pkg ord ord').
Notation build_one := (build_one W F o_abs o_fmt o_quote_avro o_unquote o_tag o_types o_gogen o_declared o_join A pkg ord ord').
Notation build_avro := (build_avro W o_fmt o_quote_avro o_unquote o_tag o_types o_gogen o_declared o_join A pkg).
Notation build_gql := (build_gql W F o_abs o_quote o_trim A pkg).
Notation one_file := (build_struct_file W F o_abs o_fmt SA pkg ord ord').
Notation members_of := (members_of W o_abs A).
Notation viewed := (viewed o_types).
Notation lift d := (fun x : dir * res unit => (Disk x.1 (d_gql d) (d_avro d), x.2)).

(** ** without options *)
Lemma members_plain n fuel sp ms : r_avro A = false -> forall i d,
  build_members n fuel i sp ms d = lift d <$> build_each W F o_abs o_fmt SA pkg ord ord' n i sp ms (d_out d).
Proof.
  intros Ha. induction ms as [|[[child name] embeds] ms IH]; intros i d; [by destruct d|]. cbn [Whole.build_members build_each]. unfold Whole.build_one.
  destruct (one_file n i sp child name embeds (d_out d)) as [[fs [[]| |]]|]; [|done..]. rewrite Ha. rewrite IH. cbn [d_out d_gql d_avro]. done.
Qed.
Lemma run_plain n fuel og og' sp d : r_graphql A = false -> r_avro A = false -> r_msgp A = false ->
  run n fuel og og' sp d = lift d <$> build_structs W F o_abs o_fmt SA pkg ord ord' n sp (d_out d).
Proof.
  intros Hg Ha Hm. unfold Whole.run, build_structs. destruct (f_file F (o_abs sp)) as [doc|]; [|by destruct d]. destruct (schema_types doc) as [[[alls ones] props]| |]; [|by destruct d..].
  rewrite Hg, Hm. unfold Whole.members_of. rewrite members_plain by done. cbn zeta. destruct (build_each _ _ _ _ _ _ _ _ _ _ _ _ _) as [[fs [[]| |]]|]; done.
Qed.

(** ** only some files change *)
Definition same_but {X} (names : string -> Prop) (a b : list (string * X)) : Prop := forall f, ~ names f -> assocd f a = assocd f b.
Lemma same_refl {X} names (a : list (string * X)) : same_but names a a.
Proof. by intros f. Qed.
Lemma same_trans {X} (names : string -> Prop) (a b c : list (string * X)) : same_but names a b -> same_but names b c -> same_but names a c.
Proof. intros H1 H2 f Hf. rewrite H1 by done. by apply H2. Qed.
Lemma same_put {X} (names : string -> Prop) k v (a b : list (string * X)) : names k -> same_but names a b -> same_but names (put k v a) b.
Proof. intros Hk H f Hf. rewrite assocd_put, decide_False; [by apply H|]. by intros ->. Qed.
Lemma same_weaken {X} (P Q : string -> Prop) (a b : list (string * X)) : (forall f, P f -> Q f) -> same_but P a b -> same_but Q a b.
Proof. intros HPQ H f Hf. apply H. intros HP. by apply Hf, HPQ. Qed.
Definition frame (go gql avro : string -> Prop) (d d' : disk) : Prop :=
  same_but go (d_out d') (d_out d) /\ same_but gql (d_gql d') (d_gql d) /\ same_but avro (d_avro d') (d_avro d).
Lemma frame_refl P Q R d : frame P Q R d d.
Proof. by split_and!. Qed.
Lemma frame_trans (P Q R : string -> Prop) d1 d2 d3 : frame P Q R d1 d2 -> frame P Q R d2 d3 -> frame P Q R d1 d3.
Proof. intros (H1 & H2 & H3) (K1 & K2 & K3). split_and!; by eapply same_trans. Qed.
Lemma frame_weaken (P Q R P' Q' R' : string -> Prop) d d' : (forall f, P f -> P' f) -> (forall f, Q f -> Q' f) -> (forall f, R f -> R' f) -> frame P Q R d d' -> frame P' Q' R' d d'.
Proof. intros H1 H2 H3 (K1 & K2 & K3). split_and!; by eapply same_weaken. Qed.
Lemma frame_out (P Q R : string -> Prop) f t d d' : P f -> frame P Q R d d' -> frame P Q R d (out_put f t d').
Proof. intros Hf (H1 & H2 & H3). split_and!; [by apply same_put|done..]. Qed.
Lemma frame_gql (P Q R : string -> Prop) f t d d' : Q f -> frame P Q R d d' -> frame P Q R d (gql_put f t d').
Proof. intros Hf (H1 & H2 & H3). split_and!; [done|by apply same_put|done]. Qed.
Lemma frame_avro (P Q R : string -> Prop) p fs d d' : R p -> frame P Q R d d' -> frame P Q R d (avro_put p fs d').
Proof. intros Hf (H1 & H2 & H3). split_and!; [done|done|by apply same_put]. Qed.
Notation none := (fun _ : string => False).
Notation avro_dir name := (sub_name (low title lower name +:+ ".avsc")).

Lemma one_file_frame n i sp child name embeds fs fs' r : one_file n i sp child name embeds fs = Some (fs', r) ->
  same_but (fun f => f = sub_name (child_path F o_abs sp child) +:+ ".go") fs' fs.
Proof.
  unfold build_struct_file. destruct (load_schema _ _ _ _ _) as [[schema| |]|]; try done; try (intros [= <- <-]; apply same_refl).
  destruct (new_file _ _ _ _ _ _) as [g| |]; try (intros [= <- <-]; apply same_refl). cbn zeta. destruct (o_fmt _); intros [= <- <-]; apply same_put; done.
Qed.
Lemma avro_frame fuel name file d d' r : build_avro fuel name file d = Some (d', r) ->
  frame (fun f => f ∈ avro_names title lower name) none (fun p => p = avro_dir name) d d'.
Proof.
  unfold Whole.build_avro. cbn zeta. change (go_lower W (title name)) with (low title lower name).
  destruct (avro_schema _ _ _ _ _ _ _) as [[t| |]|]; try done; try (intros [= <- <-]; apply frame_refl).
  set (d1 := out_put _ t d). assert (F1 : frame (fun f => f ∈ avro_names title lower name) none (fun p => p = avro_dir name) d d1) by (apply frame_out; [left|apply frame_refl]).
  destruct (o_gogen _ _) as [fs|]; [|by intros [= <- <-]]. set (d2 := avro_put _ fs d1).
  assert (F2 : frame (fun f => f ∈ avro_names title lower name) none (fun p => p = avro_dir name) d d2) by (by apply frame_avro).
  destruct (helper_values _ _ _ _ _ _ _ _ _ _ _ _) as [[vals|]|]; try done; [|by intros [= <- <-]].
  destruct (o_fmt (fill vals Template.avro_template)) as [h|]; [|by intros [= <- <-]].
  destruct (o_fmt (fill vals Template.avro_test_template)) as [h'|]; intros [= <- <-].
  - apply frame_out; [right; right; left|]. apply frame_out; [right; left|done].
  - apply frame_out; [right; left|done].
Qed.
Lemma one_frame n fuel i sp child name embeds d d' r : build_one n fuel i sp child name embeds d = Some (d', r) ->
  frame (fun f => f ∈ names_for title lower (r_avro A) (child_path F o_abs sp child) name) none (fun p => r_avro A = true /\ p = avro_dir name) d d'.
Proof.
  unfold Whole.build_one. destruct (one_file n i sp child name embeds (d_out d)) as [[fs r0]|] eqn:E; [|done]. apply one_file_frame in E. cbn zeta.
  assert (F1 : frame (fun f => f ∈ names_for title lower (r_avro A) (child_path F o_abs sp child) name) none (fun p => r_avro A = true /\ p = avro_dir name) d (Disk fs (d_gql d) (d_avro d))).
  { split_and!; [|apply same_refl..]. eapply same_weaken; [|exact E]. intros f ->. left. }
  destruct r0 as [[]| |]; [|by intros [= <- <-]..]. destruct (r_avro A) eqn:Ha; [|by intros [= <- <-]].
  intros H%avro_frame. eapply frame_trans; [exact F1|]. eapply frame_weaken; [..|exact H]; [intros f Hf; by right|done|done].
Qed.
Lemma members_frame n fuel sp ms : forall i d d' r, build_members n fuel i sp ms d = Some (d', r) ->
  frame (fun f => exists m, m ∈ ms /\ f ∈ names_for title lower (r_avro A) (child_path F o_abs sp m.1.1) m.1.2) none
    (fun p => exists m, m ∈ ms /\ r_avro A = true /\ p = avro_dir m.1.2) d d'.
Proof.
  induction ms as [|[[child name] embeds] ms IH]; intros i d d' r; cbn [Whole.build_members]; [intros [= <- <-]; apply frame_refl|].
  destruct (build_one n fuel i sp child name embeds d) as [[d1 r1]|] eqn:E; [|done]. apply one_frame in E.
  assert (F1 : frame (fun f => exists m, m ∈ (child, name, embeds) :: ms /\ f ∈ names_for title lower (r_avro A) (child_path F o_abs sp m.1.1) m.1.2) none
    (fun p => exists m, m ∈ (child, name, embeds) :: ms /\ r_avro A = true /\ p = avro_dir m.1.2) d d1).
  { eapply frame_weaken; [..|exact E]; [|done|].
    - intros f Hf. exists (child, name, embeds). split; [left|done].
    - intros p [H1 H2]. exists (child, name, embeds). split; [left|done]. }
  destruct r1 as [[]| |]; [|by intros [= <- <-]..]. intros H%IH. eapply frame_trans; [exact F1|]. eapply frame_weaken; [..|exact H]; [|done|].
  - intros f (m & Hm & Hf). exists m. split; [by right|done].
  - intros p (m & Hm & Hf). exists m. split; [by right|done].
Qed.
(** ** where it stops *)
Lemma members_stop n fuel sp ms : forall i d d' r, build_members n fuel i sp ms d = Some (d', r) -> r <> Ok tt ->
  exists ms1 m ms2 d1, ms = ms1 ++ m :: ms2 /\ build_members n fuel i sp ms1 d = Some (d1, Ok tt) /\
    build_one n fuel (i + length ms1) sp m.1.1 m.1.2 m.2 d1 = Some (d', r).
Proof.
  induction ms as [|[[child name] embeds] ms IH]; intros i d d' r; cbn [Whole.build_members]; [by intros [= <- <-]|].
  intros H Hr. destruct (build_one n fuel i sp child name embeds d) as [[d1 [[]| |]]|] eqn:E; try done.
  - destruct (IH _ _ _ _ H Hr) as (ms1 & m & ms2 & d2 & -> & H1 & H2). exists ((child, name, embeds) :: ms1), m, ms2, d2. split_and!; [done|cbn [Whole.build_members]; by rewrite E|].
    cbn [length]. by replace (i + S (length ms1)) with (S i + length ms1) by lia.
  - injection H as <- <-. exists [], (child, name, embeds), ms, d. split_and!; [done|done|]. cbn [length fst snd]. by replace (i + 0) with i by lia.
  - injection H as <- <-. exists [], (child, name, embeds), ms, d. split_and!; [done|done|]. cbn [length fst snd]. by replace (i + 0) with i by lia.
Qed.

(** ** GraphQL *)
Notation gql_impls := (gql_impls W o_quote o_trim A).
Notation q_impls := (q_impls W o_quote o_trim GA).
Definition puts_gql (fs : dir) (d : disk) : disk := fold_left (fun d ft => gql_put ft.1 ft.2 d) fs d.
Lemma impls_files o o' name all : ga_files GA = true -> forall ms common impls main d, q_impls o o' name all common ms = Ok impls ->
  gql_impls o o' name all common ms main d = (puts_gql (map (fun nt => (impl_file name nt.1, q_header +:+ nt.2)) impls) d, Ok main).
Proof.
  intros Hf. induction ms as [|m ms IH]; intros common impls main d; cbn [Gql.q_impls Whole.gql_impls]; [by intros [= <-]|].
  destruct (q_new W GA o m (from_name m) all) as [g| |]; try done. cbn [rbind].
  destruct (if a_embed SA then _ else _) as [more| |]; try done. cbn [rbind].
  destruct (q_impls o o' name all (common ++ more) ms) as [rest| |] eqn:E; try done. cbn [rbind]. intros [= <-].
  rewrite Hf. by rewrite (IH _ _ _ _ E).
Qed.
Lemma impls_main o o' name all : ga_files GA = false -> forall ms common impls main d, q_impls o o' name all common ms = Ok impls ->
  assocd (name +:+ ".graphqls") (d_gql d) = Some main ->
  exists d', gql_impls o o' name all common ms main d = (d', Ok (main +:+ join "" impls.*2)) /\ assocd (name +:+ ".graphqls") (d_gql d') = Some (main +:+ join "" impls.*2) /\
    frame none (fun f => f = name +:+ ".graphqls") none d d'.
Proof.
  intros Hf. induction ms as [|m ms IH]; intros common impls main d; cbn [Gql.q_impls Whole.gql_impls].
  { intros [= <-] Hm. exists d. cbn. rewrite sapp_nil_r. split_and!; [done|done|apply frame_refl..]. }
  destruct (q_new W GA o m (from_name m) all) as [g| |]; try done. cbn [rbind].
  destruct (if a_embed SA then _ else _) as [more| |]; try done. cbn [rbind].
  destruct (q_impls o o' name all (common ++ more) ms) as [rest| |] eqn:E; try done. cbn [rbind]. intros [= <-] Hm.
  rewrite Hf. set (t := q_text _ _ _ _ _ _). set (d1 := gql_put _ _ d). destruct (IH (common ++ more) rest (main +:+ t) d1 E) as (d' & H1 & H2 & H3).
  { cbn. by rewrite assocd_put, decide_True. }
  exists d'. cbn [fmap list_fmap fst snd]. rewrite join_cons_nil, app_assoc_s. split_and!; [done|done|]. eapply frame_trans; [|exact H3]. apply frame_gql; [done|apply frame_refl].
Qed.
Lemma impls_bad o o' name all : forall ms common main d, (forall x, q_impls o o' name all common ms <> Ok x) ->
  exists d' r, gql_impls o o' name all common ms main d = (d', r) /\ (forall x, r <> Ok x).
Proof.
  induction ms as [|m ms IH]; intros common main d; cbn [Gql.q_impls Whole.gql_impls]; [intros H; by destruct (H [])|].
  destruct (q_new W GA o m (from_name m) all) as [g| |]; [|intros _; eexists _, _; split; [done|done]..]. cbn [rbind].
  destruct (if a_embed SA then _ else _) as [more| |]; [|intros _; eexists _, _; split; [done|done]..]. cbn [rbind].
  intros H. destruct (ga_files GA); apply IH; intros x E; rewrite E in H; by eapply H.
Qed.

Notation q_build := (q_build W o_quote o_trim GA).
Lemma puts_frame fs d : frame none (fun f => f ∈ fs.*1) none d (puts_gql fs d).
Proof.
  revert d. induction fs as [|[f t] fs IH]; intros d; [apply frame_refl|]. cbn [puts_gql fold_left fst snd]. eapply frame_trans; [|eapply frame_weaken; [..|apply IH]]; [|done| |done].
  - apply frame_gql; [left|apply frame_refl].
  - intros x Hx. by right.
Qed.
Lemma puts_there fs : NoDup fs.*1 -> forall d f t, (f, t) ∈ fs -> assocd f (d_gql (puts_gql fs d)) = Some t.
Proof.
  induction fs as [|[g u] fs IH]; cbn [fmap list_fmap fst]; intros Hnd d f t Hin; [by apply elem_of_nil in Hin|]. apply NoDup_cons in Hnd as [Hg Hnd].
  cbn [puts_gql fold_left fst snd]. apply elem_of_cons in Hin as [[= -> ->]|Hin]; [|by apply IH].
  destruct (puts_frame fs (gql_put g u d)) as (_ & H & _). unfold puts_gql in H. rewrite (H g Hg). cbn. by rewrite assocd_put, decide_True.
Qed.
Lemma gql_ok n o o' sp d schema files (name := sub_name sp) (path := child_path F o_abs sp sp) :
  load_schema F name (negb (a_embed SA)) n path = Some (Ok schema) -> q_build o o' (sub_name path) name pkg schema = Ok files -> NoDup files.*1 ->
  exists d', build_gql n o o' sp d = Some (d', Ok tt) /\ (forall f t, (f, t) ∈ files -> assocd f (d_gql d') = Some t) /\ frame none (fun f => f ∈ files.*1) none d d'.
Proof.
  intros Hl. unfold Gql.q_build, Whole.build_gql. cbn zeta. fold name path. rewrite Hl. unfold Gql.q_interface. fold (q_interface W GA pkg schema).
  set (head := q_header +:+ _). set (main := name +:+ ".graphqls").
  destruct (seqs (map _ (n_allOf schema))) as [common| |]; try done. cbn [rbind].
  set (all := match n_allOf schema with [] => false | _ => true end). set (first := if all then _ else _). set (d1 := gql_put main head d). set (d2 := gql_put main (head +:+ first) d1).
  destruct (q_impls o o' name all common (n_oneOf schema)) as [impls| |] eqn:Ei; try done. cbn [rbind].
  assert (Hm : assocd main (d_gql d2) = Some (head +:+ first)) by (cbn; by rewrite assocd_put, decide_True).
  assert (F2 : frame none (fun f => f = main) none d d2) by (apply frame_gql; [done|]; apply frame_gql; [done|apply frame_refl]).
  destruct (match n_allOf schema, n_oneOf schema with [], [] => _ | _, _ => _ end) as [own| |] eqn:Eo; try done. cbn [rbind].
  set (res_own := match n_allOf schema, n_oneOf schema with [], [] => true | _, _ => false end).
  assert (Hown : (n_allOf schema = [] /\ n_oneOf schema = [] /\ impls = [] /\ exists g, q_new W GA o schema (sub_name path) false = Ok g /\ own = q_text W o_quote o_trim GA o' g) \/
    ((n_allOf schema <> [] \/ n_oneOf schema <> []) /\ own = "")).
  { destruct (n_allOf schema) as [|x l]; [|right; split; [by left|]; by injection Eo]. destruct (n_oneOf schema) as [|y l']; [|right; split; [by right|]; by injection Eo].
    left. cbn in Ei. injection Ei as <-. split_and!; try done. destruct (q_new W GA o schema (sub_name path) false) as [g| |]; try done. exists g. split; [done|]. by injection Eo. }
  intros [= <-]. destruct (ga_files GA) eqn:Hf.
  - rewrite (impls_files o o' name all Hf _ _ _ _ _ Ei). cbn [fmap list_fmap fst]. intros Hnd.
    destruct Hown as [(Ha & Ho & -> & g & Hg & ->)|[Hne ->]].
    + rewrite Ha, Ho, Hg. eexists. split; [done|]. cbn [puts_gql map fold_left]. split.
      * intros f t. rewrite elem_of_list_singleton. intros [= -> ->]. cbn. rewrite assocd_put, decide_True by done. by rewrite app_assoc_s.
      * apply frame_gql; [left|]. eapply frame_weaken; [..|exact F2]; [done| |done]. intros f ->. left.
    + set (L := map _ impls) in *. exists (puts_gql L d2). split.
      { destruct (n_allOf schema) as [|x l]; [|done]. destruct (n_oneOf schema) as [|y l']; [|done]. by destruct Hne. }
      apply NoDup_cons in Hnd as [Hnm Hnd]. rewrite sapp_nil_r. split.
      * intros f t [[= -> ->]|Hin]%elem_of_cons; [|by apply puts_there]. destruct (puts_frame L d2) as (_ & H & _). by rewrite (H main Hnm).
      * eapply frame_trans; [eapply frame_weaken; [..|exact F2]|eapply frame_weaken; [..|apply puts_frame]]; try done; [intros f ->; left|intros f Hin; by right].
  - destruct (impls_main o o' name all Hf _ _ _ _ _ Ei Hm) as (d3 & H1 & H2 & H3). rewrite H1. intros _.
    assert (F3 : frame none (fun f => f = main) none d d3) by (by eapply frame_trans).
    destruct Hown as [(Ha & Ho & -> & g & Hg & ->)|[Hne ->]].
    + rewrite Ha, Ho, Hg. eexists. split; [done|]. split.
      * intros f t. rewrite elem_of_list_singleton. intros [= -> ->]. cbn. rewrite assocd_put, decide_True by done. by rewrite sapp_nil_r, app_assoc_s.
      * apply frame_gql; [left|]. eapply frame_weaken; [..|exact F3]; [done| |done]. intros f ->. left.
    + exists d3. split.
      { destruct (n_allOf schema) as [|x l]; [|done]. destruct (n_oneOf schema) as [|y l']; [|done]. by destruct Hne. }
      rewrite sapp_nil_r, app_assoc_s. split.
      * intros f t. rewrite elem_of_list_singleton. by intros [= -> ->].
      * eapply frame_weaken; [..|exact F3]; [done| |done]. intros f ->. left.
Qed.
Lemma gql_bad n o o' sp d schema (name := sub_name sp) (path := child_path F o_abs sp sp) :
  load_schema F name (negb (a_embed SA)) n path = Some (Ok schema) -> (forall files, q_build o o' (sub_name path) name pkg schema <> Ok files) ->
  exists d' r, build_gql n o o' sp d = Some (d', r) /\ r <> Ok tt.
Proof.
  intros Hl. unfold Gql.q_build, Whole.build_gql. cbn zeta. fold name path. rewrite Hl.
  set (head := q_header +:+ _). set (main := name +:+ ".graphqls").
  destruct (seqs (map _ (n_allOf schema))) as [common| |]; [|by eexists _, _..]. cbn [rbind].
  set (all := match n_allOf schema with [] => false | _ => true end). set (first := if all then _ else _). set (d1 := gql_put main head d). set (d2 := gql_put main (head +:+ first) d1).
  destruct (q_impls o o' name all common (n_oneOf schema)) as [impls| |] eqn:Ei.
  2,3: intros _; destruct (impls_bad o o' name all (n_oneOf schema) common (head +:+ first) d2) as (d' & r & H & Hr); [intros x E; by rewrite E in Ei|]; rewrite H; destruct r as [x| |]; [by destruct (Hr x)|by eexists _, _..].
  cbn [rbind]. intros Hq. destruct (gql_impls o o' name all common (n_oneOf schema) (head +:+ first) d2) as [d3 [t| |]]; [|by eexists _, _..].
  destruct (n_allOf schema) as [|x l]; [|by edestruct Hq]. destruct (n_oneOf schema) as [|y l']; [|by edestruct Hq].
  destruct (q_new W GA o schema (sub_name path) false) as [g| |]; [by edestruct Hq|by eexists _, _..].
Qed.
Lemma impl_named name one : exists rest, impl_file name one = name +:+ rest +:+ ".graphqls".
Proof.
  unfold impl_file. destruct (has_prefix name one) eqn:E.
  - apply has_prefix_spec in E as [t ->]. exists t. by rewrite app_assoc_s.
  - exists ("_" +:+ one). by rewrite !app_assoc_s.
Qed.
Lemma impls_frame o o' sp all : forall ms common main d d' r, gql_impls o o' (sub_name sp) all common ms main d = (d', r) -> frame none (gql_name sp) none d d'.
Proof.
  induction ms as [|m ms IH]; intros common main d d' r; cbn [Whole.gql_impls]; [intros [= <- <-]; apply frame_refl|].
  destruct (q_new W GA o m (from_name m) all) as [g| |]; [|intros [= <- <-]; apply frame_refl..].
  destruct (if a_embed SA then _ else _) as [more| |]; [|intros [= <- <-]; apply frame_refl..].
  destruct (ga_files GA); intros H%IH; (eapply frame_trans; [|exact H]); apply frame_gql; try apply frame_refl; [apply impl_named|]. by exists "".
Qed.
Lemma gql_frame n o o' sp d d' r : build_gql n o o' sp d = Some (d', r) -> frame none (gql_name sp) none d d'.
Proof.
  unfold Whole.build_gql. cbn zeta. set (head := q_header +:+ _). set (main := _ +:+ ".graphqls"). set (d1 := gql_put main head d).
  assert (Hm : gql_name sp main) by (by exists "").
  assert (F1 : frame none (gql_name sp) none d d1) by (apply frame_gql; [done|apply frame_refl]).
  destruct (load_schema _ _ _ _ _) as [[schema| |]|]; try done; try (by intros [= <- <-]).
  destruct (seqs _) as [common| |]; try (by intros [= <- <-]). set (all := match n_allOf schema with [] => false | _ => true end). set (first := if all then _ else _). set (d2 := gql_put main _ d1).
  assert (F2 : frame none (gql_name sp) none d d2) by (by apply frame_gql).
  destruct (gql_impls o o' _ all common (n_oneOf schema) _ d2) as [d3 r3] eqn:E. apply impls_frame in E.
  assert (F3 : frame none (gql_name sp) none d d3) by (by eapply frame_trans).
  destruct r3 as [t| |]; try (by intros [= <- <-]). destruct (n_allOf schema); [|by intros [= <- <-]]. destruct (n_oneOf schema); [|by intros [= <- <-]].
  destruct (q_new _ _ _ _ _ _); intros [= <- <-]; try done. by apply frame_gql.
Qed.

(** ** the whole run *)
Lemma members_are sp i m : m ∈ members_of sp (map n_ref (n_allOf i)) (map n_ref (n_oneOf i)) (sort_strings (default [] (n_props i)).*1) ->
  member title (a_structNames SA) i (o_abs sp) m.1.1 m.1.2.
Proof.
  unfold Whole.members_of. cbn zeta. pose proof (own_iff i) as Ho. intros [H|H]%elem_of_app; apply elem_of_list_fmap in H as (p & -> & Hp); cbn [fst snd].
  - apply elem_of_app in Hp as [Hp|Hp]; [by apply member_all|]. destruct (match _ with [] => _ | _ => _ end); [|by apply elem_of_nil in Hp].
    apply elem_of_list_singleton in Hp as ->. apply member_own; [by apply Ho|done].
  - by apply member_one.
Qed.
Lemma run_frame n fuel og og' sp doc i d d' r : f_file F (o_abs sp) = Some doc -> d_inst false doc = Ok i -> run n fuel og og' sp d = Some (d', r) ->
  frame (fun f => (exists ref name, member title (a_structNames SA) i (o_abs sp) ref name /\ f ∈ names_for title lower (r_avro A) (child_path F o_abs sp ref) name) \/
                  (r_msgp A = true /\ exists p, f = p +:+ "_msgp.go" \/ f = p +:+ "_msgp_test.go"))
    (fun f => r_graphql A = true /\ gql_name sp f)
    (fun p => r_avro A = true /\ exists ref name, member title (a_structNames SA) i (o_abs sp) ref name /\ p = avro_dir name) d d'.
Proof.
  intros Hdoc Hi. unfold Whole.run. rewrite Hdoc, (types_own _ _ Hi). set (ms := members_of _ _ _ _).
  destruct (if r_graphql A then _ else _) as [[dg rg]|] eqn:Eg; [|done].
  match goal with |- _ -> frame ?P ?Q ?R _ _ => assert (F1 : frame P Q R d dg) end.
  { destruct (r_graphql A) eqn:Hg; [|injection Eg as <- <-; apply frame_refl]. apply gql_frame in Eg. eapply frame_weaken; [..|exact Eg]; [done| |done]. done. }
  destruct rg as [[]| |]; [|by intros [= <- <-]..].
  destruct (build_members n fuel 0 sp ms dg) as [[dm rm]|] eqn:Em; [|done]. apply members_frame in Em.
  match goal with |- _ -> frame ?P ?Q ?R _ _ => assert (F2 : frame P Q R d dm) end.
  { eapply frame_trans; [exact F1|]. eapply frame_weaken; [..|exact Em]; [|done|].
    - intros f (m & Hm & Hf). left. exists m.1.1, m.1.2. split; [by apply members_are|done].
    - intros p (m & Hm & Ha & Hf). split; [done|]. exists m.1.1, m.1.2. split; [by apply members_are|done]. }
  destruct rm as [[]| |]; [|by intros [= <- <-]..]. destruct (r_msgp A) eqn:Hm; [|by intros [= <- <-]].
  unfold build_msgp. destruct (o_msgp (d_out dm)) as [[[[p t] t']|]|]; intros [= <- <-]; try done.
  apply frame_out; [right; split; [done|]; exists p; by right|]. apply frame_out; [right; split; [done|]; exists p; by left|]. done.
Qed.
Lemma run_stops n fuel og og' sp doc i d d' r (ms := members_of sp (map n_ref (n_allOf i)) (map n_ref (n_oneOf i)) (sort_strings (default [] (n_props i)).*1)) :
  f_file F (o_abs sp) = Some doc -> d_inst false doc = Ok i -> run n fuel og og' sp d = Some (d', r) -> r <> Ok tt ->
  (r_graphql A = true /\ frame none (gql_name sp) none d d') \/
  exists dg, (if r_graphql A then build_gql n og og' sp d else Some (d, Ok tt)) = Some (dg, Ok tt) /\
   ((exists ms1 m ms2 d1, ms = ms1 ++ m :: ms2 /\ build_members n fuel 0 sp ms1 dg = Some (d1, Ok tt) /\
      frame (fun f => f ∈ names_for title lower (r_avro A) (child_path F o_abs sp m.1.1) m.1.2) none (fun p => r_avro A = true /\ p = avro_dir m.1.2) d1 d') \/
    (r_msgp A = true /\ build_members n fuel 0 sp ms dg = Some (d', Ok tt))).
Proof.
  intros Hdoc Hi. unfold Whole.run. rewrite Hdoc, (types_own _ _ Hi). fold ms.
  destruct (if r_graphql A then _ else _) as [[dg rg]|] eqn:Eg; [|done]. intros H Hr. destruct rg as [[]| |].
  - right. exists dg. split; [done|]. destruct (build_members n fuel 0 sp ms dg) as [[dm rm]|] eqn:Em; [|done]. destruct rm as [[]| |].
    + right. destruct (r_msgp A) eqn:Hm; [|by injection H as <- <-]. split; [done|]. unfold build_msgp in H.
      destruct (o_msgp (d_out dm)) as [[[[p t] t']|]|]; injection H as <- <-; done.
    + injection H as <- <-. left. destruct (members_stop _ _ _ _ _ _ _ _ Em) as (ms1 & m & ms2 & d1 & E1 & E2 & E3); [done|]. exists ms1, m, ms2, d1. split_and!; [done|done|]. by apply one_frame in E3.
    + injection H as <- <-. left. destruct (members_stop _ _ _ _ _ _ _ _ Em) as (ms1 & m & ms2 & d1 & E1 & E2 & E3); [done|]. exists ms1, m, ms2, d1. split_and!; [done|done|]. by apply one_frame in E3.
  - injection H as <- <-. left. destruct (r_graphql A); [|done]. split; [done|]. by eapply gql_frame.
  - injection H as <- <-. left. destruct (r_graphql A); [|done]. split; [done|]. by eapply gql_frame.
Qed.
Lemma run_gql n fuel og og' sp doc i d d' r schema files (name := sub_name sp) (path := child_path F o_abs sp sp) :
  f_file F (o_abs sp) = Some doc -> d_inst false doc = Ok i -> r_graphql A = true -> run n fuel og og' sp d = Some (d', r) ->
  load_schema F name (negb (a_embed SA)) n path = Some (Ok schema) -> q_build og og' (sub_name path) name pkg schema = Ok files -> NoDup files.*1 ->
  (forall f t, (f, t) ∈ files -> assocd f (d_gql d') = Some t) /\ (forall f, f ∉ files.*1 -> assocd f (d_gql d') = assocd f (d_gql d)).
Proof.
  intros Hdoc Hi Hg. unfold Whole.run. rewrite Hdoc, (types_own _ _ Hi), Hg. set (ms := members_of _ _ _ _). intros H Hl Hq Hnd.
  destruct (gql_ok n og og' sp d schema files Hl Hq Hnd) as (dg & Eg & Hf & _ & H2 & _). rewrite Eg in H.
  destruct (build_members n fuel 0 sp ms dg) as [[dm rm]|] eqn:Em; [|done]. apply members_frame in Em as (_ & Em & _).
  assert (E : d_gql d' = d_gql dm).
  { destruct rm as [[]| |]; [|by injection H as <- <-..]. destruct (r_msgp A); [|by injection H as <- <-]. unfold build_msgp in H.
    destruct (o_msgp (d_out dm)) as [[[[p t] t']|]|]; injection H as <- <-; done. }
  rewrite E. split.
  - intros f t Hin. rewrite (Em f) by tauto. by apply Hf.
  - intros f Hin. rewrite (Em f) by tauto. by apply H2.
Qed.
Lemma run_gql_bad n fuel og og' sp doc i d schema (name := sub_name sp) (path := child_path F o_abs sp sp) :
  f_file F (o_abs sp) = Some doc -> d_inst false doc = Ok i -> r_graphql A = true ->
  load_schema F name (negb (a_embed SA)) n path = Some (Ok schema) -> (forall files, q_build og og' (sub_name path) name pkg schema <> Ok files) ->
  exists d' r, run n fuel og og' sp d = Some (d', r) /\ r <> Ok tt /\ (forall f, assocd f (d_out d') = assocd f (d_out d)).
Proof.
  intros Hdoc Hi Hg Hl Hq. unfold Whole.run. rewrite Hdoc, (types_own _ _ Hi), Hg.
  destruct (gql_bad n og og' sp d schema Hl Hq) as (d' & r & E & Hr). rewrite E. destruct (gql_frame _ _ _ _ _ _ _ E) as (Ho & _).
  destruct r as [[]| |]; [done|eexists _, _; split_and!; [done|done|intros f; apply (Ho f); tauto]..].
Qed.

Lemma run_fails n fuel og og' sp doc i d d' r (ms := members_of sp (map n_ref (n_allOf i)) (map n_ref (n_oneOf i)) (sort_strings (default [] (n_props i)).*1)) :
  f_file F (o_abs sp) = Some doc -> d_inst false doc = Ok i -> run n fuel og og' sp d = Some (d', r) -> r <> Ok tt ->
  (r_graphql A = true /\ (forall f, assocd f (d_out d') = assocd f (d_out d)) /\ (forall p, assocd p (d_avro d') = assocd p (d_avro d))) \/
  exists dg, (r_graphql A = false /\ dg = d \/ r_graphql A = true /\ build_gql n og og' sp d = Some (dg, Ok tt)) /\
   ((exists ms1 m ms2 d1, ms = ms1 ++ m :: ms2 /\ build_members n fuel 0 sp ms1 dg = Some (d1, Ok tt) /\
      (forall f, f ∉ names_for title lower (r_avro A) (child_path F o_abs sp m.1.1) m.1.2 -> assocd f (d_out d') = assocd f (d_out d1)) /\
      (forall f, assocd f (d_gql d') = assocd f (d_gql d1)) /\
      (forall p, ~ (r_avro A = true /\ p = avro_dir m.1.2) -> assocd p (d_avro d') = assocd p (d_avro d1))) \/
    (r_msgp A = true /\ build_members n fuel 0 sp ms dg = Some (d', Ok tt))).
Proof.
  intros Hdoc Hi Hr Hn. destruct (run_stops _ _ _ _ _ _ _ _ _ _ Hdoc Hi Hr Hn) as [[Hg (F1 & _ & F3)]|(dg & Hg & H)].
  - left. split_and!; [done|intros f; apply F1; tauto|intros p; apply F3; tauto].
  - right. exists dg. split; [destruct (r_graphql A); [by right|left; by injection Hg as <-]|]. destruct H as [(ms1 & m & ms2 & d1 & E1 & E2 & F1 & F2 & F3)|H]; [left|by right].
    exists ms1, m, ms2, d1. split_and!; [done|done|done|intros f; apply F2; tauto|done].
Qed.
Lemma run_no_schema n fuel og og' sp d : (forall doc i, f_file F (o_abs sp) = Some doc -> d_inst false doc <> Ok i) ->
  exists r, run n fuel og og' sp d = Some (d, r) /\ r <> Ok tt.
Proof.
  intros H. unfold Whole.run. destruct (f_file F (o_abs sp)) as [doc|]; [|by eexists]. specialize (H doc). unfold schema_types.
  destruct (d_inst false doc) as [i| |]; [by destruct (H i)|by eexists..].
Qed.

(** ** Avro schemas *)
Lemma assocd_viewed f fs : assocd f (viewed fs) = o_types <$> assocd f fs.
Proof. induction fs as [|[k t] fs IH]; [done|]. cbn [Whole.viewed map assocd]. cbn [fst snd]. destruct (decide (k = f)); [done|]. exact IH. Qed.
Lemma last_same a b c d : a +:+ String c "" = b +:+ String d "" -> c = d.
Proof.
  revert b. induction a as [|x a IH]; intros [|y b].
  - by intros [= ->].
  - intros E. apply (f_equal String.length) in E. rewrite !app_length_s in E. cbn [String.length] in E. lia.
  - intros E. apply (f_equal String.length) in E. rewrite !app_length_s in E. cbn [String.length] in E. lia.
  - rewrite !sapp_cons. intros [= _ E]. by eapply IH.
Qed.
Lemma go_not_avsc a b : a +:+ ".go" <> b +:+ ".avsc".
Proof.
  change ".go" with (".g" +:+ "o"). change ".avsc" with (".avs" +:+ "c"). rewrite !app_assoc_s. intros E%last_same. done.
Qed.
Lemma avsc_only a name : a +:+ ".avsc" ∈ avro_names title lower name -> a = low title lower name.
Proof.
  unfold avro_names. intros [E|[E|[E|[]%elem_of_nil]%elem_of_cons]%elem_of_cons]%elem_of_cons.
  - by apply app_inj_r_s in E.
  - change "_avro.go" with ("_avro" +:+ ".go") in E. rewrite app_assoc_s in E. by symmetry in E; apply go_not_avsc in E.
  - change "_avro_test.go" with ("_avro_test" +:+ ".go") in E. rewrite app_assoc_s in E. by symmetry in E; apply go_not_avsc in E.
Qed.
Lemma avsc_names av path a name : a +:+ ".avsc" ∈ names_for title lower av path name -> a = low title lower name.
Proof.
  unfold names_for. intros [E|H]%elem_of_cons; [by symmetry in E; apply go_not_avsc in E|]. destruct av; [by apply avsc_only|by apply elem_of_nil in H].
Qed.
Lemma avro_there fuel name file d d' : build_avro fuel name file d = Some (d', Ok tt) ->
  exists t, avro_schema o_unquote W o_quote_avro fuel (viewed (d_out d)) (title name) file = Some (Ok t) /\ assocd (low title lower name +:+ ".avsc") (d_out d') = Some t.
Proof.
  unfold Whole.build_avro. cbn zeta. change (go_lower W (title name)) with (low title lower name).
  destruct (avro_schema _ _ _ _ _ _ _) as [[t| |]|]; try done. destruct (o_gogen _ _) as [fs|]; [|done].
  destruct (helper_values _ _ _ _ _ _ _ _ _ _ _ _) as [[vals|]|]; try done.
  destruct (o_fmt (fill vals Template.avro_template)) as [h|]; [|done]. destruct (o_fmt (fill vals Template.avro_test_template)) as [h'|]; [|done].
  intros [= <-]. exists t. split; [done|]. cbn [out_put avro_put d_out]. rewrite assocd_put, decide_False.
  2: { change "_avro_test.go" with ("_avro_test" +:+ ".go"). rewrite app_assoc_s. intros E. symmetry in E. by apply go_not_avsc in E. }
  rewrite assocd_put, decide_False. 2: { change "_avro.go" with ("_avro" +:+ ".go"). rewrite app_assoc_s. intros E. symmetry in E. by apply go_not_avsc in E. }
  by rewrite assocd_put, decide_True.
Qed.

Context (Hord : forall i, map_order (ord i)) (Hord' : forall i, key_order (ord' i)).
Context (Hns : a_noNested SA = false) (Ha : r_avro A = true) (Hpk : identifier pkg = true).
Context (Hkeep : forall t t' r, o_fmt t = Some t' -> parse_go t = Some r -> parse_go (o_types t') = Some r).
Context (es_of : wanted -> list string) (ds_of : wanted -> list gdecl) (n : nat).
Notation dt := (a_descTag SA).
Notation formatted := (fun t t' => o_fmt t = Some t').
Notation loads := (fun path ty schema => load_schema F ty (negb (a_embed SA)) n path = Some (Ok schema)).
Notation have_text := (has_text title (a_structNames SA) (a_fieldNames SA) dt (a_noNested SA) (a_pointers SA) (a_embed SA) pkg formatted loads).
Notation made_as := (made_as title (a_structNames SA) (a_fieldNames SA) dt (a_pointers SA) (a_embed SA) es_of ds_of pkg formatted loads).
Notation structs_in := (structs_in title lower dt es_of ds_of).
Notation struct_ok w := (avro_struct_ok dt (title (w_name w)) (es_of w) (ds_of w)).
Lemma ok_parts name es ds : avro_struct_ok dt name es ds = true ->
  identifier name = true /\ ascii_text name = true /\ forallb identifier es = true /\ forallb (writable dt) (by_name ds) = true /\ forallb (avro_ok dt) (by_name ds) = true /\ by_name ds <> [].
Proof.
  unfold avro_struct_ok. rewrite !andb_true_iff, negb_true_iff, bool_decide_eq_false. intros (((((H1 & H2) & H3) & H4) & H5) & H6).
  split_and!; [done..| | |]; try by rewrite (forallb_perm _ _ _ (by_name_perm ds)).
  intros E. assert (H := by_name_perm ds). rewrite E in H. by apply Permutation_nil in H.
Qed.
Lemma made_parsed w : made_as w -> struct_ok w = true ->
  parse_go (o_types (w_text w)) = Some (RFile pkg (imports (existsb uses_time (by_name (ds_of w)))) (src_types dt [(title (w_name w), (es_of w, by_name (ds_of w)))])).
Proof using Hkeep Hpk.
  intros (schema & _ & _ & Hf) (H1 & H2 & H3 & H4 & H5 & H6)%ok_parts. eapply Hkeep; [exact Hf|]. by apply show_file_parsed.
Qed.

Lemma structs_found before e es ds dir : structs_in before e = Some (es, ds) -> (forall w, w ∈ before -> made_as w) ->
  (forall w, w ∈ before -> assocd (w_file w) dir = Some (w_text w)) ->
  declares_struct dt lower (viewed dir) e es ds /\ ascii_text e = true /\ forallb (avro_ok dt) ds = true /\ forallb (writable dt) ds = true.
Proof using Hkeep Hpk.
  unfold SpecWhole.structs_in. destruct (head (filter _ before)) as [w|] eqn:E; [|done]. cbn. intros [= <- <-] Hm Hf.
  assert (Hin : w ∈ filter (fun w => embeddable title lower dt es_of ds_of w = true /\ w_name w = e) before). { destruct (filter _ before); [done|]. injection E as ->. left. }
  apply elem_of_list_filter in Hin as [[He <-] Hin]. unfold embeddable in He. rewrite !andb_true_iff, !bool_decide_eq_true in He. destruct He as (((Ht & Hs) & Hfile) & Hok).
  pose proof (ok_parts _ _ _ Hok) as (H1 & H2 & H3 & H4 & H5 & H6). split_and!; [|done..].
  unfold struct_file in Hfile. destruct (split (w_name w) "") as [|c rest] eqn:Es; [done|].
  eexists c, rest, _, _. split_and!; [done|rewrite assocd_viewed, Hfile, (Hf _ Hin); reflexivity|apply made_parsed; [by apply Hm|by rewrite Ht]|].
  cbn [rf_types]. unfold src_types. cbn [flat_map snd fst]. destruct (by_name (ds_of w)); [done|]. cbn. by rewrite Ht.
Qed.
Definition apart (ws : list wanted) : Prop := forall w w', w ∈ ws -> w' ∈ ws -> w_file w ∉ avro_names title lower (w_name w').
Lemma base_file w w' : w_file w = w_file w' -> w_base w = w_base w'.
Proof. unfold w_file. by intros E%app_inj_r_s. Qed.
Lemma members_avro fuel sp ms ws : Forall2 (fun m w => have_text w /\ w_path w = child_path F o_abs sp m.1.1 /\ sub_name (w_path w) = w_base w /\ m.1.2 = w_name w /\ m.2 = w_embeds w) ms ws ->
  forall before i d d', (forall w, w ∈ before ++ ws -> made_as w) -> (forall w, w ∈ before -> assocd (w_file w) (d_out d) = Some (w_text w)) ->
  NoDup (map w_base (before ++ ws)) -> NoDup (map (fun w => low title lower (w_name w)) (before ++ ws)) -> apart (before ++ ws) ->
  build_members n fuel i sp ms d = Some (d', Ok tt) ->
  (forall w, w ∈ before ++ ws -> assocd (w_file w) (d_out d') = Some (w_text w)) /\
  forall b w a docs seen, ws = b ++ w :: a -> struct_ok w = true -> avro_struct dt (structs_in (before ++ b)) [] [] (es_of w) (by_name (ds_of w)) docs seen -> NoDup seen -> docs <> [] ->
    exists s, assocd (low title lower (w_name w) +:+ ".avsc") (d_out d') = Some s /\ text (record_doc [] (title (w_name w)) (write_time :: deleted :: docs)) s.
Proof using Hord Hord' Hns Ha Hpk Hkeep.
  induction 1 as [|[[child name] embeds] w ms ws (Ht & Hp & Hb & H1 & H2) Hrest IH]; intros before i d d' Hmade Hfiles Hnb Hnl Hap H; cbn [Whole.build_members] in H.
  - injection H as <-. split; [by rewrite app_nil_r|]. intros b w a docs seen E. by destruct b.
  - cbn [fst snd] in *. subst name embeds. destruct (build_one n fuel i sp child (w_name w) (w_embeds w) d) as [[d1 [[]| |]]|] eqn:E; [|done..].
    unfold Whole.build_one in E. rewrite (one_made W F o_abs o_fmt SA pkg ord ord' Hord Hord' n i sp child w (d_out d) Ht Hp Hb) in E. cbn zeta iota in E. rewrite Ha in E.
    rewrite <- Hp, Hb in E. fold (w_file w) in E. set (dA := Disk _ _ _) in E.
    assert (HfA : forall x, x ∈ before ++ [w] -> assocd (w_file x) (d_out dA) = Some (w_text x)).
    { intros x Hx. cbn. rewrite assocd_put. destruct (decide (w_file x = w_file w)) as [Ex|Ex].
      - apply elem_of_app in Hx as [Hx|Hx%elem_of_list_singleton]; [|by subst]. exfalso. apply base_file in Ex. rewrite map_app in Hnb. apply NoDup_app in Hnb as (_ & Hnb & _).
        apply (Hnb (w_base x)); [by apply elem_of_list_fmap_1|]. rewrite Ex. left.
      - apply elem_of_app in Hx as [Hx|Hx%elem_of_list_singleton]; [by apply Hfiles|by subst]. }
    pose proof (avro_frame _ _ _ _ _ _ E) as (F1 & _ & _).
    assert (Hf1 : forall x, x ∈ before ++ [w] -> assocd (w_file x) (d_out d1) = Some (w_text x)).
    { intros x Hx. rewrite (F1 (w_file x)); [by apply HfA|]. apply Hap; [|apply elem_of_app; right; left]. apply elem_of_app in Hx as [Hx|Hx%elem_of_list_singleton]; apply elem_of_app; [by left|right; subst; left]. }
    replace (before ++ w :: ws) with ((before ++ [w]) ++ ws) in * by (by rewrite <- app_assoc).
    destruct (IH (before ++ [w]) (S i) d1 d' Hmade Hf1 Hnb Hnl Hap H) as [IH1 IH2]. split; [done|].
    intros b x a docs seen Eb Hok Hs Hseen Hdocs. destruct b as [|y b].
    2: { injection Eb as -> ->. eapply IH2; [done|done| |done|done]. by rewrite <- app_assoc. }
    injection Eb as <- <-. rewrite app_nil_r in Hs. destruct (avro_there _ _ _ _ _ E) as (t & Hsch & Hthere).
    pose proof (ok_parts _ _ _ Hok) as (K1 & K2 & K3 & K4 & K5 & K6).
    destruct (struct_schema W o_quote_avro o_unquote dt (structs_in before) (viewed (d_out dA))) with (K0 := title (w_name w)) (file := w_file w) (es := es_of w) (ds := by_name (ds_of w)) (docs := docs) (seen := seen) as (s & m & Hts & Hm); try done.
    { intros e es ds He. apply (structs_found before e es ds (d_out dA) He).
      - intros x Hx. apply Hmade. apply elem_of_app. left. apply elem_of_app. by left.
      - intros x Hx. apply HfA. apply elem_of_app. by left. }
    { unfold struct_in_file. rewrite assocd_viewed, (HfA w) by (apply elem_of_app; right; left). cbn [fmap option_fmap option_map].
      rewrite made_parsed; [|apply Hmade; apply elem_of_app; left; apply elem_of_app; right; left|done]. unfold filter_decls. cbn [rf_types]. by rewrite find_first. }
    assert (s = t) as -> by (eapply schema_fuel; [exact (Hm m (Nat.le_refl m))|exact Hsch]). exists t. split; [|done].
    pose proof (members_frame _ _ _ _ _ _ _ _ H) as (F2 & _ & _). rewrite F2; [done|]. intros (m0 & Hm0 & Hin). apply avsc_names in Hin.
    rewrite map_app in Hnl. apply NoDup_app in Hnl as (_ & Hnl & _). apply (Hnl (low title lower (w_name w))).
    + rewrite map_app. apply elem_of_app. right. left.
    + rewrite Hin. apply elem_of_list_lookup in Hm0 as [k Hk]. destruct (Forall2_lookup_l _ _ _ _ _ Hrest Hk) as (w0 & Hw0 & _ & _ & _ & -> & _). apply elem_of_list_fmap. exists w0. split; [done|]. by eapply elem_of_list_lookup_2.
Qed.
Lemma run_avro fuel og og' sp doc i ws d d' : f_file F (o_abs sp) = Some doc -> d_inst false doc = Ok i ->
  files_of title (a_structNames SA) (a_fieldNames SA) dt (a_noNested SA) (a_pointers SA) (a_embed SA) pkg (child_path F o_abs sp) formatted loads i (o_abs sp) ws ->
  (forall w, w ∈ ws -> made_as w) ->
  NoDup (map w_base ws) -> NoDup (map (fun w => low title lower (w_name w)) ws) -> apart ws ->
  run n fuel og og' sp d = Some (d', Ok tt) ->
  (forall w, w ∈ ws -> (r_msgp A = true -> forall p, w_base w <> p +:+ "_msgp" /\ w_base w <> p +:+ "_msgp_test") -> assocd (w_file w) (d_out d') = Some (w_text w)) /\
  forall before w after docs seen, ws = before ++ w :: after -> struct_ok w = true ->
    avro_struct dt (structs_in before) [] [] (es_of w) (by_name (ds_of w)) docs seen -> NoDup seen -> docs <> [] ->
    exists s, assocd (low title lower (w_name w) +:+ ".avsc") (d_out d') = Some s /\ text (record_doc [] (title (w_name w)) (write_time :: deleted :: docs)) s.
Proof using Hord Hord' Hns Ha Hpk Hkeep.
  intros Hdoc Hi Hws Hm Hnb Hnl Hap. unfold Whole.run. rewrite Hdoc, (types_own _ _ Hi). set (ms := members_of _ _ _ _).
  destruct (if r_graphql A then _ else _) as [[dg [[]| |]]|]; [|done..]. destruct (build_members n fuel 0 sp ms dg) as [[dm [[]| |]]|] eqn:Em; [|done..]. intros H.
  destruct (members_avro fuel sp ms ws (members_wanted W F o_abs o_fmt SA pkg n sp i ws Hws) [] 0 dg dm Hm) as [R1 R2]; [by intros w Hw%elem_of_nil|done..|].
  assert (Hsame : forall f, (r_msgp A = true -> forall p, f <> p +:+ "_msgp.go" /\ f <> p +:+ "_msgp_test.go") -> assocd f (d_out d') = assocd f (d_out dm)).
  { intros f Hf. destruct (r_msgp A); [|by injection H as <-]. unfold build_msgp in H. destruct (o_msgp (d_out dm)) as [[[[p t] t']|]|]; injection H as <-; try done.
    destruct (Hf eq_refl p) as [N1 N2]. cbn. by rewrite !assocd_put, !decide_False. }
  split.
  - intros w Hw Hmp. rewrite Hsame; [by apply R1|]. intros Hr p. destruct (Hmp Hr p) as [N1 N2]. unfold w_file.
    change "_msgp.go" with ("_msgp" +:+ ".go"). change "_msgp_test.go" with ("_msgp_test" +:+ ".go"). rewrite !app_assoc_s. split; by intros ?%app_inj_r_s.
  - intros before w after docs seen E Hok Hs Hse Hd. destruct (R2 before w after docs seen E Hok Hs Hse Hd) as (s & Hthere & Ht). exists s. split; [|done]. rewrite Hsame; [done|].
    intros _ p. change "_msgp.go" with ("_msgp" +:+ ".go"). change "_msgp_test.go" with ("_msgp_test" +:+ ".go"). rewrite !app_assoc_s. split; intros E'; symmetry in E'; by apply go_not_avsc in E'.
Qed.
End proofs.

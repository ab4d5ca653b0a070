(** Whole files, for nested structs. *)
From stdpp Require Import strings list gmap.
From Coq Require Import Ascii ZArith Lia.
From Verif Require Import GoStr GoStrL Val Conv Schema Inst Load SpecPath PathL SpecWalk WalkL SpecLoad FlatL SpecGen Gen GenL SortL GenP GenM.

(** what the walk meets has distinct, non-empty names *)
Lemma declares_named title rename pointers :
  (forall req null r ty, holds title rename pointers req null r ty -> forall τ x ps, kinst KW r τ x -> KW x = (true, KObj ps) -> named ps) /\
  (forall req k r d, declares title rename pointers req k r d -> field_name k /\ forall τ x ps, kinst KW r τ x -> KW x = (true, KObj ps) -> named ps) /\
  (forall reqs ps ds, declares_all title rename pointers reqs ps ds ->
     Forall (fun kp => field_name kp.1 /\ forall τ x qs, kinst KW kp.2 τ x -> KW x = (true, KObj qs) -> named qs) ps).
Proof.
  assert (Hleaf : forall r, KW r = (true, KLeaf) -> forall τ x ps, kinst KW r τ x -> KW x = (true, KObj ps) -> named ps).
  { intros r Hr τ x ps Hk HK. destruct Hk; congruence. }
  apply declares_mutind.
  - intros req null r i t b Hi Ht Hb. apply Hleaf. rewrite (KW_ok _ _ Hi), !(one_type_has i t _ Ht) by done.
    rewrite !bool_decide_eq_false_2; [done|..]; intros <-; done.
  - intros req null r i Hi Ht Hfm. apply Hleaf. by rewrite (KW_ok _ _ Hi), !(one_type_has i _ _ Ht) by done.
  - intros req null r i ps ds Hi Ht Hps _ IH _ Hnd τ x qs Hk HK.
    assert (HKr : KW r = (true, KObj ps)). { rewrite (KW_ok _ _ Hi), (one_type_has i _ _ Ht) by done. by rewrite Hps. }
    destruct Hk as [|raw ps0 k p σ x HK' Hin Hk|raw j σ x HK' Hk]; [| |congruence].
    + assert (qs = ps) as -> by congruence. split; [done|]. eapply Forall_impl; [exact IH|]. intros [k p] [[(_ & _ & Hne) _] _]. done.
    + assert (ps0 = ps) as -> by congruence. destruct (proj1 (Forall_forall _ _) IH _ Hin) as [_ Hn]. by eapply Hn.
  - intros req k r i ty Hi Hk _ IH. done.
  - intros req k r i y ty Hi Ht Hk Hy _ IH. split; [done|]. intros τ x ps Hkx HK.
    assert (HKr : KW r = (true, KArr y)). { rewrite (KW_ok _ _ Hi), !(one_type_has i _ _ Ht) by done. cbn. by rewrite Hy. }
    destruct Hkx as [|raw ps0 k' p σ x HK' Hin Hkx|raw j σ x HK' Hkx]; [congruence|congruence|]. assert (j = y) as -> by congruence. by eapply IH.
  - intros req k r i y j Hi Ht Hk Hy Hj (Hh & Ho & Ha). split; [done|]. intros τ x ps Hkx HK.
    assert (HKr : KW r = (true, KArr y)). { rewrite (KW_ok _ _ Hi), !(one_type_has i _ _ Ht) by done. cbn. by rewrite Hy. }
    destruct Hkx as [|raw ps0 k' p σ x HK' Hin Hkx|raw z σ x HK' Hkx]; [congruence|congruence|]. assert (z = y) as -> by congruence.
    eapply Hleaf; [|done|done]. rewrite (KW_ok _ _ Hj). unfold has_type. change (default [] (n_type j)) with (types j). by rewrite !bool_decide_eq_false_2 by done.
  - constructor.
  - intros reqs k r i ps ds Hi (Hh & Ho & Ha) Hk _ IH. constructor; [|done]. split; [done|]. apply Hleaf. cbn.
    rewrite (KW_ok _ _ Hi). unfold has_type. change (default [] (n_type i)) with (types i). by rewrite !bool_decide_eq_false_2 by done.
  - intros reqs k r d ps ds _ Hd _ IH. by constructor.
Qed.

Section gen.
Context (W : oracles) (A : args).
Notation rename := (a_fieldNames A).
Notation title := (exported W).
Notation pointers := (a_pointers A).

(** the fields collected for a schema *)
Lemma walk_fields ord schema ds root nested : a_noNested A = false -> map_order ord -> n_items schema = None ->
  NoDup (default [] (n_props schema)).*1 -> declares_all title rename pointers (n_required schema) (default [] (n_props schema)) ds ->
  g_fields root = [] ->
  exists L ds', walk_schema (walk_func W A) ord (n_props schema) (n_items schema) (GoFile root nested) = (GoFile (with_fields root L) nested, Ok tt) /\
    Forall2 (good_in A (n_required schema)) L ds' /\ ds' ≡ₚ ds /\ NoDup L.*1.
Proof.
  intros Hn Hord Hit Hnd Hd Hr. pose proof (proj2 (proj2 (declares_named _ _ _)) _ _ _ Hd) as Hnm.
  pose proof (proj2 (proj2 (declares_gives W A)) _ _ _ Hd) as Hga. rewrite Hit.
  destruct (inst_top ord Hord (n_props schema) None) as (props' & vs & ok & Hp & Ht & He).
  { split; [done|]. eapply Forall_impl; [exact Hnm|]. intros [k p] [[(_ & _ & Hne) _] _]. done. }
  { intros σ r ps [(k & p & τ & Hin & -> & Hk)|(i & τ & [=] & _)] HK. destruct (proj1 (Forall_forall _ _) Hnm _ Hin) as [_ H]. by eapply H. }
  symmetry in Hp. destruct (ga_perm W A _ _ _ _ Hp Hga) as (ds' & Hds & Hga').
  assert (Hrun : forall vs ok, walks_all KW [] props' vs ok -> ok = true /\ exists L, run W A vs [] = Ok L /\ Forall2 (good_in A (n_required schema)) L ds' /\ NoDup L.*1).
  { intros vs0 ok0 Hw. destruct (all_run W A _ _ _ Hga' [] [] [] vs0 ok0 eq_refl) as (Hok & L & H1 & H2 & H3 & _); [constructor|by rewrite <- Hp|done|done|].
    split; [done|]. exists L. done. }
  rewrite He. inversion Ht as [items vs0 Hw E1 E2 E3|vs0 Hw E1 E2 E3|]; subst.
  - by destruct (Hrun _ _ Hw).
  - destruct (Hrun _ _ Hw) as (_ & L & HL & HF & HN). exists L, ds'. split_and!; [|done..]. cbn [fin].
    rewrite <- (calls_run W A vs [] L root nested Hn HL). f_equal. f_equal. destruct root. cbn in *. by subst.
Qed.
Lemma join_one s : join "" [s] = s.
Proof. done. Qed.
Lemma gen_file ord schema name embeds es ds : a_noNested A = false -> map_order ord -> n_items schema = None ->
  NoDup (default [] (n_props schema)).*1 -> declares_all title rename pointers (n_required schema) (default [] (n_props schema)) ds -> NoDup (map d_go ds) ->
  embeds_as title (a_structNames A) (a_embed A) (n_allOf schema) es ->
  exists g, new_file W A ord schema name embeds = Ok g /\
    forall pkg ord', key_order ord' -> file_text W A ord' pkg g = show_file (a_descTag A) pkg (title name) (embeds ++ es) (by_name ds).
Proof.
  intros Hn Hord Hit Hnd Hd Hndd Hes. unfold new_file.
  assert (Hall : (if a_embed A then map (fun m => default (title (sub_name (n_fromRef m))) (a_structNames A (sub_name (n_fromRef m)))) (n_allOf schema) else []) = es).
  { unfold embeds_as in Hes. destruct (a_embed A); [|done]. induction Hes as [|m e ms es (t & Ht & Hft & ->) Hes IH]; [done|]. cbn [map]. f_equal; [|exact IH].
    destruct Ht as [Ht1 Ht2]. cbn zeta. by rewrite (proj2 (sub_name_iff _ _ Ht1 Ht2) Hft). }
  cbn zeta. rewrite Hall. destruct (walk_fields ord schema ds (GStruct name [] (n_required schema) (embeds ++ es)) [] Hn Hord Hit Hnd Hd eq_refl)
    as (L & ds' & -> & HL & Hds & HndL).
  eexists. split; [done|]. intros pkg ord' Hord'. unfold file_text, show_file.
  set (root := with_fields _ L). change (structs (GoFile root [])) with [root].
  change nl with newline. change (quoted "time") with (in_quotes "time"). change disclaimer with "// Code generated by github.com/GannettDigital/jstransform; DO NOT EDIT.".
  assert (Ht : existsb (fun s => include_time (g_fields s)) [root] = existsb uses_time (by_name ds)).
  { cbn [existsb]. rewrite orb_false_r. change (g_fields root) with L. unfold include_time.
    by rewrite (existsb_perm _ _ _ (by_name_perm ds)), <- (existsb_perm _ _ _ Hds), <- (good_time_all A _ _ _ HL). }
  rewrite Ht. do 7 f_equal. rewrite (Permutation_length (by_name_perm ds)), <- (Permutation_length Hds), <- (Forall2_length _ _ _ HL).
  destruct (decide (length L = 0)) as [E|N].
  - destruct L; [|done]. done.
  - assert (HneL : g_fields root <> []) by (by destruct L). rewrite filter_cons_False by exact HneL. rewrite filter_cons_True by exact HneL. rewrite !filter_nil.
    cbn [map]. rewrite join_one. do 2 f_equal. unfold write_struct, show_struct. cbn [g_name g_embeds g_fields g_req with_fields root gf_nested].
    change nl with newline. do 5 f_equal. 
    f_equal. { rewrite (good_subs A ord' [name] (n_required schema) L ds' ds (show (a_descTag A) tabulator)); [done..|].
    intros k' f d Hin [Hj (_ & _ & Hw)]. cbn in Hj, Hw. rewrite Hj. by apply Hw. }
Qed.
End gen.

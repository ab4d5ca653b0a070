(** Whole files, when structs are not nested. *)
From stdpp Require Import strings list gmap sorting.
From Coq Require Import Ascii ZArith Lia.
From Verif Require Import GoStr GoStrL Val Conv Schema Inst Load SpecPath PathL SpecWalk WalkL SpecLoad FlatL SpecGen SpecNamed Gen GenL SortL GenP GenM GenT KeyedL NamedL NamedM NamedT.

Lemma insert_struct_key d l : (insert_struct d l).*1 = insert_sorted d.1 l.*1.
Proof. induction l as [|x l IH]; [done|]. cbn. destruct (str_le d.1 x.1); [done|]. cbn. by f_equal. Qed.
Lemma structs_by_name_key l : (structs_by_name l).*1 = sort_strings l.*1.
Proof. induction l as [|d l IH]; [done|]. cbn [structs_by_name foldr]. fold (structs_by_name l). rewrite insert_struct_key, IH. done. Qed.
Lemma insert_struct_perm d l : insert_struct d l ≡ₚ d :: l.
Proof. induction l as [|x l IH]; [done|]. cbn. destruct (str_le d.1 x.1); [done|]. rewrite IH. apply Permutation_swap. Qed.
Lemma structs_by_name_perm l : structs_by_name l ≡ₚ l.
Proof. induction l as [|x l IH]; [done|]. cbn [structs_by_name foldr]. fold (structs_by_name l). rewrite insert_struct_perm. by apply Permutation_skip. Qed.
Lemma omap_keys {B} (l l' : list (string * B)) : NoDup l.*1 -> (forall x, x ∈ l' -> x ∈ l) -> omap (fun k => assocd k l) l'.*1 = l'.*2.
Proof.
  intros Hnd. induction l' as [|[k v] l' IH]; intros H; [done|]. cbn. rewrite (assocd_in k v); [|done|apply H; left].
  f_equal. apply IH. intros x Hx. apply H. by right.
Qed.
Lemma NoDup_fst_eq {B} (l : list (string * B)) k x y : NoDup l.*1 -> (k, x) ∈ l -> (k, y) ∈ l -> x = y.
Proof. intros Hnd H1%assocd_in H2%assocd_in; [congruence|done..]. Qed.
Lemma join_cons_nil x l : join "" (x :: l) = x +:+ join "" l.
Proof. change (x :: l) with ([x] ++ l). by rewrite join_nil_app. Qed.
(** keys start with a capital letter, and there are no structs without fields of the first *)
Lemma ndeclares_keys title rename pointers :
  (forall P k req null r ty Ss, nholds title rename pointers P k req null r ty Ss -> capital P -> forall Q, Q ∈ Ss.*1 -> capital Q) /\
  (forall P req k r d Ss, ndeclares title rename pointers P req k r d Ss -> capital P -> forall Q, Q ∈ Ss.*1 -> capital Q) /\
  (forall P reqs ps ds Ss, ndeclares_all title rename pointers P reqs ps ds Ss -> (ds = [] -> Ss = []) /\ (capital P -> forall Q, Q ∈ Ss.*1 -> capital Q)).
Proof.
  apply ndeclares_mutind.
  - intros. by apply elem_of_nil in H3.
  - intros. by apply elem_of_nil in H3.
  - intros P k req null r i ps d ds Ss _ _ _ _ [_ IH] _ _ HP Q [->|HQ]%elem_of_cons; [by apply capital_app|]. apply IH; [by apply capital_app|done].
  - intros P k req null r i ps Ss _ _ _ _ [_ IH] _ _ HP Q [->|HQ]%elem_of_cons; [by apply capital_app|]. apply IH; [by apply capital_app|done].
  - done.
  - done.
  - intros P req k r i x j _ _ _ _ _ _ _ Q HQ. by apply elem_of_nil in HQ.
  - intros P reqs. split; [done|]. intros _ Q HQ. by apply elem_of_nil in HQ.
  - done.
  - intros P reqs k r d ps ds Ss Ss' _ H1 _ [_ H2]. split; [done|]. intros HP Q. rewrite fmap_app. intros [HQ|HQ]%elem_of_app; auto.
Qed.

Section gen.
Context (W : oracles) (A : args) (root_name : string).
Notation rename := (a_fieldNames A).
Notation title := (exported W).
Notation pointers := (a_pointers A).
Notation K0 := (title root_name).
Notation mw := (mw W A).
Notation good_at := (good_at A).

(** the records collected for a schema *)
Lemma named_walk ord schema ds Ss embeds : a_noNested A = true -> map_order ord -> n_items schema = None ->
  NoDup (default [] (n_props schema)).*1 -> ndeclares_all title rename pointers K0 (n_required schema) (default [] (n_props schema)) ds Ss ->
  capital K0 -> NoDup (K0 :: Ss.*1) ->
  exists L N ds' Ss' N', walk_schema (walk_func W A) ord (n_props schema) (n_items schema) (GoFile (GStruct root_name [] (n_required schema) embeds) [])
      = (GoFile (GStruct root_name L (n_required schema) embeds) N, Ok tt) /\
    NoDup L.*1 /\ Forall2 (good_at Ss' (n_required schema)) L ds' /\ ds' ≡ₚ ds /\ N' ≡ₚ N /\ Forall2 (mw Ss') N' Ss' /\ Ss' ≡ₚ Ss.
Proof.
  intros Hn Hord Hit Hnd Hd HK Hkeys. pose proof (proj2 (proj2 (ndeclares_named _ _ _)) _ _ _ _ _ Hd) as Hnm.
  destruct (proj2 (proj2 (ndeclares_does W A root_name)) _ _ _ _ _ Hd HK) as (es & Hps & Hds & HSs & Hnone & Hdo). rewrite Hit.
  assert (Hndk : NoDup (map e_k es)).
  { rewrite <- Hps in Hnd. assert (E : map e_k es = (map (fun e => (e_k e, e_r e)) es).*1) by (clear; induction es; [done|]; cbn; by f_equal). by rewrite E. }
  destruct (schema_goes title K0 (gmk) (gfld W A) (fun s => g_name s = root_name) (walk_func W A) to_file)
    with (ord := ord) (props := n_props schema) (its := map (ritem W A (n_required schema)) es) (s0 := GStruct root_name [] (n_required schema) embeds)
    as (its' & s & N & Hits & Hw & HN & Hch).
  - intros tp s n Q i s' H1 H2. by eapply gfld_name.
  - intros p i st H. by apply visit_eq.
  - done.
  - done.
  - by rewrite ritem_pairs.
  - split; [done|]. eapply Forall_impl; [exact Hnm|]. intros [k p] [[(_ & _ & Hne) _] _]. done.
  - intros σ r ps [(k & p & τ & Hin & -> & Hk)|(i & τ & [=] & _)] HKW. destruct (proj1 (Forall_forall _ _) Hnm _ Hin) as [_ H]. by eapply H.
  - apply Hdo.
  - by apply ritem_compat.
  - apply Forall_forall. intros it (e & -> & _)%elem_of_list_fmap. done.
  - by rewrite ritem_keys, HSs.
  - apply Permutation_map_inv in Hits as (es' & -> & Hes').
    destruct (chain_fields W A (n_required schema) es' (GStruct root_name [] (n_required schema) embeds) s N) as (L & N' & -> & Hsub & HN' & HL & Hmw).
    { by rewrite <- Hes'. }
    { done. }
    { by rewrite <- Hes'. }
    { done. }
    exists L, N, (omap e_d es'), (es' ≫= e_S), N'. cbn [g_fields app with_fields] in *. split; [exact Hw|]. split; [eapply nodup_sublist; [exact Hsub|by rewrite <- Hes']|].
    split_and!; [done|by rewrite <- Hds, Hes'|done..|by rewrite <- HSs, Hes'].
Qed.
Definition show_all (excl : list string) (nested : list (string * gstruct)) ord (ss : list gstruct) : string :=
  join "" (map (fun s => nl +:+ nl +:+ write_struct W A ord excl nested s) (filter (fun s => g_fields s <> []) ss)).
Lemma show_all_eq Ss' excl nested ord N Ss : Forall2 (mw Ss') N Ss -> cons nested excl Ss' -> key_order ord ->
  show_all excl nested ord N.*2 = join "" (map (fun s : string * list gdecl =>
    if decide (length s.2 = 0) then "" else newline +:+ newline +:+ show_struct (a_descTag A) (title s.1) [] s.2) Ss).
Proof.
  intros HF Hc Hord. induction HF as [|n s N Ss [Hm Hw] HF IH]; [done|]. destruct Hm as (_ & _ & _ & Hf). destruct (Hw _ _ Hc) as [_ Htx]. specialize (Htx ord Hord).
  change ((n :: N).*2) with (n.2 :: N.*2). change (map ?f (s :: Ss)) with ([f s] ++ map f Ss). rewrite join_nil_app, <- IH. unfold show_all.
  rewrite filter_cons. destruct (decide (g_fields n.2 <> [])) as [E|E].
  - change (map ?f (n.2 :: ?l)) with ([f n.2] ++ map f l). rewrite join_nil_app. f_equal. rewrite !join_one. rewrite Htx.
    rewrite decide_False; [done|]. rewrite Hf in E. by destruct s.2.
  - assert (s.2 = []) as E'. { apply Hf. destruct (g_fields n.2); [done|]. by destruct E. } rewrite join_one, decide_True by (by rewrite E'). by rewrite sapp_nil_l.
Qed.
Lemma mw_names Ss' N Ss : Forall2 (mw Ss') N Ss -> N.*1 = Ss.*1.
Proof. induction 1 as [|n s N Ss [(H & _) _] HF IH]; [done|]. cbn. by rewrite H, IH. Qed.
Lemma mw_time Ss' excl nested N Ss : Forall2 (mw Ss') N Ss -> cons nested excl Ss' ->
  existsb (fun s => include_time (g_fields s)) N.*2 = existsb (fun s : string * list gdecl => existsb uses_time s.2) Ss.
Proof. intros HF Hc. induction HF as [|n s N Ss [_ Hw] HF IH]; [done|]. destruct (Hw _ _ Hc) as [Ht _]. cbn [existsb fmap list_fmap]. by rewrite Ht, IH. Qed.
Lemma mw_in Ss' N Ss : Forall2 (mw Ss') N Ss ->
  (forall Q g, (Q, g) ∈ N -> exists ds, (Q, ds) ∈ Ss /\ g_name g = Q /\ (g_fields g = [] <-> ds = [])) /\
  (forall Q ds, (Q, ds) ∈ Ss -> exists g, (Q, g) ∈ N /\ g_name g = Q /\ (g_fields g = [] <-> ds = [])).
Proof.
  induction 1 as [|[Q0 g0] [Q1 ds0] N Ss [(H1 & H2 & _ & H3) _] HF [IH1 IH2]]; [split; intros ? ? H; by apply elem_of_nil in H|]. cbn in H1, H2, H3. subst.
  split; intros Q x [[= -> ->]|Hx]%elem_of_cons.
  - exists ds0. split; [left|done].
  - destruct (IH1 _ _ Hx) as (ds & Hin & H). exists ds. split; [by right|done].
  - exists g0. split; [left|done].
  - destruct (IH2 _ _ Hx) as (g & Hin & H). exists g. split; [by right|done].
Qed.
Lemma mw_cons Ss' root N N' Ss : (forall Q, Q ∈ Ss.*1 -> capital Q) -> NoDup Ss.*1 -> Forall2 (mw Ss') N' Ss -> N' ≡ₚ N -> (forall x, x ∈ Ss' -> x ∈ Ss) -> g_fields root <> [] ->
  cons N (map g_name (filter (fun s => g_fields s = []) (root :: N'.*2))) Ss'.
Proof.
  intros Hcap Hnd HF Hp Hsub Hroot. rewrite filter_cons_False by done. destruct (mw_in _ _ _ HF) as [Hi1 Hi2].
  assert (HnN : NoDup N.*1). { rewrite <- Hp. by rewrite (mw_names _ _ _ HF). }
  assert (Hex : forall Q, Q ∈ map g_name (filter (fun s => g_fields s = []) N'.*2) <-> (Q, []) ∈ Ss).
  { intros Q. split.
    - intros (g & -> & Hg)%elem_of_list_fmap. apply elem_of_list_filter in Hg as [Hg ([Q g'] & -> & Hin)%elem_of_list_fmap]. cbn in *.
      destruct (Hi1 _ _ Hin) as (ds & Hds & -> & Hiff). rewrite (proj1 Hiff Hg) in Hds. done.
    - intros H. destruct (Hi2 _ _ H) as (g & Hin & <- & Hiff). apply elem_of_list_fmap. exists g. split; [done|]. apply elem_of_list_filter. split; [by apply Hiff|].
      apply elem_of_list_fmap. by exists (g_name g, g). }
  split_and!.
  - intros Q HQ. apply Hcap. rewrite <- (mw_names _ _ _ HF). by rewrite Hp.
  - intros Q HQ%Hex. apply Hcap. apply elem_of_list_fmap. by exists (Q, []).
  - intros Q ds Hin%Hsub. destruct (Hi2 _ _ Hin) as (g & Hg & _ & Hiff). exists g. split; [|split; [done|]].
    + apply assocd_in; [done|by rewrite <- Hp].
    + rewrite Hex. split; [|by intros ->]. intros Hin'. by eapply (NoDup_fst_eq Ss).
Qed.
Lemma structs_eq root N N' Ss : NoDup N.*1 -> N' ≡ₚ N -> N'.*1 = (structs_by_name Ss).*1 -> structs (GoFile root N) = root :: N'.*2.
Proof.
  intros Hnd Hp Hk. unfold structs. cbn [gf_nested gf_root]. f_equal. rewrite <- (omap_keys N N') by (done || (intros x; by rewrite Hp)).
  f_equal. rewrite Hk, structs_by_name_key. apply sort_eq. rewrite <- Hp, Hk. by rewrite structs_by_name_perm.
Qed.
Lemma named_file ord schema embeds es ds Ss : a_noNested A = true -> map_order ord -> n_items schema = None ->
  NoDup (default [] (n_props schema)).*1 -> ndeclares_all title rename pointers K0 (n_required schema) (default [] (n_props schema)) ds Ss -> NoDup (map d_go ds) ->
  capital K0 -> NoDup (K0 :: Ss.*1) -> embeds_as title (a_structNames A) (a_embed A) (n_allOf schema) es ->
  exists g, new_file W A ord schema root_name embeds = Ok g /\
    forall pkg ord', key_order ord' -> file_text W A ord' pkg g = show_structs title (a_descTag A) pkg root_name (embeds ++ es) (by_name ds) (structs_by_name Ss).
Proof.
  intros Hn Hord Hit Hnd Hd Hndd HK Hkeys Hes. unfold new_file.
  assert (Hall : (if a_embed A then map (fun m => default (title (sub_name (n_fromRef m))) (a_structNames A (sub_name (n_fromRef m)))) (n_allOf schema) else []) = es).
  { unfold embeds_as in Hes. destruct (a_embed A); [|done]. induction Hes as [|m e ms es (t & Ht & Hft & ->) Hes IH]; [done|]. cbn [map]. f_equal; [|exact IH].
    destruct Ht as [Ht1 Ht2]. cbn zeta. by rewrite (proj2 (sub_name_iff _ _ Ht1 Ht2) Hft). }
  cbn zeta. rewrite Hall. destruct (named_walk ord schema ds Ss (embeds ++ es) Hn Hord Hit Hnd Hd HK Hkeys) as (L & N & ds' & Ss' & N' & -> & HndL & HL & Hds & HN & Hmw & HSs).
  eexists. split; [done|]. intros pkg ord' Hord'. set (root := GStruct root_name L (n_required schema) (embeds ++ es)).
  destruct (proj2 (proj2 (ndeclares_keys _ _ _)) _ _ _ _ _ Hd) as [Hempty Hcap]. specialize (Hcap HK).
  assert (Hsort : Ss' ≡ₚ structs_by_name Ss) by (by rewrite structs_by_name_perm).
  destruct (Forall2_perm _ _ _ Hsort _ Hmw) as (N'' & HN'' & Hmw'').
  assert (HNp : N'' ≡ₚ N) by (by rewrite HN'').
  assert (Hnn : NoDup N.*1). { rewrite <- HNp, (mw_names _ _ _ Hmw''), structs_by_name_perm. by apply NoDup_cons in Hkeys as [_ ?]. }
  assert (Hst : structs (GoFile root N) = root :: N''.*2). { apply (structs_eq root N N'' Ss); [done|done|]. by apply (mw_names _ _ _ Hmw''). }
  unfold file_text, show_structs. rewrite Hst. cbn zeta.
  change nl with newline. change (quoted "time") with (in_quotes "time"). change disclaimer with "// Code generated by github.com/GannettDigital/jstransform; DO NOT EDIT.".
  assert (Hlen : length (by_name ds) = length L). { by rewrite (Permutation_length (by_name_perm ds)), <- (Permutation_length Hds), <- (Forall2_length _ _ _ HL). }
  destruct (decide (L = [])) as [->|HneL].
  - assert (ds = []) as ->. { apply length_zero_iff_nil. by rewrite <- (Permutation_length (by_name_perm ds)), Hlen. }
    assert (Ss = []) as -> by (by apply Hempty). assert (N'' = []) as ->. { apply Forall2_length in Hmw''. by destruct N''. }
    cbn [fmap list_fmap]. by rewrite (filter_cons_False (fun s => g_fields s <> [])) by (by intros H; apply H).
  - assert (Hc : cons N (map g_name (filter (fun s => g_fields s = []) (root :: N''.*2))) Ss').
    { eapply mw_cons; [| |exact Hmw''|done| |done].
      - intros Q. rewrite structs_by_name_perm. apply Hcap.
      - rewrite structs_by_name_perm. by apply NoDup_cons in Hkeys as [_ ?].
      - intros x. by rewrite <- Hsort. }
    set (excl := map g_name _) in *. rewrite (decide_False (P := length (by_name ds) = 0)) by (rewrite Hlen; by destruct L).
    cbn [gf_nested]. rewrite filter_cons_True by done. cbn [map]. rewrite (join_cons_nil). 
    rewrite <- (show_all_eq Ss' excl N ord' N'' (structs_by_name Ss) Hmw'' Hc Hord'). unfold show_all. change nl with newline.
    assert (Ht : existsb (fun s => include_time (g_fields s)) (root :: N''.*2) = existsb uses_time (by_name ds) || existsb (fun s : string * list gdecl => existsb uses_time s.2) (structs_by_name Ss)).
    { cbn [existsb]. rewrite (mw_time Ss' excl N N'' (structs_by_name Ss) Hmw'' Hc). f_equal. change (g_fields root) with L.
      by rewrite (existsb_perm _ _ _ (by_name_perm ds)), <- (existsb_perm _ _ _ Hds), <- (time_all A _ _ _ _ HL). }
    rewrite Ht. do 7 f_equal. rewrite !app_assoc_s. do 2 f_equal. f_equal. unfold root. eapply struct_text; [exact Hc|done|exact HL|done|done|done].
Qed.
End gen.

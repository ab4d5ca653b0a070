(** GraphQL documents: the interface made from allOf, and the types made from oneOf. *)
From stdpp Require Import strings list gmap.
From Coq Require Import Ascii ZArith Lia.
From Verif Require Import GoStr GoStrL Val Conv Schema Inst Load SpecPath PathL SpecWalk WalkL SpecLoad FlatL SpecGen SpecGql Gen Avro Gql GenL SortL GenP GenM GenT KeyedL NamedT NamedF GqlL GqlM GqlT GqlF SpecDoc.

(** ** maps *)
Lemma put_all_new {B} (src dst : list (string * B)) : NoDup (dst ++ src).*1 -> put_all src dst = dst ++ src.
Proof.
  revert dst. induction src as [|[k v] src IH]; intros dst H; [by rewrite app_nil_r|]. cbn [put_all fold_left]. change (fold_left ?f src ?d) with (put_all src d). cbn [fst snd].
  rewrite put_new.
  - rewrite IH; [by rewrite <- app_assoc|]. by rewrite <- app_assoc.
  - apply assocd_none. rewrite fmap_app in H. apply NoDup_app in H as (_ & H & _). intros Hk. eapply H; [exact Hk|left].
Qed.
Lemma keys_put_in {B} k (v : B) l x : x ∈ (put k v l).*1 <-> x = k \/ x ∈ l.*1.
Proof.
  induction l as [|[a b] l IH]; cbn; [rewrite elem_of_list_singleton, elem_of_nil; naive_solver|]. destruct (decide (a = k)) as [->|N]; cbn; rewrite !elem_of_cons; [naive_solver|].
  rewrite IH. naive_solver.
Qed.
Lemma nodup_put {B} k (v : B) l : NoDup l.*1 -> NoDup (put k v l).*1.
Proof.
  induction l as [|[a b] l IH]; cbn; [intros _; apply NoDup_singleton|]. intros [H1 H2]%NoDup_cons. destruct (decide (a = k)) as [->|N]; cbn; [by constructor|].
  constructor; [|by apply IH]. rewrite keys_put_in. naive_solver.
Qed.
Lemma put_all_own {B} (L : list (string * B)) o dst : NoDup dst.*1 -> (forall k, k ∈ o -> is_Some (assocd k L)) ->
  NoDup (put_all (omap (fun k => (fun f => (k, f)) <$> assocd k L) o) dst).*1 /\
  forall k, assocd k (put_all (omap (fun k => (fun f => (k, f)) <$> assocd k L) o) dst) = if decide (k ∈ o) then assocd k L else assocd k dst.
Proof.
  revert dst. induction o as [|x o IH]; intros dst Hnd Ho; [done|]. cbn [omap list_omap]. destruct (Ho x ltac:(left)) as [f Hf]. rewrite Hf. cbn [fmap option_fmap option_map].
  cbn [put_all fold_left fst snd]. change (fold_left ?g ?s ?d) with (put_all s d).
  destruct (IH (put x f dst)) as [H1 H2]; [by apply nodup_put|intros k Hk; apply Ho; by right|]. split; [done|]. intros k. rewrite H2.
  destruct (decide (k ∈ o)) as [E|E]; [rewrite decide_True; [done|by right]|]. rewrite assocd_put. destruct (decide (k = x)) as [->|N].
  - rewrite decide_True; [done|left].
  - rewrite decide_False; [done|]. rewrite elem_of_cons. naive_solver.
Qed.
Lemma assoc_perm {B} (l l' : list (string * B)) : NoDup l.*1 -> NoDup l'.*1 -> (forall k, assocd k l = assocd k l') -> l ≡ₚ l'.
Proof.
  intros H1 H2 H. apply NoDup_Permutation; [by eapply NoDup_fmap_1|by eapply NoDup_fmap_1|]. intros [k v]. split; intros Hin.
  - apply assocd_in in Hin; [|done]. rewrite H in Hin. by apply assocd_elem in Hin.
  - apply assocd_in in Hin; [|done]. rewrite <- H in Hin. by apply assocd_elem in Hin.
Qed.
Lemma Forall2_perm_l {B C} (R : B -> C -> Prop) l l' k : l ≡ₚ l' -> Forall2 R l k -> exists k', k' ≡ₚ k /\ Forall2 R l' k'.
Proof.
  intros Hp HF. apply Forall2_flip in HF. destruct (Forall2_perm _ _ _ Hp _ HF) as (k' & Hk & HF'). exists k'. split; [done|]. by apply Forall2_flip.
Qed.

Lemma or_of (P Q R : Prop) `{Decision P, Decision Q, Decision R} : bool_decide P = bool_decide Q || bool_decide R -> (P <-> Q \/ R).
Proof. do 3 case_bool_decide; naive_solver. Qed.

Section gql.
Context (W : oracles) (o_quote o_trim : string -> string) (A : gargs).
Notation rename := (a_fieldNames (ga A)).
Notation types_map := (ga_types A).
Notation title := (exported W).
Notation pointers := (a_pointers (ga A)).
Notation quote := (q o_quote).
Notation trim := (trim_space o_trim).
Notation import := (ga_import A).
Notation structs_match := (structs_match W o_quote o_trim A).
Notation good_at := (good_at o_quote o_trim A).
Notation free_decl := (free_decl o_quote o_trim).
Notation qsm := (qsm W o_quote o_trim A).
Notation holds_file := (holds_file W o_quote o_trim A).
Notation schema_declares := (schema_declares title rename types_map pointers trim).
Notation root_name := (go_struct title (a_structNames (ga A))).
Notation root_type := (gql_type title (go_lower W) (a_structNames (ga A)) types_map).
Notation declares_part := (declares_part title (go_lower W) (a_structNames (ga A)) rename types_map pointers trim).
Notation show_types := (show_types title quote trim import).

Definition holds_part (g : qfile) (c : part) : Prop := inhabited (holds_file g (p_ds c) (p_req c) (p_S c)).
Lemma fields_names g c : holds_part g c -> (root_fields g).*1 ≡ₚ map qd_json (p_ds c).
Proof. intros [[T ds' HL Hp _ _ _ _]]. unfold root_fields. rewrite (good_names _ _ _ _ _ HL). by rewrite Hp. Qed.
Lemma nested_names g c : holds_part g c -> (qf_nested g).*1 ≡ₚ map qs_key (p_S c).
Proof. intros [[T ds' _ _ _ _ _ (N & HN & HF)]]. rewrite <- HN. by rewrite (qsm_names _ _ _ _ _ _ HF). Qed.
Lemma all_fields_app common cs F : Forall2 holds_part common cs -> NoDup (F.*1 ++ map qd_json (all_ds cs)) -> all_fields common F = F ++ (common ≫= root_fields).
Proof.
  intros H. revert F. induction H as [|g c common cs Hg H IH]; intros F Hnd; [cbn; by rewrite app_nil_r|]. cbn [all_fields fold_left]. change (fold_left ?f common ?x) with (all_fields common x).
  pose proof (fields_names _ _ Hg) as Hn. unfold all_ds in Hnd. cbn [mbind list_bind] in Hnd |- *. rewrite map_app in Hnd.
  rewrite put_all_new.
  - rewrite IH; [by rewrite <- app_assoc|]. rewrite fmap_app, Hn, <- app_assoc. exact Hnd.
  - rewrite fmap_app, Hn. rewrite app_assoc in Hnd. by apply NoDup_app in Hnd as (? & _).
Qed.
Lemma all_nested_app common cs : Forall2 holds_part common cs -> NoDup (map qs_key (all_S cs)) -> all_nested common = common ≫= qf_nested.
Proof.
  intros H Hnd. unfold all_nested. cut (forall F : list (string * qobj), NoDup (F.*1 ++ map qs_key (all_S cs)) -> fold_left (fun ns g => put_all (qf_nested g) ns) common F = F ++ (common ≫= qf_nested)).
  { intros Hc. by apply (Hc []). }
  clear Hnd. induction H as [|g c common cs Hg H IH]; intros F Hnd; [cbn; by rewrite app_nil_r|]. cbn [fold_left].
  pose proof (nested_names _ _ Hg) as Hn. unfold all_S in Hnd. cbn [mbind list_bind] in Hnd |- *. rewrite map_app in Hnd.
  rewrite put_all_new.
  - rewrite IH; [by rewrite <- app_assoc|]. rewrite fmap_app, Hn, <- app_assoc. exact Hnd.
  - rewrite fmap_app, Hn. rewrite app_assoc in Hnd. by apply NoDup_app in Hnd as (? & _).
Qed.
Lemma is_req_in r n : is_req r n = bool_decide (n ∈ default [] r).
Proof. done. Qed.
Lemma common_ok common cs : Forall2 holds_part common cs -> NoDup (map qd_json (all_ds cs)) ->
  exists ds' (T : list string), Forall2 good_at (common ≫= root_fields) ds' /\ ds' ≡ₚ all_ds cs /\ (forall n, n ∈ all_req common <-> n ∈ T \/ n ∈ reqs_of cs) /\
    (forall n, n ∈ T -> n ∈ map qd_json (all_ds cs)) /\ (forall d, d ∈ all_ds cs -> qd_json d ∈ T -> free_decl d) /\ structs_match (common ≫= qf_nested) (all_S cs).
Proof.
  induction 1 as [|g c common cs [[T ds' HL Hp Hr Hs Hf HS]] H IH]; intros Hnd.
  - exists [], []. cbn [mbind list_bind]. split; [constructor|]. split; [done|]. split; [intros n; unfold all_req, reqs_of; cbn; rewrite !elem_of_nil; naive_solver|]. split; [intros n Hn; by apply elem_of_nil in Hn|]. split; [intros d Hd; by apply elem_of_nil in Hd|exists []; split; [done|constructor]].
  - unfold all_ds in Hnd. cbn [mbind list_bind] in Hnd. rewrite map_app in Hnd. apply NoDup_app in Hnd as (Hnd1 & Hdis & Hnd2).
    destruct (IH Hnd2) as (ds2 & T2 & HL2 & Hp2 & Hr2 & Hs2 & Hf2 & HS2). exists (ds' ++ ds2), (T ++ T2).
    unfold all_ds, reqs_of, all_S, all_req in *. cbn [mbind list_bind]. split; [apply Forall2_app; [exact HL|exact HL2]|]. split; [by rewrite Hp, Hp2|]. split; [|split; [|split]].
    + intros n. rewrite !elem_of_app. rewrite Hr2. unfold root_req. specialize (Hr n). rewrite is_req_in in Hr.
      apply or_of in Hr. rewrite Hr. naive_solver.
    + intros n. rewrite map_app, !elem_of_app. naive_solver.
    + intros d. rewrite !elem_of_app. assert (Hin : forall l, d ∈ l -> qd_json d ∈ map qd_json l) by (intros l Hd; apply elem_of_list_fmap; by exists d).
      intros [Hd|Hd] [HT|HT]; [by apply Hf| | |by apply Hf2].
      * exfalso. eapply Hdis; [by apply Hin|by apply Hs2].
      * exfalso. eapply (Hdis (qd_json d)); [by apply Hs|by apply Hin].
    + by apply structs_app.
Qed.
(** ** the interface *)
Lemma interface_ok pkg schema common cs : Forall2 holds_part common cs -> NoDup (map qd_json (all_ds cs)) -> NoDup (map qs_key (all_S cs)) ->
  inhabited (holds_file (q_interface W A pkg schema common) (all_ds cs) (reqs_of cs) (all_S cs)).
Proof.
  intros H Hnd HndS. destruct (common_ok _ _ H Hnd) as (ds' & T & HL & Hp & Hr & Hs & Hf & HS). constructor.
  exists T ds'; [| | |done|done|].
  - unfold q_interface. destruct (n_oneOf schema); cbn [qf_root o_field q_fields]; by rewrite (all_fields_app common cs []).
  - done.
  - intros n. unfold q_interface. destruct (n_oneOf schema); cbn [qf_root o_field q_fields o_info q_info q_req]; rewrite is_req_in; cbn [default];
      rewrite <- bool_decide_or; apply bool_decide_ext; apply Hr.
  - unfold q_interface. destruct (n_oneOf schema); cbn [qf_nested]; by rewrite (all_nested_app common cs).
Qed.
(** ** a type that has the fields of the interface *)
Lemma merge_ok common cs g c impl : Forall2 holds_part common cs -> holds_part g c -> ordered g (p_ds c) -> NoDup (map qd_json (all_ds cs ++ p_ds c)) ->
  inhabited (holds_file (q_merge common g impl) (all_ds cs ++ p_ds c) (reqs_of cs ++ p_req c) (p_S c)).
Proof.
  intros H Hg Ho Hnd. pose proof (fields_names _ _ Hg) as Hfn. rewrite map_app in Hnd. apply NoDup_app in Hnd as Hnd'. destruct Hnd' as (Hnd1 & Hdis & Hnd2).
  destruct (common_ok _ _ H Hnd1) as (dsC & TC & HLC & HpC & HrC & HsC & HfC & _). destruct Hg as [[T ds' HL Hp Hr Hs Hf HS]].
  assert (HnC : (common ≫= root_fields).*1 ≡ₚ map qd_json (all_ds cs)). { rewrite (good_names _ _ _ _ _ HLC). by rewrite HpC. }
  set (L := root_fields g) in *. set (C := common ≫= root_fields) in *.
  assert (HndL : NoDup L.*1) by (by rewrite Hfn). assert (HndC : NoDup C.*1) by (by rewrite HnC).
  assert (HCL : NoDup (C ++ L).*1) by (by rewrite fmap_app, Hfn, HnC).
  assert (Hnn : forall n, n ∈ L.*1 -> n ∉ C.*1). { intros n. rewrite Hfn, HnC. intros H1 H2. by eapply Hdis. }
  assert (Hmerged : put_all (omap (fun k => (fun f => (k, f)) <$> assocd k L) (q_order (o_info (qf_root g)))) C ≡ₚ C ++ L).
  { destruct (put_all_own L (q_order (o_info (qf_root g))) C HndC) as [Hk Hv].
    - intros k Hk. apply Ho in Hk. rewrite <- Hfn in Hk. destruct (assocd k L) eqn:E; [by eexists|]. by apply assocd_none in E.
    - apply assoc_perm; [done|done|]. intros k. rewrite Hv, assocd_app. destruct (decide (k ∈ q_order (o_info (qf_root g)))) as [Hk'|Hk'].
      + apply Ho in Hk'. rewrite <- Hfn in Hk'. by rewrite (proj2 (assocd_none k C)) by (by apply Hnn).
      + destruct (assocd k C) eqn:E; [done|]. symmetry. apply assocd_none. rewrite Hfn. by rewrite <- (Ho k). }
  destruct (Forall2_perm_l good_at (C ++ L) (root_fields (q_merge common g impl)) (dsC ++ ds')) as (ds2 & Hp2 & HF2).
  { unfold root_fields at 1, q_merge. cbn [qf_root o_field q_fields]. rewrite (all_fields_app common cs []) by done. by symmetry. }
  { by apply Forall2_app. }
  constructor. exists (TC ++ T) ds2.
  - exact HF2.
  - by rewrite Hp2, HpC, Hp.
  - intros n. unfold q_merge. cbn [qf_root o_info o_field q_info set_req q_req]. rewrite is_req_in. cbn [default]. rewrite <- bool_decide_or. apply bool_decide_ext.
    unfold id. rewrite !elem_of_app, HrC. specialize (Hr n). rewrite is_req_in in Hr. unfold root_req. apply or_of in Hr. rewrite Hr. naive_solver.
  - intros n. rewrite map_app, !elem_of_app. naive_solver.
  - intros d. rewrite !elem_of_app. assert (Hin : forall l, d ∈ l -> qd_json d ∈ map qd_json l) by (intros l Hd; apply elem_of_list_fmap; by exists d).
    intros [Hd|Hd] [HT|HT]; [by apply HfC| | |by apply Hf].
    + exfalso. eapply Hdis; [by apply Hin|by apply Hs].
    + exfalso. eapply (Hdis (qd_json d)); [by apply HsC|by apply Hin].
  - exact HS.
Qed.

(** ** the document *)
Lemma seqs_new ord base ms cs : a_noNested (ga A) = true -> map_order ord -> Forall2 (declares_part false base) ms cs ->
  exists common, seqs (map (fun m => q_new W A ord m base false) ms) = Ok common /\ Forall2 holds_part common cs.
Proof.
  intros Hn Hord. induction 1 as [|m c ms cs [Hd Hrq] HF IH]; [by exists []|]. destruct IH as (common & IH & HF').
  destruct (q_new_eq W o_quote o_trim A ord m base false (p_ds c) (p_S c) Hn Hord Hd) as (g & Hg & Hf & _). cbn [map seqs]. rewrite Hg. cbn [rbind]. rewrite IH. cbn [rbind].
  eexists. split; [done|]. constructor; [|done]. unfold holds_part. by rewrite Hrq.
Qed.
Notation impl_struct := (member_type title (go_lower W) (a_structNames (ga A)) types_map).
Lemma impls_eq ord ord' name all common cs ms os : a_noNested (ga A) = true -> map_order ord -> key_order ord' -> Forall2 holds_part common cs ->
  Forall (fun m => a_embed (ga A) = true -> n_allOf m = []) ms ->
  Forall2 (fun m c => declares_part all (from_name m) m c /\ NoDup (map qd_json (all_ds cs ++ p_ds c)) /\ NoDup (map qd_go (all_ds cs ++ p_ds c))) ms os ->
  q_impls W o_quote o_trim A ord ord' name all common ms = Ok (zip_with (fun m c => (from_name m,
     show_types (kind_of m) (if all then default (title name) (types_map name) else "") (impl_struct all cs m c) (types_by_name (p_S c)))) ms os).
Proof.
  intros Hn Hord Hord' Hc He HF. induction HF as [|m c ms os ((Hd & Hrq) & Hj & Hgo) HF IH]; [done|]. apply Forall_cons in He as [He1 He2].
  cbn [q_impls]. destruct (q_new_eq W o_quote o_trim A ord m (from_name m) all (p_ds c) (p_S c) Hn Hord Hd) as (g & Hg & Hf & Hord1 & H1 & H2 & H3 & H4 & H5 & H6 & _). rewrite Hg. cbn [rbind].
  assert (Hm : (if a_embed (ga A) then seqs (map (fun a => q_new W A ord a (from_name a) false) (n_allOf m)) else Ok []) = Ok []).
  { destruct (a_embed (ga A)); [|done]. by rewrite He1. }
  rewrite Hm. cbn [rbind]. rewrite app_nil_r. cbn zeta. rewrite IH by done. cbn [rbind zip_with]. do 2 f_equal. f_equal.
  assert (Hp : holds_part g c) by (unfold holds_part; by rewrite Hrq).
  destruct (merge_ok common cs g c (if all then default (title name) (types_map name) else "") Hc Hp Hord1 Hj) as [Hm'].
  destruct Hd as (_ & _ & _ & _ & _ & [_ Hk]%NoDup_cons).
  rewrite (file_text_eq W o_quote o_trim A _ _ _ _ ord' Hord' Hm' Hj Hgo Hk).
  - unfold q_merge, impl_struct. cbn [qf_root o_build o_info o_field q_info set_req set_impl q_name q_json q_desc q_impl].
    change (q_info (o_field (qf_root g))) with (o_info (qf_root g)). by rewrite H1, H2, H3, H4.
  - unfold q_merge, dead. cbn [qf_root o_build o_info o_field q_info set_req set_impl q_target]. change (q_info (o_field (qf_root g))) with (o_info (qf_root g)). rewrite H6, H1. unfold kind_of. by destruct (n_oneOf m).
Qed.
Lemma build_eq ord ord' file name pkg schema cs os own : a_noNested (ga A) = true -> map_order ord -> key_order ord' ->
  doc_parts title (go_lower W) (a_structNames (ga A)) rename types_map pointers trim file schema cs os own ->
  (a_embed (ga A) = true -> Forall (fun m => n_allOf m = []) (n_oneOf schema)) ->
  q_build W o_quote o_trim A ord ord' file name pkg schema =
    Ok (document title (go_lower W) (a_structNames (ga A)) types_map quote trim import (ga_any A) (ga_files A) file name pkg schema cs os own).
Proof.
  intros Hn Hord Hord' (HC & [Hj Hgo] & HS & HO & Hown) He. unfold q_build, document. cbn zeta. fold (first_file schema). fold (has_all schema).
  change (match n_allOf schema with [] => "" | m :: _ => from_name m end) with (first_file schema).
  destruct (seqs_new ord (first_file schema) _ _ Hn Hord HC) as (common & Hc & HF). rewrite Hc. cbn [rbind].
  rewrite (impls_eq ord ord' name (has_all schema) common cs (n_oneOf schema) os Hn Hord Hord' HF).
  2: { destruct (a_embed (ga A)); [|by apply Forall_true]. eapply Forall_impl; [by apply He|]. done. }
  2: { eapply Forall2_impl; [exact HO|]. intros m c (H1 & H2 & H3). done. }
  cbn [rbind].
  assert (Hself : (match n_allOf schema with
    | [] => match n_oneOf schema with [] => rbind (q_new W A ord schema file false) (fun g => Ok (q_text W o_quote o_trim A ord' g)) | _ :: _ => Ok "" end
    | _ :: _ => Ok "" end) = Ok (own_text title (go_lower W) (a_structNames (ga A)) types_map quote trim import file schema own)).
  { unfold own_text. destruct (n_allOf schema) eqn:E1; [|done]. destruct (n_oneOf schema) eqn:E2; [|done]. destruct (Hown eq_refl eq_refl) as [Hd Hrq].
    destruct (q_file_eq W o_quote o_trim A ord ord' schema file (p_ds own) (p_S own) Hn Hord Hord' Hd) as (g & Hg & Ht). rewrite Hg. cbn [rbind]. rewrite Ht.
    unfold kind_of. by rewrite E2. }
  rewrite Hself. cbn [rbind].
  assert (Hfirst : (if has_all schema then q_text W o_quote o_trim A ord' (q_interface W A pkg schema common) else "") =
    common_text title (a_structNames (ga A)) types_map quote trim import pkg schema cs).
  { unfold common_text. destruct (has_all schema) eqn:E0; [|done]. destruct (interface_ok pkg schema common cs HF Hj HS) as [Hif].
    rewrite (file_text_eq W o_quote o_trim A _ _ _ _ ord' Hord' Hif Hj Hgo HS).
    - unfold q_interface, kind_of, common_type, first_file. by destruct (n_oneOf schema).
    - unfold q_interface. by destruct (n_oneOf schema). }
  rewrite Hfirst. assert (Hh : q_header = header) by (vm_compute; reflexivity). rewrite Hh. destruct (ga_files A); reflexivity.
Qed.
End gql.

(** Whole GraphQL files. *)
From stdpp Require Import strings list gmap.
From Coq Require Import Ascii ZArith Lia.
From Verif Require Import GoStr GoStrL Val Conv Schema Inst Load SpecPath PathL SpecWalk WalkL SpecLoad FlatL SpecGen SpecGql SpecDoc Gen Avro Gql GenL SortL GenP GenM GenT KeyedL NamedT NamedF GqlL GqlM GqlT.

Lemma insert_qstruct_key d l : keys (insert_qstruct d l) = insert_sorted (qs_key d) (keys l).
Proof. induction l as [|x l IH]; [done|]. cbn. destruct (str_le (qs_key d) (qs_key x)); [done|]. cbn. by f_equal. Qed.
Lemma types_by_name_key l : keys (types_by_name l) = sort_strings (keys l).
Proof. induction l as [|d l IH]; [done|]. cbn [types_by_name foldr]. fold (types_by_name l). rewrite insert_qstruct_key, IH. done. Qed.
Lemma insert_qstruct_perm d l : insert_qstruct d l ≡ₚ d :: l.
Proof. induction l as [|x l IH]; [done|]. cbn. destruct (str_le (qs_key d) (qs_key x)); [done|]. rewrite IH. apply Permutation_swap. Qed.
Lemma types_by_name_perm l : types_by_name l ≡ₚ l.
Proof. induction l as [|x l IH]; [done|]. cbn [types_by_name foldr]. fold (types_by_name l). rewrite insert_qstruct_perm. by apply Permutation_skip. Qed.

Section gql.
Context (W : oracles) (o_quote o_trim : string -> string) (A : gargs).
Notation rename := (a_fieldNames (ga A)).
Notation types_map := (ga_types A).
Notation title := (exported W).
Notation pointers := (a_pointers (ga A)).
Notation quote := (q o_quote).
Notation trim := (trim_space o_trim).
Notation import := (ga_import A).
Notation qdeclares_all := (qdeclares_all title rename types_map pointers trim).
Notation structs_match := (structs_match W o_quote o_trim A).
Notation good_at := (good_at o_quote o_trim A).
Notation free_decl := (free_decl o_quote o_trim).
Notation qsm := (qsm W o_quote o_trim A).
Notation ritem := (ritem W o_quote o_trim A).

(** a file with the fields [ds], of which those named in [reqs] are required, and the further types [Ss] *)
Record holds_file (g : qfile) (ds : list qdecl) (reqs : list string) (Ss : list qstruct) := HoldsFile {
  hf_T : list string;
  hf_ds : list qdecl;
  hf_good : Forall2 good_at (q_fields (o_field (qf_root g))) hf_ds;
  hf_perm : hf_ds ≡ₚ ds;
  hf_req : forall n, is_req (q_req (o_info (qf_root g))) n = bool_decide (n ∈ hf_T) || bool_decide (n ∈ reqs);
  hf_sub : forall n, n ∈ hf_T -> n ∈ map qd_json ds;
  hf_free : forall d, d ∈ ds -> qd_json d ∈ hf_T -> free_decl d;
  hf_structs : structs_match (qf_nested g) Ss }.
Definition ordered (g : qfile) (ds : list qdecl) : Prop := forall n, n ∈ q_order (o_info (qf_root g)) <-> n ∈ map qd_json ds.
Notation schema_declares := (schema_declares title rename types_map pointers trim).
Lemma q_schema_walk ord schema name json kind desc ds Ss : a_noNested (ga A) = true -> map_order ord ->
  schema_declares (title name) (title json) schema ds Ss -> kind <> "ignored" ->
  let root := new_obj kind name json desc [] "" (n_required schema) in
  exists L o T N, walk_schema (q_walk W A) ord (n_props schema) (n_items schema) (QFile root []) = (QFile (grow root L o T) N, Ok tt) /\
    inhabited (holds_file (QFile (grow root L o T) N) ds (n_required schema) Ss) /\ ordered (QFile (grow root L o T) N) ds.
Proof.
  intros Hn Hord (Hit & Hnd & Hd & Hndj & Hndg & Hkeys) Hkind root. pose proof (proj2 (proj2 (qdeclares_named _ _ _ _ _)) _ _ _ _ _ _ _ Hd) as Hnm.
  destruct (proj2 (proj2 (qdeclares_does W o_quote o_trim A name)) _ _ _ _ _ _ _ Hd) as (es & Hps & Hds & HSs & Hown & Hdo). rewrite Hit.
  assert (Hnames : NoDup (es ≫= e_names)) by (by rewrite names_bind, Hds).
  assert (Hpl : place W true (title json) false root).
  { split; [split; [done|by eexists]|]. split; [done|]. unfold dead. rewrite (bool_decide_eq_false_2 (o_build root = "ignored")) by done. done. }
  destruct (schema_goes title (title name) (qmk W A) (qfld W A) (fun s => q_name (o_info s) = name) (q_walk W A) to_qfile)
    with (ord := ord) (props := n_props schema) (its := map (ritem true (title json) false (n_required schema)) es) (s0 := root)
    as (its' & s & N & Hits & Hw & HN & Hch).
  - intros tp s n Q i s' H1 H2. by eapply qfld_name.
  - intros p i st H. by apply q_visit_eq.
  - done.
  - done.
  - by rewrite ritem_pairs.
  - split; [done|]. eapply Forall_impl; [exact Hnm|]. intros [k p] [[(_ & _ & Hne) _] _]. done.
  - intros σ r ps [(k & p & τ & Hin & -> & Hk)|(i & τ & [=] & _)] HKW. destruct (proj1 (Forall_forall _ _) Hnm _ Hin) as [_ H]. by eapply H.
  - apply Hdo.
  - by apply ritem_compat.
  - apply Forall_forall. intros it (e & -> & He)%elem_of_list_fmap. cbn [it_pre GqlM.ritem GqlM.pitem]. split_and!; [done|done| |done].
    revert Hnames He. clear. induction es as [|e' es IH]; intros Hn He; [by apply elem_of_nil in He|]. cbn in Hn. apply NoDup_app in Hn as (Hn1 & _ & Hn2).
    apply elem_of_cons in He as [->|He]; [done|by apply IH].
  - by rewrite ritem_keys, HSs.
  - apply Permutation_map_inv in Hits as (es' & -> & Hes').
    destruct (chain_fields W o_quote o_trim A true (title json) false (n_required schema) es' root s N) as (L & o & T & -> & HL & Ho & HT & Hf & HS).
    { done. }
    { by rewrite <- (bind_perm e_names _ _ Hes'). }
    { done. }
    assert (Hde : es' ≫= e_ds ≡ₚ ds). { by rewrite <- Hds, (bind_perm e_ds _ _ Hes'). }
    exists L, o, T, N. split; [exact Hw|]. split; [constructor; econstructor; [exact HL|done|intros n; exact (is_req_app T (Some (n_required schema)) n)| | |]|].
    + intros n Hn'%HT. by rewrite names_bind, Hde in Hn'.
    + intros d. rewrite <- Hde. apply Hf.
    + eapply structs_perm; [done| |exact HS]. by rewrite <- HSs, (bind_perm e_S _ _ Hes').
    + intros n. cbn [qf_root grow with_field o_info o_field q_info set_req set_order q_order root new_obj app]. rewrite Ho, names_bind. by rewrite Hde.
Qed.

(** ** writing *)
Lemma structs_text ord N' Ss : key_order ord -> Forall2 qsm N' Ss ->
  join "" (map (fun o => nl +:+ q_write_obj W o_quote o_trim A ord o) (filter (fun o => dead o = false) N'.*2)) =
  join "" (map (fun s => if qs_dead s then "" else newline +:+ show_type title quote trim import "type" "" s) Ss).
Proof.
  intros Hord. induction 1 as [|n s N' Ss (_ & _ & Hd & Hw) HF IH]; [done|]. cbn [fmap list_fmap map]. change (list_fmap _ _ snd N') with (N'.*2). rewrite filter_cons, join_cons_nil, <- IH.
  destruct (decide (dead n.2 = false)) as [E|E].
  - cbn [map]. rewrite join_cons_nil. rewrite Hd in E. rewrite E. by rewrite Hw.
  - apply not_false_is_true in E. rewrite Hd in E. rewrite E. by rewrite sapp_nil_l.
Qed.
Lemma qsm_names N' Ss : Forall2 qsm N' Ss -> N'.*1 = keys Ss.
Proof. induction 1 as [|n s N Ss (H & _) HF IH]; [done|]. cbn. by rewrite H, IH. Qed.
Lemma file_text_eq g ds reqs Ss ord : key_order ord -> holds_file g ds reqs Ss -> NoDup (map qd_json ds) -> NoDup (map qd_go ds) -> NoDup (map qs_key Ss) -> dead (qf_root g) = false ->
  q_text W o_quote o_trim A ord g = show_types title quote trim import (o_build (qf_root g)) (q_impl (o_info (qf_root g)))
    (QStruct (q_name (o_info (qf_root g))) (q_json (o_info (qf_root g))) (q_desc (o_info (qf_root g))) false reqs (fields_by_name ds)) (types_by_name Ss).
Proof.
  intros Hord [T ds' HL Hp Hr _ Hf (N' & HN' & HF)] Hndj Hndg Hk Hdead. unfold q_text, show_types.
  assert (HSs : Ss ≡ₚ types_by_name Ss) by (by rewrite types_by_name_perm).
  destruct (Forall2_perm _ _ _ HSs _ HF) as (M & HM & HMF).
  assert (Hnn : NoDup (qf_nested g).*1). { rewrite <- HN', (qsm_names _ _ HF). done. }
  assert (Hst : q_structs g = qf_root g :: M.*2).
  { unfold q_structs. f_equal. rewrite <- (omap_keys (qf_nested g) M) by (done || (intros x; by rewrite HM, HN')). f_equal.
    rewrite (qsm_names _ _ HMF), types_by_name_key. apply sort_eq. by rewrite <- HN', (qsm_names _ _ HF). }
  rewrite Hst. rewrite filter_cons_True by done. cbn [map]. rewrite join_cons_nil. rewrite (structs_text _ _ _ Hord HMF).
  rewrite <- app_assoc_s. change nl with newline. do 2 f_equal. eapply obj_text; [done|done|exact Hr|exact HL|done|done|done| |].
  - intros d. rewrite Hp. apply Hf.
  - by rewrite Hdead.
Qed.
(** a schema without subschemas *)
Notation root_name := (go_struct title (a_structNames (ga A))).
Notation root_type := (gql_type title (go_lower W) (a_structNames (ga A)) types_map).
Lemma q_new_eq ord schema name impl ds Ss : a_noNested (ga A) = true -> map_order ord ->
  schema_declares (title (root_name name)) (title (root_type impl name)) schema ds Ss ->
  exists g, q_new W A ord schema name impl = Ok g /\ inhabited (holds_file g ds (n_required schema) Ss) /\ ordered g ds /\
    o_build (qf_root g) = kind_of schema /\ q_name (o_info (qf_root g)) = root_name name /\ q_json (o_info (qf_root g)) = root_type impl name /\
    q_desc (o_info (qf_root g)) = n_desc schema /\ q_impl (o_info (qf_root g)) = "" /\ q_target (o_info (qf_root g)) = "" /\ q_made (o_info (qf_root g)) = true.
Proof.
  intros Hn Hord Hd. unfold q_new. cbn zeta.
  destruct (q_schema_walk ord schema (root_name name) (root_type impl name) (kind_of schema) (n_desc schema) ds Ss Hn Hord Hd) as (L & o & T & N & Hw & Hg & Ho).
  { unfold kind_of. by destruct (n_oneOf schema). }
  cbn zeta in Hw.
  match goal with |- exists g, (match ?w with _ => _ end) = _ /\ _ => assert (E : w = (QFile (grow (new_obj (kind_of schema) (root_name name) (root_type impl name) (n_desc schema) [] "" (n_required schema)) L o T) N, Ok tt)) end.
  { exact Hw. }
  rewrite E. eexists. split; [done|]. split; [exact Hg|]. split; [exact Ho|]. done.
Qed.
Lemma q_file_eq ord ord' schema name ds Ss : a_noNested (ga A) = true -> map_order ord -> key_order ord' -> 
  schema_declares (title (root_name name)) (title (root_type false name)) schema ds Ss ->
  exists g, q_new W A ord schema name false = Ok g /\ q_text W o_quote o_trim A ord' g =
    show_types title quote trim import (kind_of schema) "" (QStruct (root_name name) (root_type false name) (n_desc schema) false (n_required schema) (fields_by_name ds)) (types_by_name Ss).
Proof.
  intros Hn Hord Hord' Hd. destruct (q_new_eq ord schema name false ds Ss Hn Hord Hd) as (g & Hg & [Hf] & _ & H1 & H2 & H3 & H4 & H5 & H6 & _). exists g. split; [done|].
  destruct Hd as (_ & _ & _ & Hndj & Hndg & [_ Hk]%NoDup_cons). rewrite (file_text_eq g ds (n_required schema) Ss ord' Hord' Hf Hndj Hndg Hk).
  - by rewrite H1, H2, H3, H4, H5.
  - unfold dead. rewrite H6, H1. unfold kind_of. by destruct (n_oneOf schema).
Qed.
End gql.

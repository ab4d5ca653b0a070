(** GraphQL types: every property adds the fields and types it declares. *)
From stdpp Require Import strings list gmap.
From Coq Require Import Ascii ZArith Lia.
From Verif Require Import GoStr GoStrL Val Conv Schema Inst Load SpecPath PathL SpecWalk WalkL SpecLoad FlatL SpecGen SpecGql Gen Avro Gql GenL SortL GenP GenM KeyedL NamedT GqlL GqlM.

(** what the walk meets has distinct, non-empty names *)
Lemma qdeclares_named title rename types_map pointers trim :
  (forall P G dead k target null r t Ss, qholds title rename types_map pointers trim P G dead k target null r t Ss -> forall τ x ps, kinst KW r τ x -> KW x = (true, KObj ps) -> named ps) /\
  (forall P G dead req k r ds Ss, qdeclares title rename types_map pointers trim P G dead req k r ds Ss -> field_name k /\ forall τ x ps, kinst KW r τ x -> KW x = (true, KObj ps) -> named ps) /\
  (forall P G dead reqs ps ds Ss, qdeclares_all title rename types_map pointers trim P G dead reqs ps ds Ss ->
     Forall (fun kp => field_name kp.1 /\ forall τ x qs, kinst KW kp.2 τ x -> KW x = (true, KObj qs) -> named qs) ps).
Proof.
  assert (Hleaf : forall r, KW r = (true, KLeaf) -> forall τ x ps, kinst KW r τ x -> KW x = (true, KObj ps) -> named ps).
  { intros r Hr τ x ps Hk HK. destruct Hk; congruence. }
  assert (Hlf : forall r i t, d_inst false r = Ok i -> one_type i t -> t <> "object" -> t <> "array" -> KW r = (true, KLeaf)).
  { intros r i t Hi Ht Ho Ha. rewrite (KW_ok _ _ Hi), !(one_type_has i t _ Ht) by done. by rewrite !bool_decide_eq_false_2 by congruence. }
  assert (Hobj : forall r i ps, d_inst false r = Ok i -> one_type i "object" -> n_props i = Some ps -> NoDup ps.*1 ->
    Forall (fun kp => field_name kp.1 /\ forall τ x qs, kinst KW kp.2 τ x -> KW x = (true, KObj qs) -> named qs) ps ->
    forall τ x qs, kinst KW r τ x -> KW x = (true, KObj qs) -> named qs).
  { intros r i ps Hi Ht Hps Hnd IH τ x qs Hk HK.
    assert (HKr : KW r = (true, KObj ps)). { rewrite (KW_ok _ _ Hi), (one_type_has i _ _ Ht) by done. by rewrite Hps. }
    destruct Hk as [|raw ps0 k p σ x HK' Hin Hk|raw j σ x HK' Hk]; [| |congruence].
    + assert (qs = ps) as -> by congruence. split; [done|]. eapply Forall_impl; [exact IH|]. intros [k p] [[(_ & _ & Hne) _] _]. done.
    + assert (ps0 = ps) as -> by congruence. destruct (proj1 (Forall_forall _ _) IH _ Hin) as [_ Hn]. by eapply Hn. }
  assert (Harr : forall r i y, d_inst false r = Ok i -> one_type i "array" -> n_items i = Some y -> (forall τ x ps, kinst KW y τ x -> KW x = (true, KObj ps) -> named ps) ->
    forall τ x ps, kinst KW r τ x -> KW x = (true, KObj ps) -> named ps).
  { intros r i y Hi Ht Hy IH τ x ps Hkx HK.
    assert (HKr : KW r = (true, KArr y)). { rewrite (KW_ok _ _ Hi), !(one_type_has i _ _ Ht) by done. cbn. by rewrite Hy. }
    destruct Hkx as [|raw ps0 k' p σ x HK' Hin Hkx|raw j σ x HK' Hkx]; [congruence|congruence|]. assert (j = y) as -> by congruence. by eapply IH. }
  apply qdeclares_mutind.
  - intros P G dd k target null r i t b Hi Ht Hb. apply Hleaf. eapply Hlf; [done|done| |]; intros ->; done.
  - intros P G dd k target null r i Hi Ht Hfm. apply Hleaf. by eapply Hlf.
  - intros P G dd k target null r i kp ps ds Ss Hi Ht Hps _ _ IH Hnd _ _. by eapply Hobj.
  - intros P G dd k target null r i Hi Ht Hps. eapply (Hobj r i []); [done|done|done|constructor|constructor].
  - intros P G dd req k r i t Ss Hi Hk _ IH. done.
  - intros P G dd req k r i Hi Hk Ht. split; [done|]. apply Hleaf. by eapply Hlf.
  - intros P G dd req k r i y j t Ss Hi Hk Ht Hy Hj _ _ IH. split; [done|]. by eapply Harr.
  - intros P G dd req k r i y j Hi Hk Ht Hy Hj Hh. split; [done|]. eapply Harr; [done..|]. apply Hleaf. by eapply Hlf.
  - constructor.
  - intros P G dd reqs k r ds Ss ps ds' Ss' _ Hd _ IH. by constructor.
Qed.

Section gql.
Context (W : oracles) (o_quote o_trim : string -> string) (A : gargs) (root_name : string).
Notation rename := (a_fieldNames (ga A)).
Notation types_map := (ga_types A).
Notation title := (exported W).
Notation pointers := (a_pointers (ga A)).
Notation quote := (q o_quote).
Notation trim := (trim_space o_trim).
Notation K0 := (title root_name).
Notation does := (does title K0 (qmk W A) (qfld W A)).
Notation does_value := (does_value title K0 (qmk W A) (qfld W A)).
Notation qgood := (qgood o_quote o_trim A).
Notation free_decl := (free_decl o_quote o_trim).
Notation setk := GqlL.setk.
Notation vitem := (vitem W o_quote o_trim A).
Notation pitem := (pitem W o_quote o_trim A).
Notation ritem := (ritem W o_quote o_trim A).
Notation qholds := (qholds title rename types_map pointers trim).
Notation qdeclares := (qdeclares title rename types_map pointers trim).
Notation qdeclares_all := (qdeclares_all title rename types_map pointers trim).
Notation structs_match := (structs_match W o_quote o_trim A).

Lemma leaf_fld tp s k Q i t arr desc name args target null : ready s -> qstart W A arr s k i desc name args target null -> one_type i t -> t <> "array" -> t <> "object" ->
  qfld W A tp s k Q i = Ok (setk s k (qplain arr k (if is_date i then "date-time" else t) desc name args
    (list_target A arr target (is_req (q_req (o_info s)) k) i) (null || is_date i))).
Proof.
  intros Hr Hst Ht Hta Hto. unfold qfld. rewrite (one_type_has i t _ Ht) by done. rewrite bool_decide_eq_false_2 by congruence.
  rewrite (q_leaf_value W A s k None i t arr desc name args target null Hr Hst); [done|done|by apply single_one|done..|by destruct Ht].
Qed.
Lemma array_fld tp s k Q i : ready s -> assocd k (q_fields (o_field s)) = None -> one_type i "array" ->
  qfld W A tp s k Q i = Ok (setk (setr (setk s (total_entry W A i k).1 (total_entry W A i k).2) (total_entry W A i k).1) k (arr_field W A i k)).
Proof.
  intros Hr Hn Ht. unfold qfld. rewrite (one_type_has i _ _ Ht) by done. assert (bool_decide ("object" = "array") = false) as -> by done.
  by rewrite (q_leaf_array W A s k i Hr Hn Ht).
Qed.
Lemma list_target_same arr target req i : (arr = true -> target = "" -> n_target i = "") -> list_target A arr target req i = target.
Proof.
  intros H. unfold list_target. destruct arr; [|done]. cbn [andb]. destruct (bool_decide (target = "")) eqn:E; [|done]. apply bool_decide_eq_true_1 in E.
  rewrite (bool_decide_eq_false_2 (n_target i <> "")); [done|]. intros N. apply N. by apply H.
Qed.
Lemma object_fld tp G dd s k Q i arr desc name args target null : place W tp G dd s -> qstart W A arr s k i desc name args target null -> one_type i "object" ->
  (arr = true -> target = "" -> n_target i = "") -> (no_props i = false -> sub_type title types_map G k ∉ reserved) ->
  exists null', qfld W A tp s k Q i = Ok (setk s k (qplain arr k (if no_props i then "Any" else sub_type title types_map G k) desc name args target null')).
Proof.
  intros Hpl Hst Ht Htg Hres. unfold qfld. rewrite (one_type_has i _ _ Ht) by done. assert (bool_decide ("object" = "object") = true) as -> by done.
  set (null' := if arr then false else has_type "null" (as_object i Q)). exists null'.
  assert (Hst' : qstart W A arr s k (as_object i Q) desc name args target null').
  { unfold null'. destruct arr; [split; [apply Hst|done]|]. destruct Hst as (H1 & H2 & H3 & H4 & H5 & H6). by split_and!. }
  assert (Hd : is_date (as_object i Q) = false). { unfold is_date. cbn. apply andb_false_r. }
  assert (Hst2 : single_type (default (types_of (as_object i Q)) (Some (type_list W A tp s k i))) "" = Ok (if no_props i then "Any" else sub_type title types_map G k)).
  { cbn [default]. unfold type_list. rewrite (type_name_eq W A tp G dd s k Hpl). destruct (no_props i); [done|]. specialize (Hres eq_refl).
    assert (Hn : sub_type title types_map G k <> "null") by (intros E; rewrite E in Hres; apply Hres; left).
    revert Hn. generalize (sub_type title types_map G k) as T. intros T Hn. destruct (has_type "null" i); cbn; destruct (decide (T = "null")); done. }
  rewrite (q_leaf_value W A s k (Some (type_list W A tp s k i)) (as_object i Q)
    (if no_props i then "Any" else sub_type title types_map G k) arr desc name args target null' (proj1 Hpl) Hst'); [|done|exact Hst2|..].
  - cbn [rbind]. rewrite Hd, orb_false_r. rewrite list_target_same by done. done.
  - destruct (no_props i); [done|]. intros E. rewrite E in Hres. apply (Hres eq_refl). unfold reserved. set_solver.
  - destruct (no_props i); [done|]. intros E. rewrite E in Hres. apply (Hres eq_refl). unfold reserved. set_solver.
  - destruct (no_props i); [done|]. intros E. rewrite E in Hres. apply (Hres eq_refl). unfold reserved. set_solver.
Qed.
Lemma structs_nil : structs_match [] [].
Proof. by exists []. Qed.
Lemma value_does_leaf tp P G dd k r i t req arr desc name args target null ty : field_name k -> d_inst false r = Ok i -> one_type i t -> t <> "array" -> t <> "object" ->
  qgood (qplain arr k (if is_date i then "date-time" else t) desc name args (list_target A arr target req i) (null || is_date i)) (QDecl desc name k args ty) ->
  does_value tp P (vitem tp arr G dd k r i req desc name args target null ty []).
Proof.
  intros Hk Hi Ht Hta Hto Hg.
  pose proof (value_leaf title K0 (qmk W A) (qfld W A) tp P k r i
    (fun s => place W tp G dd s /\ qstart W A arr s k i desc name args target null /\ is_req (q_req (o_info s)) k = req)
    (fun s s' => s' = setk s k (qplain arr k (if is_date i then "date-time" else t) desc name args (list_target A arr target req i) (null || is_date i))) Hk Hi) as [H1 H2].
  - rewrite (one_type_has i t _ Ht) by done. apply bool_decide_eq_false_2. congruence.
  - rewrite (one_type_has i t _ Ht) by done. apply bool_decide_eq_false_2. congruence.
  - intros s ((Hr & _) & Hs & Hq). eexists. split; [|done]. rewrite (leaf_fld tp s k _ i t arr desc name args target null Hr Hs Ht Hta Hto). by rewrite Hq.
  - split; [done|]. cbn [GqlM.vitem it_k it_r it_keys it_pre it_R keys map] in *. intros gs a st vs ok Hkey Hgs Htop Hp Hf Hw.
    destruct (H2 gs a st vs ok Hkey Hgs Htop Hp Hf Hw) as (Hok & s & N & Hr & HN & -> & ->).
    split; [done|]. eexists _, []. split; [exact Hr|]. split; [done|]. eexists. split; [done|]. split; [done|apply structs_nil].
Qed.
Lemma names_bind es : es ≫= e_names = map qd_json (es ≫= e_ds).
Proof. induction es as [|e es IH]; [done|]. cbn [mbind list_bind]. unfold list_bind in IH. rewrite map_app. f_equal. exact IH. Qed.
Lemma bind_perm {B C} (f : B -> list C) l l' : l ≡ₚ l' -> l ≫= f ≡ₚ l' ≫= f.
Proof. intros H. by rewrite H. Qed.
Lemma qmk_dead tp s k Q i : dead (qmk W A tp s k Q i) = bool_decide (n_target i <> "") || (dead s || no_props i).
Proof. unfold qmk. unfold dead at 1. cbn. by destruct (dead s || no_props i). Qed.
Lemma value_does_object tp P G dd k r i ps es ds Ss req arr desc name args target null ty : field_name k -> d_inst false r = Ok i -> one_type i "object" -> n_props i = Some ps ->
  (arr = true -> target = "" -> n_target i = "") -> (no_props i = false -> sub_type title types_map G k ∉ reserved) ->
  map (fun e => (e_k e, e_r e)) es = ps -> es ≫= e_ds = ds -> es ≫= e_S = Ss -> Forall own es ->
  Forall (does false (P +:+ title k)) (map (ritem false (sub_type title types_map G k) (bool_decide (n_target i <> "") || (dd || no_props i)) (n_required i)) es) ->
  NoDup (map qd_json ds) -> NoDup (map qd_go ds) ->
  (forall null', qgood (qplain arr k (if no_props i then "Any" else sub_type title types_map G k) desc name args target null') (QDecl desc name k args ty)) ->
  does_value tp P (vitem tp arr G dd k r i req desc name args target null ty
    (QStruct (P +:+ title k) (sub_type title types_map G k) (n_desc i) (bool_decide (n_target i <> "") || (dd || no_props i)) (n_required i) (fields_by_name ds) :: Ss)).
Proof.
  intros Hk Hi Ht Hps Htg Hres Hes Hds HSs Hown Hdo Hndj Hndg Hg. set (Q := P +:+ title k) in *. set (T := sub_type title types_map G k) in *.
  set (D := bool_decide (n_target i <> "") || (dd || no_props i)) in *.
  assert (Hnames : NoDup (es ≫= e_names)) by (by rewrite names_bind, Hds).
  assert (Hmk : forall s, place W tp G dd s -> place W false T D (qmk W A tp s k Q i)).
  { intros s Hpl. split; [split; [done|by eexists]|]. split; [cbn; by apply (type_name_eq W A tp G dd)|]. rewrite qmk_dead. destruct Hpl as (_ & _ & ->). done. }
  pose proof (value_object title K0 (qmk W A) (qfld W A) tp P k r i ps (map (ritem false T D (n_required i)) es)
    (fun s => place W tp G dd s /\ qstart W A arr s k i desc name args target null /\ is_req (q_req (o_info s)) k = req)
    (fun s s' => exists null', s' = setk s k (qplain arr k (if no_props i then "Any" else T) desc name args target null')) Hk Hi) as [H1 H2].
  - by rewrite (one_type_has i _ _ Ht).
  - done.
  - by rewrite ritem_pairs.
  - done.
  - by apply ritem_compat.
  - intros s (Hpl & _). apply Forall_forall. intros it (e & -> & He)%elem_of_list_fmap. cbn [it_pre GqlM.ritem GqlM.pitem]. split_and!; [by apply Hmk|done| |done].
    revert Hnames He. clear. induction es as [|e' es IH]; intros Hn He; [by apply elem_of_nil in He|]. cbn in Hn. apply NoDup_app in Hn as (Hn1 & _ & Hn2).
    apply elem_of_cons in He as [->|He]; [done|by apply IH].
  - intros s (Hpl & Hs & _). destruct (object_fld tp G dd s k Q i arr desc name args target null Hpl Hs Ht Htg Hres) as (null' & E). eexists. split; [exact E|]. by exists null'.
  - split; [done|]. cbn [GqlM.vitem it_k it_r it_keys it_pre it_R keys map qs_key] in *. intros gs a st vs ok Hkey Hgs Htop Hp Hf Hw.
    fold Q in H2. rewrite ritem_keys, HSs in H2.
    destruct (H2 gs a st vs ok Hkey Hgs Htop Hp Hf Hw) as (Hok & s & N & Hr & HN & (null' & ->) & its' & c & N' & Hits & -> & Hch).
    split; [done|]. eexists _, _. split; [exact Hr|]. split; [exact HN|]. eexists. split; [done|]. split; [apply Hg|].
    apply Permutation_map_inv in Hits as (es' & -> & Hes').
    assert (Hnd' : NoDup (es' ≫= e_names)). { by rewrite <- (bind_perm e_names _ _ Hes'). }
    destruct (chain_fields W o_quote o_trim A false T D (n_required i) es' (qmk W A tp (cur st P) k Q i) c N') as (L & o & R & -> & HL & _ & _ & Hfree & HM).
    { apply Hmk. apply Hp. }
    { done. }
    { exact Hch. }
    assert (HSe : es' ≫= e_S ≡ₚ Ss). { by rewrite <- HSs, (bind_perm e_S _ _ Hes'). }
    assert (Hde : es' ≫= e_ds ≡ₚ ds). { by rewrite <- Hds, (bind_perm e_ds _ _ Hes'). }
    destruct (structs_perm W o_quote o_trim A N' N' _ Ss ltac:(done) HSe HM) as (M & HMp & HMF).
    destruct Hp as (Hpl & _ & _). pose proof (Hmk _ Hpl) as (_ & _ & HD).
    exists ((Q, grow (qmk W A tp (cur st P) k Q i) L o R) :: M). split; [by rewrite HMp|]. constructor; [|done].
    split_and!; [done|done|exact HD|]. intros Hdead ord Hord. cbn [snd qs_dead] in *.
    rewrite (obj_text W o_quote o_trim A ord (grow (qmk W A tp (cur st P) k Q i) L o R) L R (n_required i) (es' ≫= e_ds) ds
      (QStruct Q T (n_desc i) D (n_required i) (fields_by_name ds))); [|done|done|intros n; exact (is_req_app R (Some (n_required i)) n)|done|done|done|done|done|].
    + assert (Hb : o_build (grow (qmk W A tp (cur st P) k Q i) L o R) = "type").
      { rewrite Hdead in HD. rewrite qmk_dead in HD. cbn. apply orb_false_iff in HD as [_ ->]. done. }
      rewrite Hb. done.
    + f_equal; [|].
      * symmetry. by apply (type_name_eq W A tp G dd).
      * symmetry. exact HD.
Qed.
(** an array, whose items do as [vi] says *)
Lemma does_list tp P G dd k r i x j req t Ss : field_name k -> d_inst false r = Ok i -> one_type i "array" -> n_items i = Some x -> d_inst false x = Ok j ->
  does_value tp P (vitem tp true G dd k x j req (n_desc i) (go_name title rename k) (n_gargs i) (n_target i) false t Ss) ->
  does tp P (pitem tp G dd req (Ent k r [total_of title rename trim i k; QDecl (n_desc i) (go_name title rename k) k (n_gargs i) t] Ss)).
Proof.
  intros Hk Hi Ht Hx Hj Hd. set (vi := vitem _ _ _ _ _ _ _ _ _ _ _ _ _ _ _) in *. set (tf := (total_entry W A i k).2). set (tn := (total_entry W A i k).1). set (f0 := arr_field W A i k).
  set (e := Ent k r _ Ss).
  pose proof (does_array title K0 (qmk W A) (qfld W A) tp P k r i x (keys Ss) (it_pre (pitem tp G dd req e))
    (it_pre vi) (it_R vi) (fun s s' => s' = setk (setr (setk s tn tf) tn) k f0) Hi) as [H1 H2].
  - by rewrite (one_type_has i _ _ Ht).
  - by rewrite (one_type_has i _ _ Ht).
  - done.
  - exact Hd.
  - intros s (Hpl & Hab & Hnd & Hrq). assert (Hn : assocd k (q_fields (o_field s)) = None) by (apply Hab; right; left).
    assert (Htn : assocd tn (q_fields (o_field s)) = None) by (apply Hab; left).
    assert (Hne : tn <> k). { apply NoDup_cons in Hnd as [Hnd _]. intros E. apply Hnd. cbn. apply elem_of_list_singleton. exact E. }
    eexists. split; [apply array_fld; [apply Hpl|done|done]|]. split; [done|]. cbn [vi GqlM.vitem it_pre]. fold tn tf f0. rewrite (array_setk s tn k tf f0 (proj1 Hpl) Htn Hn Hne).
    split_and!; [by apply grow_place| |].
    + split; [|done]. cbn [grow with_field o_field q_fields]. rewrite assocd_app, Hn. cbn. rewrite decide_False by done. by rewrite decide_True.
    + change (q_req (o_info (grow s ?L ?o ?T))) with (Some (T ++ default [] (q_req (o_info s)))). rewrite is_req_app. rewrite bool_decide_eq_false_2; [exact Hrq|].
      intros E%elem_of_list_singleton. by symmetry in E.
  - split; [done|]. cbn [GqlM.pitem vi e GqlM.vitem it_k it_r it_keys it_pre it_R e_k e_r e_ds e_S] in *. intros gs st vs ok Hkey Hgs Htop Hp Hf Hw.
    destruct (H2 gs st vs ok Hkey Hgs Htop Hp Hf Hw) as (Hok & s & N & Hr & HN & s' & -> & f & -> & Hgf & HS). clear H2. destruct Hp as (Hpl & Hab & Hnd & Hrq).
    assert (Hn : assocd k (q_fields (o_field (cur st P))) = None) by (apply Hab; right; left).
    assert (Htn : assocd tn (q_fields (o_field (cur st P))) = None) by (apply Hab; left).
    assert (Hne : tn <> k). { apply NoDup_cons in Hnd as [Hnd _]. intros E. apply Hnd. cbn. apply elem_of_list_singleton. exact E. }
    split; [done|]. eexists _, N. split; [exact Hr|]. split; [done|]. exists [(tn, tf); (k, f)], [tn; k; k], [tn].
    destruct (total_text_ok W o_quote o_trim A i k) as [Htg Htf].
    split_and!; [by apply array_grow; [apply Hpl|..]| | | | |done].
    + constructor; [done|]. constructor; [|constructor]. done.
    + intros n. cbn. rewrite !elem_of_cons. naive_solver.
    + intros n ->%elem_of_list_singleton. split; [left|done].
    + intros d Hd1 Hd2%elem_of_list_singleton. apply elem_of_cons in Hd1 as [->|Hd1]; [done|]. apply elem_of_list_singleton in Hd1 as ->. cbn in Hd2. by symmetry in Hd2.
Qed.
Lemma qdeclares_does :
  (forall P G dd k target null r t Ss, qholds P G dd k target null r t Ss -> field_name k -> exists i, d_inst false r = Ok i /\
     forall tp arr req desc name args, (arr = true -> target = "" -> n_target i = "") -> does_value tp P (vitem tp arr G dd k r i req desc name args target null (lst A arr t) Ss)) /\
  (forall P G dd req k r ds Ss, qdeclares P G dd req k r ds Ss -> k ∈ map qd_json ds /\ forall tp, does tp P (pitem tp G dd req (Ent k r ds Ss))) /\
  (forall P G dd reqs ps ds Ss, qdeclares_all P G dd reqs ps ds Ss ->
     exists es, map (fun e => (e_k e, e_r e)) es = ps /\ es ≫= e_ds = ds /\ es ≫= e_S = Ss /\ Forall own es /\
       forall tp, Forall (does tp P) (map (ritem tp G dd reqs) es)).
Proof.
  apply qdeclares_mutind.
  - intros P G dd k target null r i t b Hi Ht Hb Hk. exists i. split; [done|]. intros tp arr req desc name args Htg.
    assert (Hd : is_date i = false).
    { unfold is_date. rewrite (one_type_has i t _ Ht) by done. destruct (bool_decide ("string" = t)) eqn:E; [|done]. apply bool_decide_eq_true_1 in E as <-.
      unfold scalar_name in Hb. cbn in Hb. destruct (bool_decide (n_format i = "date-time")); done. }
    eapply (value_does_leaf _ _ _ _ _ _ _ t); [done|done|done|intros ->; done|intros ->; done|]. rewrite Hd, orb_false_r, list_target_same by done. by eapply scalar_text.
  - intros P G dd k target null r i Hi Ht Hfm Hk. exists i. split; [done|]. intros tp arr req desc name args Htg.
    eapply (value_does_leaf _ _ _ _ _ _ _ "string"); [done..|].
    assert (Hd : is_date i = true). { unfold is_date. rewrite (one_type_has i _ _ Ht) by done. by rewrite Hfm. }
    rewrite Hd, list_target_same by done. apply time_text.
  - intros P G dd k target null r i kp ps ds Ss Hi Ht Hps Hres _ IH Hnd Hndj Hndg Hk. exists i. split; [done|]. intros tp arr req desc name args Htg.
    destruct IH as (es & H1 & H2 & H3 & H4 & H5).
    assert (Hnp : no_props i = false). { unfold no_props. rewrite Hps. done. }
    assert (HD : dd || bool_decide (n_target i <> "") = bool_decide (n_target i <> "") || (dd || no_props i)). { rewrite Hnp, orb_false_r. apply orb_comm. }
    rewrite HD in *. eapply value_does_object; try done. intros null'. rewrite Hnp. by apply object_text.
  - intros P G dd k target null r i Hi Ht Hps Hk. exists i. split; [done|]. intros tp arr req desc name args Htg.
    assert (Hnp : no_props i = true). { unfold no_props. rewrite Hps. done. }
    assert (HD : bool_decide (n_target i <> "") || (dd || no_props i) = true). { rewrite Hnp. by rewrite !orb_true_r. }
    assert (H := value_does_object tp P G dd k r i [] [] [] [] req arr desc name args target null (lst A arr (QName (if decide (target = "") then "Any" else target) NNever)) Hk Hi Ht Hps Htg).
    rewrite HD in H. change (fields_by_name []) with (@nil qdecl) in H. apply H; try done.
    + by rewrite Hnp.
    + constructor.
    + constructor.
    + constructor.
    + intros null'. rewrite Hnp. apply any_text.
  - intros P G dd req k r i t Ss Hi Hk _ IH. split; [left|]. intros tp. destruct (IH Hk) as (i' & Hi' & Hd). rewrite Hi in Hi'. injection Hi' as <-.
    destruct (does_plain _ _ _ _ _ _ _ (Hd tp false req (n_desc i) (go_name title rename k) (n_gargs i) ltac:(done))) as [_ H]. split; [done|].
    cbn [GqlM.vitem GqlM.pitem it_k it_r it_keys it_pre it_R e_k e_r e_ds e_S] in *. intros gs st vs ok Hkey Hgs Htop (Hpl & Hab & Hnd & Hrq) Hf Hw.
    assert (Hn : assocd k (q_fields (o_field (cur st P))) = None) by (apply Hab; left).
    destruct (H gs st vs ok Hkey Hgs Htop) as (Hok & s & N & Hr & HN & f & -> & Hgf & HS); [by split_and!|done|done|].
    split; [done|]. eexists _, N. split; [exact Hr|]. split; [done|]. exists [(k, f)], [k], []. rewrite setk_grow by (done || apply Hpl).
    split_and!; [done| |done|by intros n Hn'%elem_of_nil|by intros d _ Hn'%elem_of_nil|done]. constructor; [|constructor]. done.
  - intros P G dd req k r i Hi Hk Ht. split; [left|]. intros tp.
    assert (Hd := value_does_leaf tp P G dd k r i "graphql-hydration" req false (n_desc i) (go_name title rename k) (n_gargs i) (n_target i) (nullable i) (QText (n_target i)) Hk Hi Ht ltac:(done) ltac:(done)).
    assert (Hdt : is_date i = false). { unfold is_date. by rewrite (one_type_has i _ _ Ht). }
    rewrite Hdt in Hd. specialize (Hd (virtual_text o_quote o_trim A _ _ _ _ _ _ _)).
    destruct (does_plain _ _ _ _ _ _ _ Hd) as [_ H]. split; [done|].
    cbn [GqlM.vitem GqlM.pitem it_k it_r it_keys it_pre it_R e_k e_r e_ds e_S] in *. intros gs st vs ok Hkey Hgs Htop (Hpl & Hab & Hnd & Hrq) Hf Hw.
    assert (Hn : assocd k (q_fields (o_field (cur st P))) = None) by (apply Hab; left).
    destruct (H gs st vs ok Hkey Hgs Htop) as (Hok & s & N & Hr & HN & f & -> & Hgf & HS); [by split_and!|done|done|].
    split; [done|]. eexists _, N. split; [exact Hr|]. split; [done|]. exists [(k, f)], [k], []. rewrite setk_grow by (done || apply Hpl).
    split_and!; [done| |done|by intros n Hn'%elem_of_nil|by intros d _ Hn'%elem_of_nil|done]. constructor; [|constructor]. done.
  - intros P G dd req k r i x j t Ss Hi Hk Ht Hx Hj Htg _ IH. split; [right; left|]. intros tp. destruct (IH Hk) as (j' & Hj' & Hd). rewrite Hj in Hj'. injection Hj' as <-.
    eapply does_list; [done..|]. by apply (Hd tp true).
  - intros P G dd req k r i x j Hi Hk Ht Hx Hj Hh. split; [right; left|]. intros tp. eapply does_list; [done..|].
    eapply (value_does_leaf _ _ _ _ _ _ _ "graphql-hydration"); [done..|].
    assert (Hdt : is_date j = false). { unfold is_date. by rewrite (one_type_has j _ _ Hh). }
    rewrite Hdt. match goal with |- qgood (qplain _ _ _ _ _ _ ?a _) (QDecl _ _ _ _ (QText ?b)) => assert (E : a = b) end; [|rewrite E; apply virtual_text].
    unfold list_target. cbn [andb]. destruct (decide (n_target i = "")) as [->|E1].
    + rewrite bool_decide_eq_true_2 by done. cbn [andb]. destruct (decide (n_target j = "")) as [->|E2].
      * by rewrite bool_decide_eq_false_2 by (by intros H; apply H).
      * rewrite bool_decide_eq_true_2 by done. unfold if_pointers. by destruct pointers, req.
    + by rewrite (bool_decide_eq_false_2 (n_target i = "")).
  - intros P G dd reqs. exists []. split_and!; [done..|constructor|]. intros tp. constructor.
  - intros P G dd reqs k r ds Ss ps ds' Ss' _ [Ho Hd] _ IH. destruct IH as (es & <- & <- & <- & H4 & H5). exists (Ent k r ds Ss :: es).
    split_and!; [done..|by constructor|]. intros tp. cbn [map]. constructor; [|apply H5]. apply Hd.
Qed.
End gql.

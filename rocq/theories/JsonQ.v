(** Declarations and the shape of their JSON types. *)
From stdpp Require Import strings list gmap.
From Coq Require Import Ascii ZArith Lia.
From Verif Require Import GoStr GoStrL Val Conv Schema Inst Load SpecPath SpecWalk SpecLoad WalkL Gen GenP GenM GenT GenL SortL SpecGen SpecNamed NamedL NamedK NamedF NamedU Avro GoSrc SpecAvro SpecGo GoSrcL GoSrcP GoSrcQ GoSrcA GoSrcB GoSrcC GoJson SpecJson JsonL JsonM JsonN JsonP.

Definition time_in (t : gtype) : bool := uses_time (GDecl "" "" "" true (Some t)).
Lemma uses_time_some desc go json req t : uses_time (GDecl desc go json req (Some t)) = time_in t.
Proof. done. Qed.
Section decls.
Context (o_unquote : string -> option string) (dt : bool) (f : rfile).
Context (Hprim : forall w, w ∈ go_prims -> assocd w (rf_types f) = None).
Context (title : string -> string) (rename : string -> option string) (pointers : bool).
Notation jty := (jty o_unquote f).
Notation jdecl := (jdecl o_unquote dt f).
Definition fine_type (t : gtype) : Prop := writable_type dt t = true /\ seen_type dt t = true /\ (time_in t = true -> "time" ∈ rf_imports f).
Definition fine (ds : list gdecl) : Prop := forallb (writable dt) ds = true /\ forallb (seen dt) ds = true /\ (existsb uses_time ds = true -> "time" ∈ rf_imports f).
Lemma fine_ptr b t : fine_type (SpecGen.ptr b t) -> fine_type t.
Proof. by destruct b. Qed.
Lemma fine_slice t : fine_type (TSlice t) -> fine_type t.
Proof. done. Qed.
Lemma fine_struct ds : fine_type (TStruct ds) -> fine ds.
Proof. done. Qed.
Lemma fine_perm ds ds' : ds ≡ₚ ds' -> fine ds -> fine ds'.
Proof. intros Hp (H1 & H2 & H3). unfold fine. by rewrite <- !(forallb_perm _ _ _ Hp), <- (existsb_perm _ _ _ Hp). Qed.
Lemma fine_cons d ds : fine (d :: ds) -> fine [d] /\ fine ds.
Proof.
  unfold fine. cbn [forallb existsb]. rewrite !andb_true_iff. intros ([H1 H2] & [H3 H4] & H5). split; split_and!; try done; intros H; apply H5; apply orb_true_iff; [|by right].
  left. by rewrite orb_false_r in H.
Qed.
Lemma fine_some desc go json req t : fine [GDecl desc go json req (Some t)] -> fine_type t.
Proof.
  unfold fine, fine_type. cbn [forallb existsb]. rewrite !andb_true_r, orb_false_r, writable_some, uses_time_some. cbn [seen]. rewrite !andb_true_iff. tauto.
Qed.
Definition types_ok (t : gtype) (y : jt) : Prop := jty (src_type dt t) y /\ is_ystruct y = struct_type t.
Lemma types_ptr b t y : types_ok t y -> types_ok (SpecGen.ptr b t) (yptr b y).
Proof. destruct b; [|done]. intros [H _]. split; [by apply jty_star|done]. Qed.
Lemma one_value flat desc go k req r i t y : d_inst false r = Ok i -> types_ok t y -> shp flat pointers req (nullable i) r y ->
  exists fs, jdecl (GDecl desc go k req (Some t)) fs /\ shpf flat pointers req k r fs.
Proof. intros Hi [Hj Hs] Hsh. eexists. split; [exists y; split; [done|reflexivity]|]. rewrite <- Hs. by eapply shpf_value. Qed.
Lemma one_array flat desc go k req r i x t y : d_inst false r = Ok i -> one_type i "array" -> n_items i = Some x -> types_ok t y -> shp flat pointers req (nullable i) x y ->
  exists fs, jdecl (GDecl desc go k req (Some (TSlice t))) fs /\ shpf flat pointers req k r fs.
Proof.
  intros Hi Ht Hx [Hj Hs] Hsh. eexists. split; [exists (YSlice y); split; [by apply jty_array|reflexivity]|]. cbn [struct_type negb]. rewrite andb_true_r, andb_false_r. by eapply shpf_array.
Qed.
Lemma shpf_not_leaf flat req k r fs : shpf flat pointers req k r fs -> ~ graphql_leaf r.
Proof.
  intros H. inversion H as [? ? ? i y Hi Hs|? ? ? i x y Hi Ht|? ? ? i x Hi Ht]; subst.
  - destruct (shp_type _ _ _ _ _ _ _ Hs Hi) as (t & Ht & _ & Hg). by eapply one_leaf.
  - by eapply one_leaf.
  - by eapply one_leaf.
Qed.
Lemma base_shape flat req null r i t b : d_inst false r = Ok i -> one_type i t -> base_type t (bool_decide (n_format i = "date-time")) = Some b ->
  exists y, types_ok (SpecGen.ptr null b) y /\ shp flat pointers req null r y.
Proof.
  intros Hi Ht Hb. destruct (jty_base o_unquote dt f Hprim _ _ _ Hb) as (y & Hy & Hj & H1 & H2). exists (yptr null y). split; [|by eapply shp_base]. apply types_ptr. split; [done|congruence].
Qed.
Lemma time_shape flat req null r i : fine_type (SpecGen.ptr ((pointers && negb req) || null) TTime) -> d_inst false r = Ok i -> one_type i "string" -> n_format i = "date-time" ->
  exists y, types_ok (SpecGen.ptr ((pointers && negb req) || null) TTime) y /\ shp flat pointers req null r y.
Proof.
  intros Hf%fine_ptr Hi Ht Hfm. eexists. split; [apply types_ptr; split; [apply jty_time; by apply Hf|reflexivity]|]. by eapply shp_time.
Qed.
Definition shaped flat (reqs : list string) (ps : list (string * tree)) (ds : list gdecl) : Prop :=
  exists fss, Forall2 jdecl ds fss /\ shps flat pointers reqs ps (List.concat fss) /\ (free_form ps <-> ds = []).
Lemma shaped_nil flat reqs : shaped flat reqs [] [].
Proof. exists []. split_and!; [constructor|constructor|]. split; [done|]. intros _. constructor. Qed.
Lemma shaped_leaf flat reqs k r ps ds : graphql_leaf r -> shaped flat reqs ps ds -> shaped flat reqs ((k, r) :: ps) ds.
Proof.
  intros Hl (fss & H1 & H2 & H3). exists fss. split_and!; [done|by constructor|]. rewrite <- H3. unfold free_form. rewrite Forall_cons. cbn. tauto.
Qed.
Lemma shaped_cons flat reqs k r ps d ds fs : jdecl d fs -> shpf flat pointers (bool_decide (k ∈ reqs)) k r fs -> shaped flat reqs ps ds -> shaped flat reqs ((k, r) :: ps) (d :: ds).
Proof.
  intros Hd Hs (fss & H1 & H2 & H3). exists (fs :: fss). split_and!; [by constructor|by constructor|]. split; [|done]. unfold free_form. rewrite Forall_cons. cbn. intros [Hl _].
  by apply shpf_not_leaf in Hs.
Qed.
Lemma shaped_struct flat reqs ps ds : shaped flat reqs ps ds -> fine (by_name ds) -> NoDup ps.*1 ->
  exists fs fs', shps flat pointers reqs ps fs /\ fs ≡ₚ fs' /\ jty (RStruct (flat_map (src_field dt) (by_name ds))) (YStruct fs').
Proof.
  intros (fss & H1 & H2 & _) (Hw & Hs & _) Hnd. destruct (struct_by_name o_unquote dt f flat pointers _ _ _ _ H1 H2 Hnd Hw Hs) as (fs' & Hp & Hj). by exists (List.concat fss), fs'.
Qed.
Lemma nested_shape : (forall req null r ty, holds title rename pointers req null r ty -> fine_type ty -> exists y, types_ok ty y /\ shp false pointers req null r y) /\
  (forall req k r d, declares title rename pointers req k r d -> fine [d] -> exists fs, jdecl d fs /\ shpf false pointers req k r fs) /\
  (forall reqs ps ds, declares_all title rename pointers reqs ps ds -> fine ds -> shaped false reqs ps ds).
Proof.
  apply declares_mutind.
  - intros req null r i t b Hi Ht Hb _. by eapply base_shape.
  - intros req null r i Hi Ht Hfm Hf. by eapply time_shape.
  - intros req null r i ps ds Hi Ht Hps _ IH Hnd Hnp Hf%fine_ptr. case_decide as E.
    + apply nil_length_inv in E as ->. destruct IH as (fss & _ & _ & Hff); [by split_and!|]. exists (yptr null YMap). split; [apply types_ptr; split; [apply jty_map|done]|].
      eapply shp_map; [done|done|done|by apply Hff|done].
    + apply fine_struct in Hf. assert (Hf' := fine_perm _ _ (by_name_perm ds) Hf). specialize (IH Hf'). destruct (shaped_struct _ _ _ _ IH Hf Hnp) as (fs & fs' & Hs & Hp & Hj).
      exists (yptr null (YStruct fs')). split; [apply types_ptr; split; [exact Hj|done]|]. eapply (shp_object false); [done|done|done| |done|done|done].
      destruct IH as (_ & _ & _ & Hff). rewrite Hff. by intros ->.
  - intros req k r i ty Hi Hk _ IH Hf. destruct (IH (fine_some _ _ _ _ _ Hf)) as (y & Hy & Hs). by eapply one_value.
  - intros req k r i x ty Hi Ht Hk Hx _ IH Hf. destruct (IH (fine_slice _ (fine_some _ _ _ _ _ Hf))) as (y & Hy & Hs). by eapply one_array.
  - intros req k r i x j Hi Ht Hk Hx Hj Hh _. exists []. split; [done|]. eapply shpf_none; [done..|by exists j].
  - intros reqs _. apply shaped_nil.
  - intros reqs k r i ps ds Hi Hh Hk _ IH Hf. apply shaped_leaf; [by exists i|by apply IH].
  - intros reqs k r d ps ds _ IH1 _ IH2 [Hf1 Hf2]%fine_cons. destruct (IH1 Hf1) as (fs & H1 & H2). eapply shaped_cons; [done..|by apply IH2].
Qed.
Context (Ss0 : gstructs).
Context (HS : forall n ds, (n, ds) ∈ Ss0 -> ds <> [] -> assocd n (rf_types f) = Some (RStruct (flat_map (src_field dt) ds)) /\ fine ds).
Lemma flat_shape :
  (forall P k req null r ty Ss, nholds title rename pointers P k req null r ty Ss -> (forall s, s ∈ Ss -> s ∈ Ss0) -> fine_type ty ->
    exists y, types_ok ty y /\ shp true pointers req null r y) /\
  (forall P req k r d Ss, ndeclares title rename pointers P req k r d Ss -> (forall s, s ∈ Ss -> s ∈ Ss0) -> fine [d] -> exists fs, jdecl d fs /\ shpf true pointers req k r fs) /\
  (forall P reqs ps ds Ss, ndeclares_all title rename pointers P reqs ps ds Ss -> (forall s, s ∈ Ss -> s ∈ Ss0) -> fine ds -> shaped true reqs ps ds).
Proof.
  apply ndeclares_mutind.
  - intros P k req null r i t b Hi Ht Hb _ _. by eapply base_shape.
  - intros P k req null r i Hi Ht Hfm _ Hf. by eapply time_shape.
  - intros P k req null r i ps d ds Ss Hi Ht Hps _ IH Hnd Hnp Hs _.
    assert (Hne : by_name (d :: ds) <> []). { intros E. assert (Hp := by_name_perm (d :: ds)). rewrite E in Hp. by apply Permutation_nil in Hp. }
    destruct (HS (P +:+ title k) (by_name (d :: ds))) as [Ha Hf]; [apply Hs; left|done|]. assert (Hf' := fine_perm _ _ (by_name_perm (d :: ds)) Hf).
    assert (IH' := IH (fun s H => Hs s (elem_of_list_further _ _ _ H)) Hf').
    destruct (shaped_struct _ _ _ _ IH' Hf Hnp) as (fs & fs' & Hsh & Hp & Hj).
    eexists (yptr _ (YStruct fs')). split; [apply types_ptr; split; [eapply jty_named; [exact Ha|exact Hj]|done]|].
    eapply (shp_object true); [done|done|done| |done|done|done]. destruct IH' as (_ & _ & _ & Hff). by rewrite Hff.
  - intros P k req null r i ps Ss Hi Ht Hps _ IH Hnp Hpt Hs _. destruct IH as (fss & _ & _ & Hff); [intros s H; apply Hs; by right|by split_and!|].
    exists (yptr null YMap). split; [apply types_ptr; split; [apply jty_map|done]|]. eapply shp_map; [done|done|done|by apply Hff|done].
  - intros P req k r i ty Ss Hi Hk _ IH Hs Hf. destruct (IH Hs (fine_some _ _ _ _ _ Hf)) as (y & Hy & Hsh). by eapply one_value.
  - intros P req k r i x ty Ss Hi Ht Hk Hx _ IH Hs Hf. destruct (IH Hs (fine_slice _ (fine_some _ _ _ _ _ Hf))) as (y & Hy & Hsh). by eapply one_array.
  - intros P req k r i x j Hi Ht Hk Hx Hj Hh _ _. exists []. split; [done|]. eapply shpf_none; [done..|by exists j].
  - intros P reqs _ _. apply shaped_nil.
  - intros P reqs k r i ps ds Ss Hi Hh Hk _ IH Hs Hf. apply shaped_leaf; [by exists i|by apply IH].
  - intros P reqs k r d ps ds Ss Ss' _ IH1 _ IH2 Hs [Hf1 Hf2]%fine_cons. destruct (IH1 (fun s H => Hs s (proj2 (elem_of_app _ _ _) (or_introl H))) Hf1) as (fs & H1 & H2).
    eapply shaped_cons; [done..|]. apply IH2; [|done]. intros s H. apply Hs, elem_of_app. by right.
Qed.
End decls.

(** ** end to end *)
Section file.
Context (W : oracles) (o_json_num : SpecFloat.spec_float -> string) (o_fold : string -> string) (o_unquote : string -> option string) (A : args) (root_name : string).
Notation title := (exported W).
Notation K0 := (title root_name).
Notation dt := (a_descTag A).
(** documents of the schema come out of the type of the struct *)
Definition survives (flat : bool) (f : rfile) (schema : instance) : Prop :=
  exists n y, (forall fuel, n <= fuel -> json_type o_unquote fuel f (RIdent K0) = Some y) /\
  forall kvs, fits_members W o_fold (n_required schema) (default [] (n_props schema)) kvs ->
  exists v es, unmarshal W o_fold y (JObj kvs) = Some v /\ marshal W o_json_num y v = Some (JObj es) /\
    members_out W o_json_num flat (a_pointers A) (n_required schema) (default [] (n_props schema)) kvs es.
Lemma shaped_survives flat f schema ds : shaped o_unquote dt f (a_pointers A) flat (n_required schema) (default [] (n_props schema)) ds ->
  fine dt f (by_name ds) -> NoDup (default [] (n_props schema)).*1 -> assocd K0 (rf_types f) = Some (RStruct (flat_map (src_field dt) (by_name ds))) -> survives flat f schema.
Proof.
  intros Hs Hf Hnd Ha. destruct (shaped_struct _ _ _ _ _ _ _ _ Hs Hf Hnd) as (fs & fs' & Hsh & Hp & Hj). destruct (jty_named _ _ _ _ _ Ha Hj) as [n Hn].
  exists n, (YStruct fs'). split; [done|]. intros kvs Hk. by eapply all_comes.
Qed.
Lemma json_nested ord schema ds : a_noNested A = false -> map_order ord -> n_items schema = None ->
  NoDup (default [] (n_props schema)).*1 ->
  declares_all title (a_fieldNames A) (a_pointers A) (n_required schema) (default [] (n_props schema)) ds -> NoDup (map d_go ds) ->
  embeds_as title (a_structNames A) (a_embed A) (n_allOf schema) [] ->
  capital K0 -> identifier K0 = true -> forallb (writable dt) ds = true -> forallb (seen dt) ds = true -> ds <> [] ->
  exists g, new_file W A ord schema root_name [] = Ok g /\ forall pkg ord', identifier pkg = true -> key_order ord' ->
    exists f, parse_go (file_text W A ord' pkg g) = Some f /\ survives false f schema.
Proof.
  intros Hn Ho Hit Hnd Hd Hndd Hes HK Hid Hw Hs Hne. destruct (nested_parsed W A root_name ord schema [] [] ds Hn Ho Hit Hnd Hd Hndd Hes Hid eq_refl Hw) as (g & Hg & Hp).
  exists g. split; [done|]. intros pkg ord' Hpk Ho'. eexists. split; [by apply Hp|].
  assert (Hne' : by_name ds <> []). { intros E. assert (Hq := by_name_perm ds). rewrite E in Hq. by apply Permutation_nil in Hq. }
  assert (Et : src_types dt [(K0, ([], by_name ds))] = [(K0, RStruct (flat_map (src_field dt) (by_name ds)))]) by (unfold src_types; cbn [flat_map fst snd]; by destruct (by_name ds)).
  cbn [app]. rewrite Et. set (f := RFile pkg (imports (existsb uses_time ds)) [(K0, RStruct (flat_map (src_field dt) (by_name ds)))]).
  assert (Hprim : forall w, w ∈ go_prims -> assocd w (rf_types f) = None).
  { intros w Hw'. cbn. rewrite decide_False; [done|]. intros <-. by apply (capital_prims K0 HK). }
  assert (Hf : fine dt f ds). { split_and!; [done..|]. intros E. cbn. rewrite E. left. }
  eapply shaped_survives; [by eapply nested_shape|eapply fine_perm; [|exact Hf]; by rewrite by_name_perm|done|]. cbn. by rewrite decide_True.
Qed.
Lemma assocd_src (L : list (string * (list string * list gdecl))) n ds : NoDup L.*1 -> (n, ([], ds)) ∈ L -> ds <> [] ->
  assocd n (src_types dt L) = Some (RStruct (flat_map (src_field dt) ds)).
Proof.
  intros Hnd Hin Hne. induction L as [|[k [es ds']] L IH]; [by apply elem_of_nil in Hin|]. cbn in Hnd. apply NoDup_cons in Hnd as [Hk Hnd]. unfold src_types. cbn [flat_map fst snd]. fold (src_types dt L).
  apply elem_of_cons in Hin as [[= <- <- <-]|Hin].
  - destruct ds; [done|]. cbn. by rewrite decide_True.
  - assert (n <> k) by (intros ->; apply Hk, elem_of_list_fmap; by exists (k, ([], ds))). destruct ds'; [by apply IH|]. cbn [app assocd]. rewrite decide_False by done. by apply IH.
Qed.
Lemma assocd_src_none (L : list (string * (list string * list gdecl))) n : n ∉ L.*1 -> assocd n (src_types dt L) = None.
Proof.
  induction L as [|[k [es ds']] L IH]; [done|]. intros [Hk Hn]%not_elem_of_cons. cbn in Hk. unfold src_types. cbn [flat_map fst snd]. fold (src_types dt L).
  destruct ds'; [by apply IH|]. cbn [app assocd]. rewrite decide_False by done. by apply IH.
Qed.
Lemma json_flat ord schema ds Ss : a_noNested A = true -> map_order ord -> n_items schema = None ->
  NoDup (default [] (n_props schema)).*1 ->
  ndeclares_all title (a_fieldNames A) (a_pointers A) K0 (n_required schema) (default [] (n_props schema)) ds Ss ->
  NoDup (map d_go ds) -> capital K0 -> NoDup (K0 :: Ss.*1) ->
  embeds_as title (a_structNames A) (a_embed A) (n_allOf schema) [] ->
  identifier K0 = true -> forallb (writable dt) ds = true -> forallb (seen dt) ds = true -> ds <> [] ->
  Forall (fun s => title s.1 = s.1 /\ identifier s.1 = true /\ forallb (writable dt) s.2 = true /\ forallb (seen dt) s.2 = true) Ss ->
  exists g, new_file W A ord schema root_name [] = Ok g /\ forall pkg ord', identifier pkg = true -> key_order ord' ->
    exists f, parse_go (file_text W A ord' pkg g) = Some f /\ survives true f schema.
Proof.
  intros Hn Ho Hit Hnd Hd Hndd HK HndS Hes Hid Hw Hs Hne HS.
  destruct (flat_parsed W A root_name ord schema [] [] ds Ss Hn Ho Hit Hnd Hd Hndd HK HndS Hes Hid eq_refl Hw) as (g & Hg & Hp). { eapply Forall_impl; [exact HS|]. by intros s (? & ? & ? & _). }
  exists g. split; [done|]. intros pkg ord' Hpk Ho'. eexists. split; [by apply Hp|].
  set (L := (K0, ([], by_name ds)) :: map (fun s : string * list gdecl => (s.1, ([] : list string, s.2))) (structs_by_name Ss)). change ([] ++ []) with (@nil string). fold L.
  assert (Hne' : by_name ds <> []). { intros E. assert (Hq := by_name_perm ds). rewrite E in Hq. by apply Permutation_nil in Hq. }
  assert (HL1 : L.*1 ≡ₚ K0 :: Ss.*1).
  { unfold L. rewrite fmap_cons. cbn [fst]. apply Permutation_skip. etrans; [|apply fmap_Permutation, (structs_by_name_perm Ss)]. clear. induction (structs_by_name Ss) as [|x l IH]; [done|]. cbn. by apply Permutation_skip. }
  set (f := RFile pkg _ (src_types dt L)).
  assert (Hcap : forall w, w ∈ K0 :: Ss.*1 -> capital w).
  { intros w [->|Hw']%elem_of_cons; [done|]. destruct (structs_objects _ _ _ _ _ _ _ _ Hd Hnd) as (l & Hl & _ & _). rewrite Hl in Hw'. apply elem_of_list_fmap in Hw' as (σ & -> & _). by apply capital_names. }
  assert (Hprim : forall w, w ∈ go_prims -> assocd w (rf_types f) = None).
  { intros w Hw'. apply assocd_src_none. rewrite HL1. intros H%Hcap. by apply (capital_prims w). }
  assert (Hf : fine dt f ds). { split_and!; [done..|]. intros E. cbn. rewrite E. left. }
  eapply shaped_survives; [|eapply fine_perm; [|exact Hf]; by rewrite by_name_perm|done|].
  - eapply (flat_shape o_unquote dt f Hprim title (a_fieldNames A) (a_pointers A) Ss); [|exact Hd|done|done].
    intros n ds' Hin Hne''. split.
    + apply assocd_src; [by rewrite HL1| |done]. right. apply elem_of_list_In, in_map_iff. exists (n, ds'). split; [done|]. apply elem_of_list_In. by rewrite structs_by_name_perm.
    + rewrite Forall_forall in HS. destruct (HS _ Hin) as (_ & _ & H1 & H2). split_and!; [done..|]. intros E. cbn. assert (Ex : existsb (fun s => existsb uses_time s.2) Ss = true).
      { apply existsb_exists. exists (n, ds'). split; [by apply elem_of_list_In|done]. } rewrite Ex, orb_true_r. left.
  - apply assocd_src; [by rewrite HL1|left|done].
Qed.
End file.

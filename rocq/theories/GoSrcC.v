(** Generated structs found again in their directory, and their Avro schema. *)
From stdpp Require Import strings list gmap.
From Coq Require Import Ascii ZArith Lia.
From Verif Require Import GoStr GoStrL Val Conv Schema Inst SpecPath SpecWalk SpecLoad WalkL Gen GenP GenM GenT SortL SpecGen SpecNamed NamedL NamedK NamedF NamedU Avro GoSrc SpecAvro AvroL AvroMapL SpecGo GoSrcL GoSrcP GoSrcQ GoSrcA GoSrcB.

(** ** declarations found by name *)
Notation gfile := (list (string * (list string * list gdecl))).
Lemma filter_src_field dt n d : n ∉ go_fields [d] -> omap (filter_field n) (src_field dt d) = [].
Proof.
  destruct d as [desc go json req [ty|]]; [|done]. rewrite src_some. intros H. cbn [omap list_omap filter_field].
  rewrite filter_cons_False; [done|]. intros ->. apply H. cbn. by left.
Qed.
Lemma go_fields_cons d ds : go_fields (d :: ds) = go_fields [d] ++ go_fields ds.
Proof. unfold go_fields. cbn [flat_map]. by rewrite app_nil_r. Qed.
Lemma filter_src_fields dt n ds : n ∉ go_fields ds -> omap (filter_field n) (flat_map (src_field dt) ds) = [].
Proof.
  induction ds as [|d ds IH]; [done|]. rewrite go_fields_cons, elem_of_app. intros H. cbn [flat_map]. rewrite omap_app, filter_src_field, IH by tauto. done.
Qed.
Lemma filter_embeds n embeds : n ∉ embeds -> omap (filter_field n) (map src_embed embeds) = [].
Proof.
  induction embeds as [|e es IH]; [done|]. rewrite elem_of_cons. intros H. cbn. rewrite decide_False; [apply IH; tauto|]. intros [= ->]. tauto.
Qed.
Lemma filter_other dt n k embeds ds : k <> n -> n ∉ embeds -> n ∉ go_fields ds -> filter_decl n (k, src_struct dt embeds ds) = None.
Proof. intros Hk He Hd. unfold filter_decl. cbn [fst snd]. rewrite decide_False by done. cbn. by rewrite omap_app, filter_embeds, filter_src_fields by done. Qed.
Lemma filter_none dt n (L : gfile) : n ∉ L.*1 -> Forall (fun s => n ∉ s.2.1 /\ n ∉ go_fields s.2.2) L -> omap (filter_decl n) (src_types dt L) = [].
Proof.
  intros Hn HL. induction HL as [|[k [embeds ds]] L [H1 H2] _ IH]; [done|]. cbn in Hn, H1, H2. apply not_elem_of_cons in Hn as [Hk Hn]. unfold src_types. cbn [flat_map snd fst].
  rewrite omap_app. fold (src_types dt L). rewrite IH by done. rewrite app_nil_r. destruct ds as [|d ds]; [done|]. cbn [omap list_omap]. by rewrite filter_other.
Qed.
Lemma find_decl dt n embeds ds (L : gfile) : (n, (embeds, ds)) ∈ L -> ds <> [] -> NoDup L.*1 -> Forall (fun s => n ∉ s.2.1 /\ n ∉ go_fields s.2.2) L ->
  omap (filter_decl n) (src_types dt L) = [(n, src_struct dt embeds ds)].
Proof.
  intros Hin Hne Hnd HL. induction HL as [|[k [es ds']] L [H1 H2] HL IH]; [by apply elem_of_nil in Hin|]. cbn in Hnd, H1, H2. apply NoDup_cons in Hnd as [Hk Hnd].
  unfold src_types. cbn [flat_map snd fst]. rewrite omap_app. fold (src_types dt L). apply elem_of_cons in Hin as [[= <- <- <-]|Hin].
  - rewrite filter_none by done. rewrite app_nil_r. destruct ds as [|d ds]; [done|]. cbn [omap list_omap]. unfold filter_decl. cbn [fst]. by rewrite decide_True.
  - rewrite IH by done. destruct ds' as [|d ds']; [done|]. cbn [omap list_omap]. rewrite filter_other; [done| |done|done].
    intros ->. apply Hk. apply elem_of_list_fmap. by exists (n, (embeds, ds)).
Qed.
Lemma find_first dt n embeds ds (L : gfile) : ds <> [] -> head (omap (filter_decl n) (src_types dt ((n, (embeds, ds)) :: L))) = Some (n, src_struct dt embeds ds).
Proof. intros H. unfold src_types. cbn [flat_map snd fst]. destruct ds as [|d ds]; [done|]. cbn. unfold filter_decl. cbn [fst]. by rewrite decide_True. Qed.
Lemma filter_names n (ts : list (string * rtype)) : n ∉ ts.*1 -> filter (fun d => d.1 = n) (omap (filter_decl n) ts) = [].
Proof.
  induction ts as [|[k t] ts IH]; [done|]. intros [Hk Hn]%not_elem_of_cons. cbn in Hk. cbn [omap list_omap]. destruct (filter_decl n (k, t)) as [[k' t']|] eqn:E; [|by apply IH].
  rewrite filter_cons_False; [by apply IH|]. cbn. unfold filter_decl in E. cbn [fst snd] in E. rewrite decide_False in E by done. destruct (filter_type n t) as [b u]. destruct b; [|done]. by injection E as <- <-.
Qed.
Lemma assocd_app {A} k (l1 l2 : list (string * A)) : k ∉ l1.*1 -> assocd k (l1 ++ l2) = assocd k l2.
Proof. induction l1 as [|[k' v] l1 IH]; [done|]. intros [Hk Hn]%not_elem_of_cons. cbn in Hk. cbn. rewrite decide_False by done. by apply IH. Qed.
Lemma in_file dir file pkg text names n r : among dir file pkg text names -> parse_go text = Some r ->
  struct_in_file dir file n = snd <$> head (filter_decls n r).
Proof.
  intros (d1 & text' & d2 & -> & Hgo & Hf & Hp & _) Hr. unfold struct_in_file. rewrite assocd_app by done. cbn. rewrite decide_True by done. by rewrite Hp, Hr.
Qed.
Lemma others_parsed pkg names (l : list (string * string)) : Forall (fun f : string * string => has_suffix ".go" f.1 = true ->
      exists r, parse_go f.2 = Some r /\ rf_package r = pkg /\ Forall (fun n => n ∉ (rf_types r).*1) names) l ->
  exists rs, mapM (fun f : string * string => parse_go f.2) (filter (fun f => has_suffix ".go" f.1 = true) l) = Some rs /\
    Forall (fun r => rf_package r = pkg /\ Forall (fun n => n ∉ (rf_types r).*1) names) rs.
Proof.
  induction 1 as [|f l Hf _ (rs & Hm & Hr)]; [by exists []|]. rewrite filter_cons. destruct (decide (has_suffix ".go" f.1 = true)) as [E|E]; [|by exists rs].
  destruct (Hf E) as (r & H1 & H2 & H3). exists (r :: rs). split; [|by constructor]. cbn [mapM]. rewrite H1. cbn. by rewrite Hm.
Qed.
Lemma mapM_app_some {A B} (f : A -> option B) l1 l2 r1 r2 : mapM f l1 = Some r1 -> mapM f l2 = Some r2 -> mapM f (l1 ++ l2) = Some (r1 ++ r2).
Proof. revert r1. induction l1 as [|x l1 IH]; intros r1 H1 H2; [by injection H1 as <-|]. cbn in *. destruct (f x) as [y|]; [|done]. cbn in *. destruct (mapM f l1) as [r|]; [|done]. injection H1 as <-. cbn. by rewrite (IH r). Qed.
Lemma in_dir dir file pkg text names n r d : among dir file pkg text names -> parse_go text = Some r -> rf_package r = pkg -> n ∈ names ->
  filter_decls n r = [(n, d)] -> struct_in_dir dir n = Some d.
Proof.
  intros (d1 & text' & d2 & -> & Hgo & Hf & Hp & Ho) Hr Hpk Hn Hd. apply Forall_app in Ho as [H1 H2].
  destruct (others_parsed _ _ _ H1) as (r1 & M1 & F1). destruct (others_parsed _ _ _ H2) as (r2 & M2 & F2).
  unfold struct_in_dir, parse_dir. rewrite filter_app, filter_cons_True by done.
  rewrite (mapM_app_some _ _ _ r1 (r :: r2)); [|done|cbn [mapM snd]; rewrite Hp, Hr; cbn; by rewrite M2].
  assert (Hone : one_package (r1 ++ r :: r2) = true).
  { assert (HF : Forall (fun g => rf_package g = pkg) (r1 ++ r :: r2)).
    { apply Forall_app. split; [eapply Forall_impl; [exact F1|by intros ? [? _]]|]. constructor; [done|]. eapply Forall_impl; [exact F2|by intros ? [? _]]. }
    destruct (r1 ++ r :: r2) as [|f fs] eqn:E; [by destruct r1|]. cbn. apply Forall_cons in HF as [Hf0 HF]. apply forallb_forall. intros g Hg%elem_of_list_In.
    rewrite Forall_forall in HF. apply bool_decide_eq_true. by rewrite Hf0, HF. }
  rewrite Hone. assert (Hnone : forall l, Forall (fun r => rf_package r = pkg /\ Forall (fun n => n ∉ (rf_types r).*1) names) l -> flat_map (fun f => map (fun _ => f) (named_decls n f)) l = []).
  { induction 1 as [|g l [_ Hg] _ IH]; [done|]. cbn. rewrite IH. rewrite app_nil_r. unfold named_decls, filter_decls. rewrite filter_names; [done|]. rewrite Forall_forall in Hg. by apply Hg. }
  rewrite flat_map_app. cbn [flat_map]. rewrite !Hnone by done. unfold named_decls. rewrite Hd. rewrite filter_cons_True by done. cbn. by rewrite Hd.
Qed.

(** ** Avro types exist *)
Section docs.
Context (dt : bool) (Ss0 : gstructs).
Definition has_avro (d : gdecl) : Prop := forall ns, exists docs, avro_fields dt Ss0 ns [d] docs.
Lemma avro_app ns d ds d1 d2 : avro_fields dt Ss0 ns [d] d1 -> avro_fields dt Ss0 ns ds d2 -> exists docs, avro_fields dt Ss0 ns (d :: ds) docs.
Proof. intros H1 H2. inversion H1; subst; eexists; by constructor. Qed.
Lemma all_avro ds ns : Forall has_avro ds -> exists docs, avro_fields dt Ss0 ns ds docs.
Proof. induction 1 as [|d ds Hd _ (docs & IH)]; [eexists; constructor|]. destruct (Hd ns) as [d1 H1]. by eapply avro_app. Qed.
Lemma some_avro desc go json req ty : (forall ns name, exists d, avro_type dt Ss0 ns name ty d) -> has_avro (GDecl desc go json req (Some ty)).
Proof. intros H ns. destruct (H ns json) as [d Hd]. eexists. constructor; [done|constructor]. Qed.
Lemma none_avro desc go json req : has_avro (GDecl desc go json req None).
Proof. intros ns. eexists. constructor. constructor. Qed.
Lemma ptr_avro b ty : (forall ns name, exists d, avro_type dt Ss0 ns name ty d) -> forall ns name, exists d, avro_type dt Ss0 ns name (ptr b ty) d.
Proof. intros H ns name. destruct (H ns name) as [d Hd]. exists d. destruct b; [by constructor|done]. Qed.
Lemma slice_avro ty : (forall ns name, exists d, avro_type dt Ss0 ns name ty d) -> forall ns name, exists d, avro_type dt Ss0 ns name (TSlice ty) d.
Proof. intros H ns name. destruct (H ns name) as [d Hd]. eexists. by constructor. Qed.
Lemma base_avro t b ty : base_type t b = Some ty -> forall ns name, exists d, avro_type dt Ss0 ns name ty d.
Proof. unfold base_type. intros H ns name. repeat case_decide; try discriminate; [..|destruct b; [discriminate|]]; injection H as <-; eexists; constructor. Qed.
Lemma avro_docs_some ns ds docs : avro_fields dt Ss0 ns ds docs -> go_fields ds <> [] -> docs <> [].
Proof. induction 1; intros Hg; [done| |done]. by apply IHavro_fields. Qed.
End docs.
Lemma nested_avro title rename pointers dt Ss0 : (forall req null r ty, holds title rename pointers req null r ty -> forall ns name, exists d, avro_type dt Ss0 ns name ty d) /\
  (forall req k r d, declares title rename pointers req k r d -> has_avro dt Ss0 d) /\
  (forall reqs ps ds, declares_all title rename pointers reqs ps ds -> Forall (has_avro dt Ss0) ds).
Proof.
  apply declares_mutind.
  - intros req null r i t b Hi Ht Hb. apply ptr_avro. by eapply base_avro.
  - intros req null r i Hi Ht Hf. apply ptr_avro. intros. eexists. constructor.
  - intros req null r i ps ds Hi Ht Hps _ IH Hnd Hnp. apply ptr_avro. intros ns name. case_decide; [eexists; constructor|].
    destruct (all_avro dt Ss0 (by_name ds) (ns ++ [name])) as [docs Hd]; [by rewrite by_name_perm|]. eexists. by constructor.
  - intros req k r i ty Hi Hk _ IH. by apply some_avro.
  - intros req k r i x ty Hi Ht Hk Hx _ IH. apply some_avro. by apply slice_avro.
  - intros req k r i x j Hi Ht Hk Hx Hj Hh. apply none_avro.
  - intros. constructor.
  - done.
  - intros. by constructor.
Qed.
Lemma flat_avro_docs title rename pointers dt Ss0 :
  (forall P k req null r ty Ss, nholds title rename pointers P k req null r ty Ss -> (forall s, s ∈ Ss -> s ∈ Ss0) -> forall ns name, exists d, avro_type dt Ss0 ns name ty d) /\
  (forall P req k r d Ss, ndeclares title rename pointers P req k r d Ss -> (forall s, s ∈ Ss -> s ∈ Ss0) -> has_avro dt Ss0 d) /\
  (forall P reqs ps ds Ss, ndeclares_all title rename pointers P reqs ps ds Ss -> (forall s, s ∈ Ss -> s ∈ Ss0) -> Forall (has_avro dt Ss0) ds).
Proof.
  apply ndeclares_mutind.
  - intros P k req null r i t b Hi Ht Hb _. apply ptr_avro. by eapply base_avro.
  - intros P k req null r i Hi Ht Hf _. apply ptr_avro. intros. eexists. constructor.
  - intros P k req null r i ps d ds Ss Hi Ht Hps _ IH Hnd Hnp Hs. apply ptr_avro. intros ns name.
    destruct (all_avro dt Ss0 (by_name (d :: ds)) (ns ++ [name])) as [docs Hd]; [rewrite by_name_perm; apply IH; intros s H; apply Hs; by right|].
    eexists. eapply avro_named; [apply Hs; left| |done]. intros E. assert (Hp := by_name_perm (d :: ds)). rewrite E in Hp. by apply Permutation_nil in Hp.
  - intros P k req null r i ps Ss Hi Ht Hps _ IH Hnd Hpt Hs. apply ptr_avro. intros. eexists. constructor.
  - intros P req k r i ty Ss Hi Hk _ IH Hs. apply some_avro. by apply IH.
  - intros P req k r i x ty Ss Hi Ht Hk Hx _ IH Hs. apply some_avro. apply slice_avro. by apply IH.
  - intros P req k r i x j Hi Ht Hk Hx Hj Hh Hs. apply none_avro.
  - intros. constructor.
  - intros P reqs k r i ps ds Ss Hi Hh Hk _ IH Hs. by apply IH.
  - intros P reqs k r d ps ds Ss Ss' _ IH1 _ IH2 Hs. constructor; [apply IH1|apply IH2]; intros s H; apply Hs, elem_of_app; tauto.
Qed.

(** ** end to end *)
Lemma forallb_perm {A} (f : A -> bool) l l' : l ≡ₚ l' -> forallb f l = forallb f l'.
Proof. induction 1; cbn; [done|by f_equal| |congruence]. by rewrite !andb_assoc, (andb_comm (f y)). Qed.
Lemma go_fields_perm ds ds' : ds ≡ₚ ds' -> go_fields ds ≡ₚ go_fields ds'.
Proof. unfold go_fields. induction 1; cbn; [done|by f_equiv| |by etrans]. rewrite !app_assoc. f_equiv. apply Permutation_app_comm. Qed.
Lemma go_fields_ne ds ds' : ds ≡ₚ ds' -> go_fields ds <> [] -> go_fields ds' <> [].
Proof. intros H%go_fields_perm Hn E. rewrite E in H. symmetry in H. by apply Permutation_nil in H. Qed.
Section file.
Context (W : oracles) (o_quote : string -> string) (o_unquote : string -> option string) (A : args) (root_name : string).
Notation title := (exported W).
Notation K0 := (title root_name).
Notation dt := (a_descTag A).

Lemma avro_nested ord schema ds : a_noNested A = false -> map_order ord -> n_items schema = None ->
  NoDup (default [] (n_props schema)).*1 ->
  declares_all title (a_fieldNames A) (a_pointers A) (n_required schema) (default [] (n_props schema)) ds -> NoDup (map d_go ds) ->
  embeds_as title (a_structNames A) (a_embed A) (n_allOf schema) [] ->
  identifier K0 = true -> ascii_text K0 = true -> forallb (writable dt) ds = true -> forallb (avro_ok dt) ds = true -> go_fields ds <> [] ->
  exists g docs, new_file W A ord schema root_name [] = Ok g /\ avro_fields dt [] [] (by_name ds) docs /\
  forall pkg ord' dir file, identifier pkg = true -> key_order ord' -> among dir file pkg (file_text W A ord' pkg g) [] ->
  exists s n, text (record_doc [] K0 (write_time :: deleted :: docs)) s /\ forall fuel, n <= fuel -> avro_schema o_unquote W o_quote fuel dir K0 file = Some (Ok s).
Proof.
  intros Hn Ho Hit Hnd Hd Hndd Hes Hid Has Hw Ha Hg. destruct (gen_file W A ord schema root_name [] [] ds Hn Ho Hit Hnd Hd Hndd Hes) as (g & Hgen & Ht).
  destruct (all_avro dt [] (by_name ds) []) as [docs Hdocs]; [rewrite by_name_perm; by eapply nested_avro|].
  exists g, docs. split; [done|]. split; [done|]. intros pkg ord' dir file Hpk Ho' Ham.
  assert (Hp : parse_go (file_text W A ord' pkg g) = Some (RFile pkg (imports (existsb uses_time (by_name ds))) (src_types dt [(K0, ([], by_name ds))]))).
  { rewrite Ht by done. apply show_file_parsed; [done|done|done|]. by rewrite (forallb_perm _ _ _ (by_name_perm ds)). }
  assert (Hne : by_name ds <> []). { intros E. apply (go_fields_ne ds (by_name ds)) in Hg; [by rewrite E in Hg|]. by rewrite by_name_perm. }
  unfold avro_schema. rewrite (in_file _ _ _ _ _ K0 _ Ham Hp). unfold filter_decls. cbn [rf_types]. rewrite find_first by done. cbn [fmap option_fmap option_map snd].
  assert (HF := proj2 (stands_ok W o_unquote (sources_of o_unquote dir) dt [] (fun n ds H => match not_elem_of_nil _ H with end) (Forall_nil_2 _)) _ _ _ Hdocs).
  destruct (avro_file_thm W o_quote (sources_of o_unquote dir) K0 (afields_of o_unquote dt (by_name ds)) docs []) as (s & n & T & H).
  - by apply ascii_plain.
  - apply HF; [by rewrite (forallb_perm _ _ _ (by_name_perm ds))..|constructor].
  - constructor.
  - eapply avro_docs_some; [exact Hdocs|]. eapply go_fields_ne; [|exact Hg]. by rewrite by_name_perm.
  - exists s, n. split; [done|]. intros fuel Hf. unfold src_struct. cbn [map app]. cbn [to_texpr]. unfold afields_of in H. by rewrite H.
Qed.
Lemma capital_names P σ : capital P -> capital (type_name title P σ).
Proof. revert P. induction σ as [|s σ IH]; intros P HP; [done|]. cbn. destruct s; apply IH; try done. by apply capital_app. Qed.
Lemma capital_prims s : capital s -> s ∉ go_prims.
Proof.
  intros (c & s' & -> & Hc) H. unfold go_prims in H. rewrite !elem_of_cons in H. repeat (destruct H as [H|H]; [injection H as -> _; vm_compute in Hc; destruct Hc as [H1 H2]; by apply H2 || by apply H1|]). by apply elem_of_nil in H.
Qed.
Lemma avro_flat ord schema ds Ss : a_noNested A = true -> map_order ord -> n_items schema = None ->
  NoDup (default [] (n_props schema)).*1 ->
  ndeclares_all title (a_fieldNames A) (a_pointers A) K0 (n_required schema) (default [] (n_props schema)) ds Ss ->
  NoDup (map d_go ds) -> capital K0 -> NoDup (K0 :: Ss.*1) ->
  embeds_as title (a_structNames A) (a_embed A) (n_allOf schema) [] ->
  identifier K0 = true -> ascii_text K0 = true -> forallb (writable dt) ds = true -> forallb (avro_ok dt) ds = true -> go_fields ds <> [] ->
  Forall (fun s => title s.1 = s.1 /\ identifier s.1 = true /\ forallb (writable dt) s.2 = true /\ forallb (avro_ok dt) s.2 = true) Ss ->
  Forall (fun n => n ∉ go_fields ds /\ Forall (fun s => n ∉ go_fields s.2) Ss) Ss.*1 ->
  exists g docs, new_file W A ord schema root_name [] = Ok g /\ avro_fields dt Ss [] (by_name ds) docs /\
  forall pkg ord' dir file, identifier pkg = true -> key_order ord' -> among dir file pkg (file_text W A ord' pkg g) Ss.*1 ->
  exists s n, text (record_doc [] K0 (write_time :: deleted :: docs)) s /\ forall fuel, n <= fuel -> avro_schema o_unquote W o_quote fuel dir K0 file = Some (Ok s).
Proof.
  intros Hn Ho Hit Hnd Hd Hndd HK HndS Hes Hid Has Hw Ha Hg HS Hclash. destruct (own_names W A root_name _ _ _ _ Hd Hnd HndS) as [Hinj Hroot].
  destruct (objects_file W A root_name ord schema [] [] ds Ss Hn Ho Hit Hnd Hd Hndd HK Hinj Hroot Hes) as (g & Hgen & Ht).
  destruct (all_avro dt Ss (by_name ds) []) as [docs Hdocs]; [rewrite by_name_perm; by eapply flat_avro_docs|].
  exists g, docs. split; [done|]. split; [done|]. intros pkg ord' dir file Hpk Ho' Ham.
  set (L := (K0, ([], by_name ds)) :: map (fun s : string * list gdecl => (s.1, ([] : list string, s.2))) (structs_by_name Ss)).
  assert (Hp : exists im, parse_go (file_text W A ord' pkg g) = Some (RFile pkg im (src_types dt L))).
  { eexists. rewrite Ht by done. rewrite show_structs_parsed; [|done|done|done|by rewrite (forallb_perm _ _ _ (by_name_perm ds))|].
    - do 4 f_equal. apply map_ext_in. intros s Hs%elem_of_list_In. rewrite structs_by_name_perm in Hs. rewrite Forall_forall in HS. by destruct (HS s Hs) as [-> _].
    - rewrite structs_by_name_perm. eapply Forall_impl; [exact HS|]. intros s (-> & ? & ? & _). done. }
  destruct Hp as [im Hp].
  assert (HL1 : L.*1 ≡ₚ K0 :: Ss.*1).
  { unfold L. rewrite fmap_cons. cbn [fst]. apply Permutation_skip. etrans; [|apply fmap_Permutation, (structs_by_name_perm Ss)]. clear. induction (structs_by_name Ss) as [|x l IH]; [done|]. cbn. by apply Permutation_skip. }
  assert (Hne : by_name ds <> []). { intros E. apply (go_fields_ne ds (by_name ds)) in Hg; [by rewrite E in Hg|]. by rewrite by_name_perm. }
  assert (HE : forall n dsn, (n, dsn) ∈ Ss -> dsn <> [] -> n ∉ go_prims /\ src_dir (sources_of o_unquote dir) n = Some (EStruct (afields_of o_unquote dt dsn))).
  { intros n dsn Hin Hnen. assert (Hn1 : n ∈ Ss.*1) by (apply elem_of_list_fmap; by exists (n, dsn)). split.
    - apply capital_prims. destruct (structs_objects _ _ _ _ _ _ _ _ Hd Hnd) as (l & Hl & _ & _). rewrite Hl in Hn1. apply elem_of_list_fmap in Hn1 as (σ & -> & _). by apply capital_names.
    - unfold sources_of. cbn [src_dir]. rewrite (in_dir dir file pkg _ _ n _ (src_struct dt [] dsn) Ham Hp); [done|done|done|].
      unfold filter_decls. cbn [rf_types]. apply find_decl; [|done|by rewrite HL1|].
      + unfold L. right. apply elem_of_list_In, in_map_iff. exists (n, dsn). split; [done|]. apply elem_of_list_In. by rewrite structs_by_name_perm.
      + rewrite Forall_forall in Hclash. destruct (Hclash n Hn1) as [H1 H2]. constructor.
        * cbn. split; [apply not_elem_of_nil|]. by rewrite (go_fields_perm _ _ (by_name_perm ds)).
        * apply Forall_forall. intros x Hx. apply elem_of_list_In, in_map_iff in Hx as (s & <- & Hs%elem_of_list_In). cbn. split; [apply not_elem_of_nil|].
          rewrite structs_by_name_perm in Hs. rewrite Forall_forall in H2. by apply H2. }
  unfold avro_schema. rewrite (in_file _ _ _ _ _ K0 _ Ham Hp). unfold filter_decls. cbn [rf_types]. unfold L. rewrite find_first by done. cbn [fmap option_fmap option_map snd].
  assert (HSS : Forall (fun s : string * list gdecl => forallb (avro_ok dt) s.2 = true /\ forallb (writable dt) s.2 = true) Ss) by (eapply Forall_impl; [exact HS|]; by intros s (_ & _ & ? & ?)).
  assert (HF := proj2 (stands_ok W o_unquote (sources_of o_unquote dir) dt Ss HE HSS) _ _ _ Hdocs).
  destruct (avro_file_thm W o_quote (sources_of o_unquote dir) K0 (afields_of o_unquote dt (by_name ds)) docs []) as (s & n & T & H).
  - by apply ascii_plain.
  - apply HF; [by rewrite (forallb_perm _ _ _ (by_name_perm ds))..|constructor].
  - constructor.
  - eapply avro_docs_some; [exact Hdocs|]. eapply go_fields_ne; [|exact Hg]. by rewrite by_name_perm.
  - exists s, n. split; [done|]. intros fuel Hf. unfold src_struct. cbn [map app]. cbn [to_texpr]. unfold afields_of in H. by rewrite H.
Qed.
End file.

(** ** tags in files *)
Section tags.
Context (W : oracles) (o_unquote : string -> option string) (A : args) (root_name : string).
Notation title := (exported W).
Notation K0 := (title root_name).
Notation dt := (a_descTag A).
Notation reads lit desc json req ty := (reads_back o_unquote lit (json +:+ json_option req ty) (read_desc dt desc)).
Lemma tag_reads desc json req ty : desc_ok dt desc = true -> quotable json = true -> (dt = true -> quotable (first_line desc) = true) ->
  reads ("`" +:+ tag_of dt desc json req ty +:+ "`") desc json req ty.
Proof. intros Hd Hj Hq. unfold reads_back. rewrite trim_literal by (done || by apply raw_quotable). by rewrite get_json, get_desc. Qed.
Lemma one_tag desc go json req ty : desc_ok dt desc = true -> quotable json = true -> (dt = true -> quotable (first_line desc) = true) ->
  exists lit, src_field dt (GDecl desc go json req (Some ty)) = [RField [go] (src_type dt ty) (Some lit)] /\ reads lit desc json req ty.
Proof. intros. eexists. split; [apply src_some|by apply tag_reads]. Qed.
Lemma field_written ds desc go json req ty : GDecl desc go json req (Some ty) ∈ ds ->
  RField [go] (src_type dt ty) (Some ("`" +:+ tag_of dt desc json req ty +:+ "`")) ∈ flat_map (src_field dt) ds.
Proof.
  intros H%elem_of_list_In. apply elem_of_list_In, in_flat_map. eexists. split; [exact H|]. rewrite src_some. by left.
Qed.
Lemma tag_in_types L n embeds ds desc go json req ty : (n, (embeds, ds)) ∈ L -> GDecl desc go json req (Some ty) ∈ ds ->
  desc_ok dt desc = true -> quotable json = true -> (dt = true -> quotable (first_line desc) = true) ->
  exists fs lit, (n, RStruct fs) ∈ src_types dt L /\ RField [go] (src_type dt ty) (Some lit) ∈ fs /\ reads lit desc json req ty.
Proof.
  intros HL Hin Hd Hj Hq. eexists _, _. split; [|split; [|by apply tag_reads]].
  - unfold src_types. apply elem_of_list_In, in_flat_map. exists (n, (embeds, ds)). split; [by apply elem_of_list_In|]. cbn [fst snd]. destruct ds as [|d ds]; [by apply elem_of_nil in Hin|]. by left.
  - apply elem_of_app. right. by apply field_written.
Qed.
Lemma in_perm_by_name d ds : d ∈ ds -> d ∈ by_name ds.
Proof. by rewrite by_name_perm. Qed.
Lemma existsb_perm {T} (f : T -> bool) l l' : l ≡ₚ l' -> existsb f l = existsb f l'.
Proof. induction 1; cbn; [done|by f_equal| |congruence]. by rewrite !orb_assoc, (orb_comm (f y)). Qed.
Lemma nested_parsed ord schema embeds es ds : a_noNested A = false -> map_order ord -> n_items schema = None ->
  NoDup (default [] (n_props schema)).*1 ->
  declares_all title (a_fieldNames A) (a_pointers A) (n_required schema) (default [] (n_props schema)) ds -> NoDup (map d_go ds) ->
  embeds_as title (a_structNames A) (a_embed A) (n_allOf schema) es ->
  identifier K0 = true -> forallb identifier (embeds ++ es) = true -> forallb (writable dt) ds = true ->
  exists g, new_file W A ord schema root_name embeds = Ok g /\ forall pkg ord', identifier pkg = true -> key_order ord' ->
    parse_go (file_text W A ord' pkg g) = Some (RFile pkg (imports (existsb uses_time ds)) (src_types dt [(K0, (embeds ++ es, by_name ds))])).
Proof.
  intros Hn Ho Hit Hnd Hd Hndd Hes Hid He Hw. destruct (gen_file W A ord schema root_name embeds es ds Hn Ho Hit Hnd Hd Hndd Hes) as (g & Hgen & Ht).
  exists g. split; [done|]. intros pkg ord' Hpk Ho'. rewrite Ht by done. rewrite show_file_parsed; [|done|done|done|by rewrite (forallb_perm _ _ _ (by_name_perm ds))].
  by rewrite (existsb_perm _ _ _ (by_name_perm ds)).
Qed.
Lemma flat_parsed ord schema embeds es ds Ss : a_noNested A = true -> map_order ord -> n_items schema = None ->
  NoDup (default [] (n_props schema)).*1 ->
  ndeclares_all title (a_fieldNames A) (a_pointers A) K0 (n_required schema) (default [] (n_props schema)) ds Ss ->
  NoDup (map d_go ds) -> capital K0 -> NoDup (K0 :: Ss.*1) ->
  embeds_as title (a_structNames A) (a_embed A) (n_allOf schema) es ->
  identifier K0 = true -> forallb identifier (embeds ++ es) = true -> forallb (writable dt) ds = true ->
  Forall (fun s => title s.1 = s.1 /\ identifier s.1 = true /\ forallb (writable dt) s.2 = true) Ss ->
  exists g, new_file W A ord schema root_name embeds = Ok g /\ forall pkg ord', identifier pkg = true -> key_order ord' ->
    parse_go (file_text W A ord' pkg g) = Some (RFile pkg (imports (existsb uses_time ds || existsb (fun s => existsb uses_time s.2) Ss))
      (src_types dt ((K0, (embeds ++ es, by_name ds)) :: map (fun s => (s.1, ([], s.2))) (structs_by_name Ss)))).
Proof.
  intros Hn Ho Hit Hnd Hd Hndd HK HndS Hes Hid He Hw HS. destruct (own_names W A root_name _ _ _ _ Hd Hnd HndS) as [Hinj Hroot].
  destruct (objects_file W A root_name ord schema embeds es ds Ss Hn Ho Hit Hnd Hd Hndd HK Hinj Hroot Hes) as (g & Hgen & Ht).
  exists g. split; [done|]. intros pkg ord' Hpk Ho'. rewrite Ht by done. rewrite show_structs_parsed; [|done|done|done|by rewrite (forallb_perm _ _ _ (by_name_perm ds))|].
  - rewrite (existsb_perm _ _ _ (by_name_perm ds)), (existsb_perm _ _ _ (structs_by_name_perm Ss)). do 4 f_equal. apply map_ext_in. intros s Hs%elem_of_list_In. rewrite structs_by_name_perm in Hs. rewrite Forall_forall in HS. by destruct (HS s Hs) as [-> _].
  - rewrite structs_by_name_perm. eapply Forall_impl; [exact HS|]. intros s (-> & ? & ?). done.
Qed.
Lemma nested_tags ord schema embeds es ds : a_noNested A = false -> map_order ord -> n_items schema = None ->
  NoDup (default [] (n_props schema)).*1 ->
  declares_all title (a_fieldNames A) (a_pointers A) (n_required schema) (default [] (n_props schema)) ds -> NoDup (map d_go ds) ->
  embeds_as title (a_structNames A) (a_embed A) (n_allOf schema) es ->
  identifier K0 = true -> forallb identifier (embeds ++ es) = true -> forallb (writable dt) ds = true ->
  exists g, new_file W A ord schema root_name embeds = Ok g /\ forall pkg ord', identifier pkg = true -> key_order ord' ->
    exists f fs, parse_go (file_text W A ord' pkg g) = Some f /\ rf_types f = (if decide (ds = []) then [] else [(K0, RStruct fs)]) /\
    forall desc go json req ty, GDecl desc go json req (Some ty) ∈ ds -> quotable json = true -> (dt = true -> quotable (first_line desc) = true) ->
    exists lit, RField [go] (src_type dt ty) (Some lit) ∈ fs /\ reads lit desc json req ty.
Proof.
  intros Hn Ho Hit Hnd Hd Hndd Hes Hid He Hw. destruct (nested_parsed ord schema embeds es ds Hn Ho Hit Hnd Hd Hndd Hes Hid He Hw) as (g & Hg & Hp).
  exists g. split; [done|]. intros pkg ord' Hpk Ho'. eexists _, (map src_embed (embeds ++ es) ++ flat_map (src_field dt) (by_name ds)). split; [by apply Hp|]. split.
  - cbn [rf_types]. unfold src_types. cbn [flat_map fst snd]. rewrite app_nil_r. assert (Hpm := by_name_perm ds). destruct (by_name ds) as [|x l] eqn:E.
    + apply Permutation_nil in Hpm. by rewrite decide_True.
    + rewrite decide_False; [done|]. intros ->. symmetry in Hpm. by apply Permutation_nil in Hpm.
  - intros desc go json req ty Hin Hj Hq. assert (Hdo : desc_ok dt desc = true).
    { apply elem_of_list_In in Hin. assert (Hx := proj1 (forallb_forall _ _) Hw _ Hin). rewrite writable_some in Hx. by apply andb_true_iff in Hx as [? _]. }
    eexists. split; [|by apply tag_reads]. apply elem_of_app. right. apply field_written. by apply in_perm_by_name.
Qed.
Lemma flat_tags ord schema embeds es ds Ss : a_noNested A = true -> map_order ord -> n_items schema = None ->
  NoDup (default [] (n_props schema)).*1 ->
  ndeclares_all title (a_fieldNames A) (a_pointers A) K0 (n_required schema) (default [] (n_props schema)) ds Ss ->
  NoDup (map d_go ds) -> capital K0 -> NoDup (K0 :: Ss.*1) ->
  embeds_as title (a_structNames A) (a_embed A) (n_allOf schema) es ->
  identifier K0 = true -> forallb identifier (embeds ++ es) = true -> forallb (writable dt) ds = true ->
  Forall (fun s => title s.1 = s.1 /\ identifier s.1 = true /\ forallb (writable dt) s.2 = true) Ss ->
  exists g, new_file W A ord schema root_name embeds = Ok g /\ forall pkg ord', identifier pkg = true -> key_order ord' ->
    exists f, parse_go (file_text W A ord' pkg g) = Some f /\
    forall n ds', (n, ds') ∈ (K0, ds) :: Ss ->
    forall desc go json req ty, GDecl desc go json req (Some ty) ∈ ds' -> quotable json = true -> (dt = true -> quotable (first_line desc) = true) ->
    exists fs lit, (n, RStruct fs) ∈ rf_types f /\ RField [go] (src_type dt ty) (Some lit) ∈ fs /\ reads lit desc json req ty.
Proof.
  intros Hn Ho Hit Hnd Hd Hndd HK HndS Hes Hid He Hw HS. destruct (flat_parsed ord schema embeds es ds Ss Hn Ho Hit Hnd Hd Hndd HK HndS Hes Hid He Hw HS) as (g & Hg & Hp).
  exists g. split; [done|]. intros pkg ord' Hpk Ho'. eexists. split; [by apply Hp|]. intros n ds' Hn' desc go json req ty Hin Hj Hq. cbn [rf_types].
  apply elem_of_cons in Hn' as [[= -> ->]|Hn'].
  - eapply tag_in_types; [left|by apply in_perm_by_name| |done|done]. apply elem_of_list_In in Hin. assert (Hx := proj1 (forallb_forall _ _) Hw _ Hin). rewrite writable_some in Hx. by apply andb_true_iff in Hx as [? _].
  - eapply tag_in_types; [right; apply elem_of_list_In, in_map_iff; exists (n, ds'); split; [done|]; apply elem_of_list_In; by rewrite structs_by_name_perm|done| |done|done].
    rewrite Forall_forall in HS. destruct (HS _ Hn') as (_ & _ & Hw'). cbn in Hw'. apply elem_of_list_In in Hin. assert (Hx := proj1 (forallb_forall _ _) Hw' _ Hin). rewrite writable_some in Hx. by apply andb_true_iff in Hx as [? _].
Qed.
End tags.

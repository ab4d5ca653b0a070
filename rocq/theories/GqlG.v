(** Types of GraphQL documents and Go structs, for schemas made of others. *)
From stdpp Require Import strings list gmap.
From Coq Require Import Ascii Lia.
From Verif Require Import GoStr GoStrL Val Conv Schema Inst Load SpecPath SpecWalk SpecLoad SpecGen SpecNamed SpecGql SpecDoc SpecMade WalkL Gen Gql GenL GenP SortL GqlM GqlC GqlD GqlE.
Set Default Proof Using "Type".

Section go.
Context (W : oracles) (o_trim : string -> string) (A : gargs).
Notation rename := (a_fieldNames (ga A)).
Notation types_map := (ga_types A).
Notation title := (exported W).
Notation lower := (go_lower W).
Notation structs_map := (a_structNames (ga A)).
Notation pointers := (a_pointers (ga A)).
Notation trim := (trim_space o_trim).
Notation doc_types := (doc_types title lower structs_map types_map).
Notation doc_parts := (doc_parts title lower structs_map rename types_map pointers trim).
Notation declares_part := (declares_part title lower structs_map rename types_map pointers trim).
Notation go_struct := (go_struct title structs_map).
Notation bound := (go_fields (is_total title rename trim)).
Notation makes m g := (ndeclares_all title rename pointers (title (go_struct (file_of m))) (n_required m) (default [] (n_props m)) g.1 g.2).

Lemma part_bound impl m c (g : list gdecl * gstructs) : declares_part impl (file_of m) m c -> makes m g ->
  bound (target_in (default [] (n_props m))) (p_S c) (p_ds c) g.1 /\
  (forall s, s ∈ p_S c -> exists fs, (qs_key s, fs) ∈ g.2 /\ bound (target_in (default [] (n_props m))) (p_S c) (qs_fields s) fs).
Proof.
  intros [(_ & _ & Hq & _) _] Hg. exact (proj2 (proj2 (qdeclares_bound title rename types_map pointers trim)) _ _ _ _ _ _ _ Hq _ _ Hg).
Qed.
Lemma members_go file name pkg schema cs os own gas gos t : doc_parts file schema cs os own -> length (n_allOf schema) <= 1 ->
  n_allOf schema <> [] \/ n_oneOf schema <> [] ->
  Forall2 (fun a g => makes a g) (n_allOf schema) gas -> Forall2 (fun m g => makes m g) (n_oneOf schema) gos ->
  t ∈ doc_types name pkg file schema cs os own -> t.1.1 = "type" ->
  exists fs, (qs_key t.2, fs) ∈ made_structs title structs_map schema gas gos /\
    bound (fun n => exists m, m ∈ n_allOf schema ++ n_oneOf schema /\ target_in (default [] (n_props m)) n) (all_S cs ++ all_S os) (qs_fields t.2) fs.
Proof.
  intros (Hcs & _ & _ & Hos & _) Hlen Hsome Hgas Hgos Ht Hkind.
  assert (Hall : forall j a c g, n_allOf schema !! j = Some a -> cs !! j = Some c -> gas !! j = Some g -> 
    bound (target_in (default [] (n_props a))) (p_S c) (p_ds c) g.1 /\
    (forall s, s ∈ p_S c -> exists fs, (qs_key s, fs) ∈ g.2 /\ bound (target_in (default [] (n_props a))) (p_S c) (qs_fields s) fs)).
  { intros j a c g Ha Hc Hg. apply (part_bound false).
    - pose proof (Forall2_lookup_lr _ _ _ _ _ _ Hcs Ha Hc) as H. unfold first_file in H. destruct (n_allOf schema) as [|a0 [|a1 l]]; [done| |cbn in Hlen; lia].
      destruct j as [|j]; [|done]. by injection Ha as ->.
    - exact (Forall2_lookup_lr _ _ _ _ _ _ Hgas Ha Hg). }
  assert (HS : forall j (c : SpecDoc.part) s, cs !! j = Some c -> s ∈ p_S c -> s ∈ all_S cs ++ all_S os).
  { intros j c s Hc Hs. apply elem_of_app. left. apply elem_of_list_bind. exists c. split; [done|]. by eapply elem_of_list_lookup_2. }
  assert (HSo : forall j (c : SpecDoc.part) s, os !! j = Some c -> s ∈ p_S c -> s ∈ all_S cs ++ all_S os).
  { intros j c s Hc Hs. apply elem_of_app. right. apply elem_of_list_bind. exists c. split; [done|]. by eapply elem_of_list_lookup_2. }
  set (T := fun n => exists m, m ∈ n_allOf schema ++ n_oneOf schema /\ target_in (default [] (n_props m)) n).
  assert (HTa : forall j a n, n_allOf schema !! j = Some a -> target_in (default [] (n_props a)) n -> T n).
  { intros j a n Ha Hn. exists a. split; [apply elem_of_app; left; by eapply elem_of_list_lookup_2|done]. }
  assert (HTo : forall j a n, n_oneOf schema !! j = Some a -> target_in (default [] (n_props a)) n -> T n).
  { intros j a n Ha Hn. exists a. split; [apply elem_of_app; right; by eapply elem_of_list_lookup_2|done]. }
  (* the fields of the members of allOf *)
  assert (Hcommon : bound T (all_S cs ++ all_S os) (all_ds cs) (embedded_fields gas)).
  { intros d Hd Hv Hto. apply elem_of_list_bind in Hd as (c & Hd & Hc). apply elem_of_list_lookup in Hc as [j Hc].
    destruct (Forall2_lookup_r _ _ _ _ _ Hcs Hc) as (a & Ha & _). destruct (Forall2_lookup_l _ _ _ _ _ Hgas Ha) as (g & Hg & _).
    destruct (Hall j a c g Ha Hc Hg) as [H _]. assert (Hb : bound T (all_S cs ++ all_S os) (p_ds c) (embedded_fields gas)); [|exact (Hb d Hd Hv Hto)]. eapply bound_mono; [| | |exact H].
    - intros n. by eapply HTa.
    - intros s. by eapply HS.
    - intros x Hx. apply elem_of_list_bind. exists g. split; [by rewrite by_name_perm|by eapply elem_of_list_lookup_2]. }
  unfold made_structs. apply doc_types_in in Ht as [[Hh [->|(x & -> & Hx & _)]]|[(j & m & c & Hm & Hc & [->|(x & -> & Hx & _)])|(Ha & Ho & _)]].
  - (* the common type *) cbn in Hkind. unfold kind_of in Hkind. destruct (n_oneOf schema) eqn:Eo; [|done].
    destruct (n_allOf schema) as [|a [|a1 l]] eqn:Ea; [by destruct Hsome| |cbn in Hlen; lia].
    inversion Hgas as [|? g ? ? _ Hnil]; subst. inversion Hnil; subst. exists (by_name g.1). split.
    + apply elem_of_app. left. apply elem_of_list_join. eexists. split; [|apply elem_of_list_singleton; reflexivity]. cbn [snd common_type qs_key]. rewrite Eo. unfold first_file. rewrite Ea. left.
    + cbn [snd common_type qs_fields]. intros d Hd. rewrite fields_by_name_perm in Hd. pose proof (Hcommon d Hd) as H. unfold embedded_fields in H. cbn in H. by rewrite app_nil_r in H.
  - (* its types *) apply elem_of_list_bind in Hx as (c & Hx & Hc). apply elem_of_list_lookup in Hc as [j Hc].
    destruct (Forall2_lookup_r _ _ _ _ _ Hcs Hc) as (a & Ha & _). destruct (Forall2_lookup_l _ _ _ _ _ Hgas Ha) as (g & Hg & _).
    destruct (Hall j a c g Ha Hc Hg) as [_ H]. destruct (H x Hx) as (fs & Hfs & Hb). exists fs. split.
    + apply elem_of_app. left. apply elem_of_list_join. eexists. split; [|apply elem_of_lookup_zip_with; exists j, a, g; done]. by right.
    + eapply bound_mono; [| | |exact Hb]; [intros n; by eapply HTa|intros s; by eapply HS|done].
  - destruct (Forall2_lookup_l _ _ _ _ _ Hgos Hm) as (g & Hg & Hgm). destruct (Forall2_lookup_lr _ _ _ _ _ _ Hos Hm Hc) as [Hd _].
    destruct (part_bound _ _ _ _ Hd Hgm) as [H _]. exists (by_name g.1 ++ embedded_fields gas). split.
    + apply elem_of_app. right. apply elem_of_list_join. eexists. split; [|apply elem_of_lookup_zip_with; exists j, m, g; done]. left.
    + cbn [snd member_type qs_fields]. intros d Hd' Hv Hto. rewrite fields_by_name_perm in Hd'. apply elem_of_app in Hd' as [Hd'|Hd'].
      * destruct (Hcommon d Hd' Hv Hto) as (x & ty & Hx & H'). exists x, ty. split; [|done]. apply elem_of_app. by right.
      * assert (Hb : bound T (all_S cs ++ all_S os) (p_ds c) (by_name g.1 ++ embedded_fields gas)); [|exact (Hb d Hd' Hv Hto)]. eapply bound_mono; [| | |exact H]; [intros n; by eapply HTo|intros s; by eapply HSo|].
        intros x Hx. apply elem_of_app. left. by rewrite by_name_perm.
  - destruct (Forall2_lookup_l _ _ _ _ _ Hgos Hm) as (g & Hg & Hgm). destruct (Forall2_lookup_lr _ _ _ _ _ _ Hos Hm Hc) as [Hd _].
    destruct (part_bound _ _ _ _ Hd Hgm) as [_ H]. destruct (H x Hx) as (fs & Hfs & Hb). exists fs. split.
    + apply elem_of_app. right. apply elem_of_list_join. eexists. split; [|apply elem_of_lookup_zip_with; exists j, m, g; done]. by right.
    + eapply bound_mono; [| | |exact Hb]; [intros n; by eapply HTo|intros s; by eapply HSo|done].
  - by destruct Hsome.
Qed.
End go.

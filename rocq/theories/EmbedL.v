(** Proofs about the Avro schema of structs that embed others. *)
From stdpp Require Import strings list gmap.
From Coq Require Import Ascii ZArith Lia.
From Verif Require Import GoStr GoStrL Val Conv Schema Inst SpecPath SpecWalk SpecLoad WalkL Gen GenP GenM GenT SortL SpecGen SpecNamed NamedL NamedK NamedF NamedU Avro GoSrc SpecAvro AvroL AvroMapL SpecGo GoSrcL GoSrcP GoSrcQ GoSrcA GoSrcB GoSrcC SpecEmbed.

Section embed.
Context (W : oracles) (o_quote : string -> string) (o_unquote : string -> option string) (dt : bool).
Notation lower := (go_lower W).
Notation afields_of := (afields_of o_unquote dt).
Definition embed_fields (es : list string) : list afield := map (fun e => AField [] (EIdent e) "" "") es.

Lemma afields_cons d ds : afields_of (d :: ds) = afields_of [d] ++ afields_of ds.
Proof. unfold GoSrcA.afields_of. cbn [flat_map]. by rewrite app_nil_r, map_app. Qed.
Lemma afields_none desc go json req : afields_of [GDecl desc go json req None] = [].
Proof. done. Qed.
Lemma afields_some desc go json req ty : exists t j d, afields_of [GDecl desc go json req (Some ty)] = [AField [go] t j d].
Proof. unfold GoSrcA.afields_of. cbn [flat_map]. rewrite app_nil_r, src_some. cbn. eauto. Qed.
Lemma afields_names ds : go_names (afields_of ds) = go_fields ds.
Proof.
  induction ds as [|d ds IH]; [done|]. rewrite afields_cons, go_fields_cons. unfold go_names in *. rewrite omap_app, IH. f_equal.
  destruct d as [desc go json req [ty|]]; [|done]. destruct (afields_some desc go json req ty) as (t & j & x & ->). done.
Qed.
Lemma embed_names es fs : go_names (embed_fields es ++ fs) = go_names fs.
Proof. unfold go_names. rewrite omap_app. replace (omap _ (embed_fields es)) with (@nil string); [done|]. by induction es. Qed.
Lemma kept_cons out d ds : kept out (d :: ds) = if decide (d_go d ∉ out) then d :: kept out ds else kept out ds.
Proof. unfold kept. by rewrite filter_cons. Qed.
Lemma last_cons_ne {X} (x : X) l : l <> [] -> last (x :: l) = last l.
Proof. by destruct l. Qed.
Lemma own_fields E ns out own ds : (forall g, last (go_fields ds) = Some g -> g ∉ out) ->
  forall docs, fields lower E ns [] own (afields_of (kept out ds)) docs [] -> fields lower E ns out own (afields_of ds) docs [].
Proof.
  induction ds as [|d ds IH]; intros Hl docs.
  - intros H. inversion H; subst. constructor.
  - assert (Hl' : forall g, last (go_fields ds) = Some g -> g ∉ out).
    { intros g Hg. apply Hl. rewrite go_fields_cons. destruct (go_fields ds) as [|x l] eqn:E0; [done|]. rewrite last_app. by rewrite Hg. }
    rewrite kept_cons, (afields_cons d ds). destruct d as [desc go json req [ty|]]; cbn [d_go].
    2: { rewrite afields_none. cbn [app]. intros H. apply IH; [done|]. by destruct (decide (go ∉ out)); [rewrite afields_cons, afields_none in H|]. }
    destruct (afields_some desc go json req ty) as (t & j & x & E1). destruct (decide (go ∉ out)) as [Hn|Hn].
    + rewrite afields_cons, E1. cbn [app]. intros H. inversion H; subst; [set_solver|]. 
      match goal with H : ?a ++ ?b = [] |- _ => apply app_eq_nil in H as [-> ->] end. change (@nil string) with ([] ++ @nil string) at 2. apply fields_own; [done..|by apply IH].
    + intros H. rewrite E1. cbn [app]. apply dec_stable in Hn. apply fields_left_out; [done| |by apply IH].
      intros E2. apply (Hl go); [|done]. rewrite go_fields_cons. assert (E3 : go_fields ds = []) by (rewrite <- afields_names, E2; done). by rewrite E3.
Qed.

Context (G : string -> option (list string * list gdecl)) (dir : list (string * string)).
Notation E := (sources_of o_unquote dir).
Context (HG : forall e es ds, G e = Some (es, ds) -> declares_struct dt lower dir e es ds /\ ascii_text e = true /\ forallb (avro_ok dt) ds = true /\ forallb (writable dt) ds = true).

Lemma struct_texpr es ds : to_texpr o_unquote (src_struct dt es ds) = EStruct (embed_fields es ++ afields_of ds).
Proof. unfold src_struct. cbn [to_texpr]. f_equal. rewrite map_app. f_equal. unfold embed_fields. rewrite map_map. done. Qed.
Lemma declares_found e es ds : declares_struct dt lower dir e es ds -> declared_in lower E e (EStruct (embed_fields es ++ afields_of ds)).
Proof.
  intros (c & rest & text & r & Hs & Ha & Hp & Hh). exists c, rest. split; [done|]. cbn [sources_of src_file]. unfold struct_in_file. rewrite Ha, Hp.
  unfold filter_decls. destruct (rf_types r) as [|d l]; [done|]. injection Hh as ->. cbn. unfold filter_decl at 1. cbn [fst]. rewrite decide_True by done. cbn. by rewrite <- struct_texpr.
Qed.
Lemma forallb_kept (f : gdecl -> bool) out ds : forallb f ds = true -> forallb f (kept out ds) = true.
Proof. rewrite !forallb_forall. intros H d Hd%elem_of_list_In. apply elem_of_list_filter in Hd as [_ Hd%elem_of_list_In]. by apply H. Qed.
Lemma struct_fields ns out es ds docs seen : avro_struct dt G ns out es ds docs seen ->
  forallb (avro_ok dt) ds = true -> forallb (writable dt) ds = true -> Forall plain_text ns ->
  fields lower E ns out (go_fields ds) (embed_fields es ++ afields_of ds) docs seen.
Proof.
  induction 1 as [ns out ds docs Ha Hl|ns out e es ds es' ds' docs' docs seen' seen HGe Hs' IH' Hne Hs IH]; intros Hok Hw Hns.
  - cbn [embed_fields map app]. apply own_fields; [done|].
    apply (proj2 (stands_ok W o_unquote E dt [] (fun n ds H => match not_elem_of_nil _ H with end) (Forall_nil_2 _)) _ _ _ Ha); [by apply forallb_kept..|done].
  - destruct (HG _ _ _ HGe) as (Hd & Hasc & Hok' & Hw'). cbn [embed_fields map app].
    eapply (fields_embedded lower E ns out (go_fields ds) e "" "" (embed_fields es' ++ afields_of ds')); [by apply declares_found| |done|by apply IH].
    rewrite embed_names, afields_names. apply IH'; [done..|]. apply Forall_app. split; [done|]. constructor; [by apply ascii_plain|constructor].
Qed.
Lemma struct_schema K0 file es ds docs seen : avro_struct dt G [] [] es ds docs seen -> NoDup seen -> docs <> [] -> ascii_text K0 = true ->
  forallb (avro_ok dt) ds = true -> forallb (writable dt) ds = true -> struct_in_file dir file K0 = Some (src_struct dt es ds) ->
  exists s n, text (record_doc [] K0 (write_time :: deleted :: docs)) s /\ forall fuel, n <= fuel -> avro_schema o_unquote W o_quote fuel dir K0 file = Some (Ok s).
Proof using HG.
  intros Hs Hnd Hne Has Hok Hw Hf. destruct (avro_file_thm W o_quote E K0 (embed_fields es ++ afields_of ds) docs seen) as (s & n & T & H).
  - by apply ascii_plain.
  - rewrite embed_names, afields_names. apply struct_fields; [done..|constructor].
  - done.
  - done.
  - exists s, n. split; [done|]. intros fuel Hfu. unfold avro_schema. rewrite Hf, struct_texpr. by rewrite H.
Qed.
End embed.
Lemma avro_embeds W o_quote o_unquote A root_name ord schema embeds es ds G docs seen (dt := a_descTag A) (title := exported W) : a_noNested A = false -> map_order ord -> n_items schema = None ->
  NoDup (default [] (n_props schema)).*1 ->
  declares_all title (a_fieldNames A) (a_pointers A) (n_required schema) (default [] (n_props schema)) ds -> NoDup (map d_go ds) ->
  embeds_as title (a_structNames A) (a_embed A) (n_allOf schema) es ->
  identifier (title root_name) = true -> ascii_text (title root_name) = true -> forallb identifier (embeds ++ es) = true ->
  forallb (writable dt) ds = true -> forallb (avro_ok dt) ds = true -> ds <> [] ->
  avro_struct dt G [] [] (embeds ++ es) (by_name ds) docs seen -> NoDup seen -> docs <> [] ->
  exists g, new_file W A ord schema root_name embeds = Ok g /\
  forall pkg ord' dir file text', identifier pkg = true -> key_order ord' -> assocd file dir = Some text' -> parse_go text' = parse_go (file_text W A ord' pkg g) ->
  (forall e es ds, G e = Some (es, ds) -> declares_struct dt (go_lower W) dir e es ds /\ ascii_text e = true /\ forallb (avro_ok dt) ds = true /\ forallb (writable dt) ds = true) ->
  exists s n, text (record_doc [] (title root_name) (write_time :: deleted :: docs)) s /\
    forall fuel, n <= fuel -> avro_schema o_unquote W o_quote fuel dir (title root_name) file = Some (Ok s).
Proof.
  intros Hn Ho Hit Hnd Hd Hndd Hes Hid Has Hids Hw Ha Hne Hs Hseen Hdocs.
  destruct (nested_parsed W A root_name ord schema embeds es ds Hn Ho Hit Hnd Hd Hndd Hes Hid Hids Hw) as (g & Hg & Hp).
  exists g. split; [done|]. intros pkg ord' dir file text' Hpk Ho' Hf Ht HG.
  assert (Hb : by_name ds <> []). { intros E. assert (H := by_name_perm ds). rewrite E in H. by apply Permutation_nil in H. }
  eapply (struct_schema W o_quote o_unquote dt G dir HG); [exact Hs|done|done|done|by rewrite (forallb_perm _ _ _ (by_name_perm ds))..|].
  unfold struct_in_file. rewrite Hf, Ht, (Hp pkg ord' Hpk Ho'). unfold filter_decls. cbn [rf_types]. by rewrite find_first.
Qed.

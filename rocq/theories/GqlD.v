(** Properties of GraphQL documents. *)
From stdpp Require Import strings list gmap.
From Coq Require Import Ascii ZArith Lia.
From Verif Require Import GoStr GoStrL Val Conv Schema Inst Load SpecPath PathL SpecWalk WalkL SpecLoad FlatL SpecGen SpecNamed SpecGql Gen Avro Gql GenL SortL GenP GenM GenT NamedL NamedT NamedF NamedK GqlL GqlM GqlT GqlF GqlB GqlC SpecDoc.

Lemma contains_join_nl (l : list string) x : x ∈ l -> contains (newline +:+ join newline l) (newline +:+ x).
Proof.
  induction l as [|y l IH]; intros H; [by apply elem_of_nil in H|]. apply elem_of_cons in H as [->|H].
  - destruct l; [apply contains_refl|]. rewrite join_cons_ne, app_assoc_s. apply contains_r, contains_refl.
  - destruct l as [|z l]; [by apply elem_of_nil in H|]. rewrite join_cons_ne. do 2 apply contains_l. apply IH, H.
Qed.
Lemma description_end p desc : description_text p desc = "" \/ exists y, description_text p desc = y +:+ newline.
Proof.
  unfold description_text. case_decide; [by left|]. right. destruct (split desc newline) as [|a [|b l]].
  - eexists. by rewrite !app_assoc_s.
  - eexists. by rewrite !app_assoc_s.
  - eexists. by rewrite !app_assoc_s.
Qed.

Section text.
Set Default Proof Using "Type".
Context (title lower : string -> string) (structs_map rename types_map : string -> option string) (pointers : bool) (quote trim : string -> string) (import : string).
Notation show_field := (show_field quote trim).
Notation show_type := (show_type title quote trim import).
Notation document := (document title lower structs_map types_map quote trim import).
Notation doc_types := (doc_types title lower structs_map types_map).
Notation declares_part := (declares_part title lower structs_map rename types_map pointers trim).
Notation doc_parts := (doc_parts title lower structs_map rename types_map pointers trim).
Notation qholds := (qholds title rename types_map pointers trim).
Notation qdeclares := (qdeclares title rename types_map pointers trim).
Notation qdeclares_all := (qdeclares_all title rename types_map pointers trim).
Notation tname := (SpecNamed.type_name title).
Notation pointer_mark := (pointer_mark pointers).
Notation plain_line := (plain_line quote trim).
Notation list_line := (list_line quote trim).
Definition line (required : bool) (d : qdecl) : string :=
  newline +:+ "  " +:+ qd_json d +:+ args_text d +:+ ": " +:+ qtype_text required (qd_type d) +:+
  (if is_list (qd_type d) then " @goField(forceResolver: true)" else "") +:+ deprecated_mark quote trim (qd_desc d) +:+ newline.
Lemma line_in_field req d : contains (newline +:+ show_field req d) (line req d).
Proof.
  unfold SpecGql.show_field, line, deprecated_mark. set (x := match deprecation trim (qd_desc d) with Some (_, rest) => rest | None => qd_desc d end).
  destruct (description_end "  " x) as [->|[y ->]]; [apply contains_refl|]. rewrite <- app_assoc_s. apply contains_l, contains_l, contains_refl.
Qed.
Lemma line_in_type kind impl s d : d ∈ qs_fields s -> contains (show_type kind impl s) (line (bool_decide (qd_json d ∈ qs_req s)) d).
Proof.
  intros Hd. unfold SpecGql.show_type. do 8 apply contains_l. rewrite app_assoc_s. apply contains_r. eapply contains_trans; [|apply line_in_field].
  apply contains_join_nl. apply elem_of_list_fmap. by exists d.
Qed.

(** ** every type is there *)
Lemma live_in Ss s : s ∈ live (types_by_name Ss) <-> exists x, s = ("type", "", x) /\ x ∈ Ss /\ qs_dead x = false.
Proof.
  clear. unfold live. rewrite elem_of_list_fmap. setoid_rewrite elem_of_list_filter. setoid_rewrite (types_by_name_perm Ss). (clear; naive_solver).
Qed.
Definition in_doc (t : string * string * qstruct) (name pkg file : string) (schema : instance) (cs os : list part) (own : part) : Prop :=
  (has_all schema = true /\ (t = (kind_of schema, "", common_type title structs_map types_map pkg schema cs) \/ exists x, t = ("type", "", x) /\ x ∈ all_S cs /\ qs_dead x = false)) \/
  (exists j m c, n_oneOf schema !! j = Some m /\ os !! j = Some c /\
     (t = (kind_of m, implemented title types_map name schema, member_type title lower structs_map types_map (has_all schema) cs m c) \/ exists x, t = ("type", "", x) /\ x ∈ p_S c /\ qs_dead x = false)) \/
  (n_allOf schema = [] /\ n_oneOf schema = [] /\ (t = ("type", "", own_type title lower structs_map types_map file schema own) \/ exists x, t = ("type", "", x) /\ x ∈ p_S own /\ qs_dead x = false)).
Lemma doc_types_in t name pkg file schema cs os own : t ∈ doc_types name pkg file schema cs os own <-> in_doc t name pkg file schema cs os own.
Proof.
  unfold SpecDoc.doc_types, in_doc. cbn zeta.
  change (t ∈ (if has_all schema then (kind_of schema, "", common_type title structs_map types_map pkg schema cs) :: live (types_by_name (all_S cs)) else []) ++
    mjoin (zip_with (fun m c => (kind_of m, implemented title types_map name schema, member_type title lower structs_map types_map (has_all schema) cs m c) :: live (types_by_name (p_S c))) (n_oneOf schema) os) ++
    match n_allOf schema, n_oneOf schema with [], [] => ("type", "", own_type title lower structs_map types_map file schema own) :: live (types_by_name (p_S own)) | _, _ => [] end <-> in_doc t name pkg file schema cs os own).
  unfold in_doc.
  rewrite !elem_of_app. f_equiv; [|f_equiv].
  - destruct (has_all schema); [|split; [by intros ?%elem_of_nil|(clear; naive_solver)]]. rewrite elem_of_cons, live_in. (clear; naive_solver).
  - rewrite elem_of_list_join. setoid_rewrite elem_of_lookup_zip_with. split.
    + intros (l & Ht & j & m & c & -> & Hm & Hc). exists j, m, c. split; [done|]. split; [done|]. by rewrite elem_of_cons, live_in in Ht.
    + intros (j & m & c & Hm & Hc & Ht). eexists. split; [|by exists j, m, c]. by rewrite elem_of_cons, live_in.
  - destruct (n_allOf schema), (n_oneOf schema); [|split; [by intros ?%elem_of_nil|(clear; naive_solver)]..]. rewrite elem_of_cons, live_in. (clear; naive_solver).
Qed.

(** ** references *)
Lemma doc_refs name pkg file schema cs os own : doc_parts file schema cs os own ->
  forall t d n, t ∈ doc_types name pkg file schema cs os own -> d ∈ qs_fields t.2 -> refers_to (qd_type d) = Some n ->
  n ∈ given_types \/ (exists m, m ∈ schema :: n_allOf schema ++ n_oneOf schema /\ target_in (default [] (n_props m)) n) \/
  exists t', t' ∈ doc_types name pkg file schema cs os own /\ qs_name t'.2 = n.
Proof.
  intros (HC & _ & _ & HO & Hown) t d n Ht Hd Hn. rewrite doc_types_in in Ht. setoid_rewrite doc_types_in.
  assert (Hpart : forall impl f m c, declares_part impl f m c ->
    (forall d, d ∈ p_ds c -> refers_to (qd_type d) = Some n -> ref_in (target_in (default [] (n_props m))) (p_S c) n) /\
    all_refs (target_in (default [] (n_props m))) (p_S c) (p_S c)).
  { intros impl f m c [(_ & _ & Hq & _) _]. destruct (proj2 (proj2 (qdeclares_refs title rename types_map pointers trim)) _ _ _ _ _ _ _ Hq) as [H1 H2]. split; [|done].
    intros d' Hd'. by apply H1. }
  assert (Hall : forall d, has_all schema = true -> d ∈ all_ds cs \/ (exists x, x ∈ all_S cs /\ qs_dead x = false /\ d ∈ qs_fields x) -> refers_to (qd_type d) = Some n ->
    exists m, m ∈ n_allOf schema /\ ref_in (target_in (default [] (n_props m))) (all_S cs) n).
  { intros d' _ Hd' Hn'.
    assert (exists c, c ∈ cs /\ (d' ∈ p_ds c \/ exists x, x ∈ p_S c /\ qs_dead x = false /\ d' ∈ qs_fields x)) as (c & Hc & Hdc).
    { destruct Hd' as [(c & Hx & Hc)%elem_of_list_bind|(x & (c & Hx & Hc)%elem_of_list_bind & H)]; exists c; (split; [done|]); [by left|right; by exists x]. }
    apply elem_of_list_lookup in Hc as [j Hc]. destruct (Forall2_lookup_r _ _ _ _ _ HC Hc) as (m & Hm & Hmc). exists m. split; [by eapply elem_of_list_lookup_2|].
    destruct (Hpart _ _ _ _ Hmc) as [H1 H2]. assert (Hin : forall s, s ∈ p_S c -> s ∈ all_S cs). { intros s Hs. apply elem_of_list_bind. exists c. split; [done|]. by eapply elem_of_list_lookup_2. }
    destruct Hdc as [Hdc|(x & Hx & Hl & Hdx)]; (eapply ref_mono; [done|exact Hin|]); [by eapply H1|by eapply H2]. }
  assert (Hlift : forall m Ss, m ∈ n_allOf schema ++ n_oneOf schema -> ref_in (target_in (default [] (n_props m))) Ss n ->
    (forall s, s ∈ Ss -> qs_dead s = false -> in_doc ("type", "", s) name pkg file schema cs os own) ->
    n ∈ given_types \/ (exists m, m ∈ schema :: n_allOf schema ++ n_oneOf schema /\ target_in (default [] (n_props m)) n) \/ exists t', in_doc t' name pkg file schema cs os own /\ qs_name t'.2 = n).
  { intros m Ss Hm [H|[H|(s & Hs & Hl & <-)]] Hin; [by left|right; left; exists m; split; [by right|done]|]. right; right. exists ("type", "", s). split; [by apply Hin|done]. }
  destruct Ht as [[Hh Ht]|[(j & m & c & Hm & Hc & Ht)|(Ha & Ho & Ht)]].
  - destruct (Hall d Hh) as (m & Hm & Hr); [|done|].
    { destruct Ht as [->|(x & -> & Hx & Hl)]; [left|right; by exists x]. cbn [common_type qs_fields snd] in Hd. by rewrite fields_by_name_perm in Hd. }
    eapply (Hlift m); [apply elem_of_app; by left|exact Hr|]. intros s Hs Hl. left. split; [done|]. right. by exists s.
  - destruct (Forall2_lookup_l _ _ _ _ _ HO Hm) as (c' & Hc' & Hmc & _). assert (c' = c) as -> by congruence. destruct (Hpart _ _ _ _ Hmc) as [H1 H2].
    assert (Hown' : ref_in (target_in (default [] (n_props m))) (p_S c) n -> n ∈ given_types \/ (exists m, m ∈ schema :: n_allOf schema ++ n_oneOf schema /\ target_in (default [] (n_props m)) n) \/ exists t', in_doc t' name pkg file schema cs os own /\ qs_name t'.2 = n).
    { intros Hr. eapply (Hlift m); [apply elem_of_app; right; by eapply elem_of_list_lookup_2|exact Hr|]. intros s Hs Hl. right; left. exists j, m, c. split_and!; [done..|]. right. by exists s. }
    destruct Ht as [->|(x & -> & Hx & Hl)]; [|apply Hown'; by eapply H2].
    cbn [member_type qs_fields snd] in Hd. rewrite fields_by_name_perm in Hd. apply elem_of_app in Hd as [Hd|Hd]; [|apply Hown'; by eapply H1].
    destruct (has_all schema) eqn:Hh.
    + destruct (Hall d eq_refl) as (m' & Hm' & Hr); [by left|done|]. eapply (Hlift m'); [apply elem_of_app; by left|exact Hr|]. intros s Hs Hl. left. split; [done|]. right. by exists s.
    + exfalso. unfold has_all in Hh. destruct (n_allOf schema); [|done]. inversion HC; subst. by apply elem_of_nil in Hd.
  - destruct (Hpart _ _ _ _ (Hown Ha Ho)) as [H1 H2].
    assert (Hr : ref_in (target_in (default [] (n_props schema))) (p_S own) n).
    { destruct Ht as [->|(x & -> & Hx & Hl)]; [|by eapply H2]. cbn [own_type qs_fields snd] in Hd. rewrite fields_by_name_perm in Hd. by eapply H1. }
    destruct Hr as [H|[H|(s & Hs & Hl & <-)]]; [by left|right; left; exists schema; split; [left|done]|]. right; right. exists ("type", "", s). split; [|done]. right; right. split_and!; [done..|]. right. by exists s.
Qed.

(** ** the type of an object *)
Definition object_type (dead : bool) (P : string) (σ : list seg) (i : instance) (Ss : list qstruct) : Prop :=
  exists s ds' Ss', s ∈ Ss /\ qs_key s = tname P σ /\ qs_req s = n_required i /\ qs_fields s = fields_by_name ds' /\ (qs_dead s = false -> forall x, x ∈ Ss' -> x ∈ Ss) /\
    qdeclares_all (qs_key s) (qs_name s) (qs_dead s) (n_required i) (default [] (n_props i)) ds' Ss' /\ qs_name s ∉ reserved.
Lemma below_object2 r i ps σ x : d_inst false r = Ok i -> one_type i "object" -> n_props i = Some ps -> winst r σ x ->
  (σ = [] /\ x = r) \/ swinst ps None σ x.
Proof.
  intros Hi Ht Hps Hw. destruct Hw as [|raw ps' k p τ x Ho Hps' Hin Hw|raw y τ x Ho Ha Hy Hw]; [by left|right|].
  - eapply swinst_prop; [|done]. apply (d_inst_props _ _ _ _ Hi) in Hps. by assert (ps' = ps) as <- by congruence.
  - exfalso. apply Ho. apply (d_inst_type _ _ _ "object" ltac:(done) Hi). by rewrite (one_type_has i _ _ Ht).
Qed.
Lemma below_scalar r i t σ x j : d_inst false r = Ok i -> one_type i t -> t <> "object" -> t <> "array" -> winst r σ x -> d_inst false x = Ok j -> one_type j "object" -> False.
Proof.
  intros Hi Ht H1 H2 Hw Hj Hj'. eapply no_objects; [exact Hi|exact Ht|done|done|]. exists x. split; [exact Hw|].
  apply (d_inst_type _ _ _ "object" ltac:(done) Hj). by rewrite (one_type_has j _ _ Hj').
Qed.
Lemma qdeclares_types :
  (forall P G dead k target null r t Ss, qholds P G dead k target null r t Ss -> forall σ x i kp ps, winst r σ x -> d_inst false x = Ok i -> one_type i "object" -> n_props i = Some (kp :: ps) ->
     object_type dead (P +:+ title k) σ i Ss) /\
  (forall P G dead req k r ds Ss, qdeclares P G dead req k r ds Ss -> forall σ x i kp ps, winst r σ x -> d_inst false x = Ok i -> one_type i "object" -> n_props i = Some (kp :: ps) ->
     object_type dead (P +:+ title k) σ i Ss) /\
  (forall P G dead reqs ps0 ds Ss, qdeclares_all P G dead reqs ps0 ds Ss -> forall σ x i kp ps, swinst ps0 None σ x -> d_inst false x = Ok i -> one_type i "object" -> n_props i = Some (kp :: ps) ->
     object_type dead P σ i Ss).
Proof.
  assert (Hmono : forall dead P σ i Ss Ss', object_type dead P σ i Ss -> (forall s, s ∈ Ss -> s ∈ Ss') -> object_type dead P σ i Ss').
  { intros dead P σ i Ss Ss' (s & ds & S2 & H1 & H2 & H3 & H4 & H5 & H6) Hin. exists s, ds, S2. split_and!; [by apply Hin|done..| |by destruct H6|by destruct H6]. intros Hd y Hy. by apply Hin, H5. }
  assert (Harr : forall P k r i x Ss dead, d_inst false r = Ok i -> one_type i "array" -> n_items i = Some x ->
    (forall σ y j kp ps, winst x σ y -> d_inst false y = Ok j -> one_type j "object" -> n_props j = Some (kp :: ps) -> object_type dead (P +:+ title k) σ j Ss) ->
    forall σ y j kp ps, winst r σ y -> d_inst false y = Ok j -> one_type j "object" -> n_props j = Some (kp :: ps) -> object_type dead (P +:+ title k) σ j Ss).
  { intros P k r i x Ss dead Hi Ht Hx IH σ y j kp ps Hw Hj Hj' Hps.
    destruct Hw as [|raw ps' k' p τ x' Ho Hps' Hin Hw|raw z τ x' Ho Ha Hz Hw].
    - assert (j = i) as -> by congruence. by pose proof (one_type_inj _ _ _ Ht Hj').
    - exfalso. apply (d_inst_type _ _ _ "object" ltac:(done) Hi) in Ho. by rewrite (one_type_has i _ _ Ht) in Ho.
    - rewrite (d_inst_items _ _ _ Hi) in Hx. assert (z = x) as -> by congruence. exact (IH τ x' j kp ps Hw Hj Hj' Hps). }
  apply (qdeclares_mutind title rename types_map pointers trim).
  - intros P G dead k target null r i t b Hi Ht Hb σ x j kp ps Hw Hj Hj' _. exfalso. eapply (below_scalar r i t); [done|done|by intros ->|by intros ->|done..].
  - intros P G dead k target null r i Hi Ht Hf σ x j kp ps Hw Hj Hj' _. exfalso. by eapply (below_scalar r i "string").
  - intros P G dead k target null r i kp ps ds Ss Hi Ht Hps Hres Hq IH Hnd1 Hnd2 Hnd3 σ x j kp' ps' Hw Hj Hj' Hps'.
    destruct (below_object2 _ _ _ _ _ Hi Ht Hps Hw) as [[-> ->]|Hw'].
    + assert (j = i) as -> by congruence. eexists _, ds, Ss. split; [left|]. cbn [qs_key qs_req qs_fields qs_dead qs_name]. split_and!; [done|done|done|intros _ y Hy; by right| |done]. by rewrite Hps.
    + destruct (IH σ x j kp' ps' Hw' Hj Hj' Hps') as (s & ds2 & S2 & H1 & H2 & H3 & H4 & H5 & H6). exists s, ds2, S2. split_and!; [by right|done..| |by destruct H6|by destruct H6]. intros Hd y Hy. right. by apply H5.
  - intros P G dead k target null r i Hi Ht Hps σ x j kp' ps' Hw Hj Hj' Hps'. destruct (below_object2 _ _ _ _ _ Hi Ht Hps Hw) as [[-> ->]|Hw'].
    + exfalso. assert (j = i) as -> by congruence. congruence.
    + exfalso. destruct Hw' as [? ? ? ? Hin|? ? ? [=]]. by apply elem_of_nil in Hin.
  - done.
  - intros P G dead req k r i Hi Hk Ht σ x j kp ps Hw Hj Hj' _. exfalso. by eapply (below_scalar r i "graphql-hydration").
  - intros P G dead req k r i x j t Ss Hi Hk Ht Hx Hj Htg Hh IH. by eapply Harr.
  - intros P G dead req k r i x j Hi Hk Ht Hx Hj Hv. eapply Harr; [done|done|done|]. intros σ y j' kp ps Hw Hj' Ho _. exfalso. by eapply (below_scalar x j "graphql-hydration").
  - intros P G dead reqs σ x i kp ps Hw. destruct Hw as [? ? ? ? Hin|? ? ? [=]]. by apply elem_of_nil in Hin.
  - intros P G dead reqs k r ds Ss ps0 ds' Ss' _ IH1 _ IH2 σ x i kp ps Hw Hi Ht Hps. destruct Hw as [k' p τ x Hin Hw|? ? ? [=]]. apply elem_of_cons in Hin as [[= -> ->]|Hin].
    + eapply Hmono; [exact (IH1 τ x i kp ps Hw Hi Ht Hps)|]. intros s Hs. apply elem_of_app. by left.
    + eapply Hmono; [eapply (IH2 (Nm k' :: τ) x i kp ps); [by eapply swinst_prop|done..]|]. intros s Hs. apply elem_of_app. by right.
Qed.
(** without types named in the schema, only the types of objects without properties are left out *)
Lemma qdeclares_live :
  (forall P G dead k target null r t Ss, qholds P G dead k target null r t Ss -> dead = false -> (forall n, below r n -> n = "") -> forall s, s ∈ Ss -> qs_fields s <> [] -> qs_dead s = false) /\
  (forall P G dead req k r ds Ss, qdeclares P G dead req k r ds Ss -> dead = false -> (forall n, below r n -> n = "") -> forall s, s ∈ Ss -> qs_fields s <> [] -> qs_dead s = false) /\
  (forall P G dead reqs ps ds Ss, qdeclares_all P G dead reqs ps ds Ss -> dead = false -> (forall n, target_in ps n -> n = "") -> forall s, s ∈ Ss -> qs_fields s <> [] -> qs_dead s = false).
Proof.
  apply (qdeclares_mutind title rename types_map pointers trim).
  - intros P G dead k target null r i t b Hi Ht Hb _ _ s Hs. by apply elem_of_nil in Hs.
  - intros P G dead k target null r i Hi Ht Hf _ _ s Hs. by apply elem_of_nil in Hs.
  - intros P G dead k target null r i kp ps ds Ss Hi Ht Hps Hres _ IH Hnd1 Hnd2 Hnd3 -> Hb s Hs Hf.
    assert (Hi0 : n_target i = "") by (apply Hb; exists [], r, i; split; [constructor|done]).
    assert (Hdd : false || bool_decide (n_target i <> "") = false) by (rewrite Hi0; by rewrite bool_decide_eq_false_2 by (by intros [])).
    apply elem_of_cons in Hs as [->|Hs]; [done|]. apply IH; [done| |done|done]. intros n Hn. apply Hb. by eapply below_object.
  - intros P G dead k target null r i Hi Ht Hps _ _ s ->%elem_of_list_singleton. done.
  - done.
  - intros P G dead req k r i Hi Hk Ht _ _ s Hs. by apply elem_of_nil in Hs.
  - intros P G dead req k r i x j t Ss Hi Hk Ht Hx Hj Htg Hh IH Hd Hb. apply IH; [done|]. intros n Hn. apply Hb. by eapply below_array.
  - intros P G dead req k r i x j Hi Hk Ht Hx Hj Hv _ _ s Hs. by apply elem_of_nil in Hs.
  - intros P G dead reqs _ _ s Hs. by apply elem_of_nil in Hs.
  - intros P G dead reqs k r ds Ss ps ds' Ss' _ IH1 _ IH2 Hd Hb s [Hs|Hs]%elem_of_app.
    + apply IH1; [done| |done]. intros n Hn. apply Hb. eapply target_prop; [left|done].
    + apply IH2; [done| |done]. intros n (σ & x & i & Hw & H). apply Hb. exists σ, x, i. split; [|done]. destruct Hw as [k' p τ x Hin Hw|? ? ? [=]]. eapply swinst_prop; [by right|done].
Qed.
Lemma qall_in P G dead reqs ps ds Ss k r : qdeclares_all P G dead reqs ps ds Ss -> (k, r) ∈ ps ->
  exists ds' Ss', qdeclares P G dead (bool_decide (k ∈ reqs)) k r ds' Ss' /\ (forall d, d ∈ ds' -> d ∈ ds) /\ (forall s, s ∈ Ss' -> s ∈ Ss).
Proof.
  induction 1 as [|P G dead reqs k' r' ds' Ss' ps ds Ss Hq H IH]; intros Hin; [by apply elem_of_nil in Hin|]. apply elem_of_cons in Hin as [[= -> ->]|Hin].
  - exists ds', Ss'. split; [done|]. split; intros x Hx; apply elem_of_app; by left.
  - destruct (IH Hin) as (ds2 & S2 & H1 & H2 & H3). exists ds2, S2. split; [done|]. split; intros x Hx; apply elem_of_app; right; [by apply H2|by apply H3].
Qed.
(** each property is declared by fields of a type of the document *)
Lemma prop_declared file name pkg schema own σ k r req : n_allOf schema = [] -> n_oneOf schema = [] -> declares_part false file schema own ->
  no_targets schema -> prop_at schema σ k r req ->
  exists P G s ds Ss, qdeclares P G false req k r ds Ss /\ ("type", "", s) ∈ doc_types name pkg file schema [] [] own /\
    (forall d, d ∈ ds -> d ∈ qs_fields s) /\ (bool_decide (k ∈ qs_req s) = req) /\ (forall x, x ∈ Ss -> qs_dead x = false -> ("type", "", x) ∈ doc_types name pkg file schema [] [] own) /\
    (forall x, x ∈ Ss -> qs_fields x <> [] -> qs_dead x = false).
Proof.
  intros Ha Ho [(_ & _ & Hq & _) Hreq] Hno Hp. setoid_rewrite doc_types_in. destruct Hp as [k r Hin|σ x i ps k r Hw Hi Ht Hps Hin].
  - destruct (qall_in _ _ _ _ _ _ _ _ _ Hq Hin) as (ds & Ss & Hd & H1 & H2). eexists _, _, _, ds, Ss. split; [exact Hd|]. split; [|split; [|split; [|split]]].
    + right; right. split_and!; [done..|]. by left.
    + intros d Hd'. cbn [own_type qs_fields]. rewrite fields_by_name_perm. by apply H1.
    + done.
    + intros x Hx Hdx. right; right. split_and!; [done..|]. right. exists x. split; [done|]. split; [by apply H2|done].
    + intros x Hx. apply (proj2 (proj2 qdeclares_live) _ _ _ _ _ _ _ Hq); [done|done|by apply H2].
  - destruct ps as [|kp ps]; [by apply elem_of_nil in Hin|].
    destruct (proj2 (proj2 qdeclares_types) _ _ _ _ _ _ _ Hq σ x i kp ps Hw Hi Ht Hps) as (s & ds & Ss & Hs & Hk & Hr & Hf & Hsub & Hd & _).
    rewrite Hps in Hd. cbn [default] in Hd. destruct (qall_in _ _ _ _ _ _ _ k r Hd Hin) as (ds2 & S2 & Hd2 & H1 & H2).
    assert (Hne : ds2 <> []). { by inversion Hd2. }
    assert (Hlive : qs_dead s = false).
    { apply (proj2 (proj2 qdeclares_live) _ _ _ _ _ _ _ Hq); [done|done|done|]. rewrite Hf. intros E. destruct ds2 as [|d ds2]; [done|]. assert (Hdd : d ∈ fields_by_name ds) by (rewrite fields_by_name_perm; apply H1; left). rewrite E in Hdd. by apply elem_of_nil in Hdd. }
    rewrite Hlive in Hd2. eexists _, _, s, ds2, S2. split; [exact Hd2|]. split; [|split; [|split; [|split]]].
    + right; right. split_and!; [done..|]. right. by exists s.
    + intros d Hdd. rewrite Hf, fields_by_name_perm. by apply H1.
    + by rewrite Hr.
    + intros y Hy Hdy. right; right. split_and!; [done..|]. right. exists y. split; [done|]. split; [apply Hsub; [done|by apply H2]|done].
    + intros y Hy. apply (proj2 (proj2 qdeclares_live) _ _ _ _ _ _ _ Hq); [done|done|]. apply Hsub; [done|by apply H2].
Qed.
Lemma doc_line any files name pkg file schema cs os own t d : t ∈ doc_types name pkg file schema cs os own -> d ∈ qs_fields t.2 ->
  written (document any files file name pkg schema cs os own) (line (bool_decide (qd_json d ∈ qs_req t.2)) d).
Proof.
  intros Ht Hd. destruct (doc_type_in title lower structs_map types_map quote trim import any files _ _ _ _ _ _ _ _ Ht) as (f & text & Hf & Hc). exists f, text. split; [done|].
  eapply contains_trans; [exact Hc|]. apply contains_l, line_in_type, Hd.
Qed.
(** ** the line for a property *)
Definition in_document (any files : bool) (file name pkg : string) (schema : instance) (own : part) (x : string) : Prop := written (document any files file name pkg schema [] [] own) x.
Lemma prop_line any files file name pkg schema own σ k r req : n_allOf schema = [] -> n_oneOf schema = [] -> declares_part false file schema own ->
  no_targets schema -> prop_at schema σ k r req ->
  exists P G ds Ss, qdeclares P G false req k r ds Ss /\
    (forall d, d ∈ ds -> qd_json d = k -> in_document any files file name pkg schema own (line req d)) /\
    (forall x, x ∈ Ss -> qs_fields x <> [] -> in_document any files file name pkg schema own (newline +:+ show_type "type" "" x)).
Proof.
  intros Ha Ho Hd Hno Hp. destruct (prop_declared file name pkg schema own σ k r req Ha Ho Hd Hno Hp) as (P & G & s & ds & Ss & Hq & Hs & H1 & H2 & H3 & H4).
  exists P, G, ds, Ss. split; [done|]. split.
  - intros d Hdd Hk. pose proof (doc_line any files name pkg file schema [] [] own _ d Hs (H1 d Hdd)) as Hl. cbn [snd] in Hl. by rewrite Hk, H2 in Hl.
  - intros x Hx Hne. exact (doc_type_in title lower structs_map types_map quote trim import any files _ _ _ _ _ _ _ _ (H3 x Hx (H4 x Hx Hne))).
Qed.
Lemma prop_target schema σ k r req i : prop_at schema σ k r req -> no_targets schema -> d_inst false r = Ok i -> n_target i = "".
Proof.
  intros Hp Hno Hi. apply Hno. destruct Hp as [k r Hin|σ x j ps k r Hw Hj Ht Hps Hin].
  - exists [Nm k], r, i. split; [|done]. eapply swinst_prop; [done|constructor].
  - destruct Hw as [k0 p τ x Hin0 Hw|? ? ? [=]].
    assert (Hwn : winst p (τ ++ [Nm k]) r).
    { assert (Hobj : winst x [Nm k] r). { eapply winst_prop; [|by eapply d_inst_props|exact Hin|constructor]. apply (d_inst_type _ _ _ "object" ltac:(done) Hj). by rewrite (one_type_has j _ _ Ht). }
      clear -Hw Hobj. induction Hw as [|raw ps' k' p' τ x Ho Hps' Hin' Hw IH|raw y τ x Ho Ha Hy Hw IH]; cbn; [done|eapply winst_prop; eauto|eapply winst_item; eauto]. }
    exists (Nm k0 :: τ ++ [Nm k]), r, i. split; [|done]. by eapply swinst_prop.
Qed.
Lemma mark_pointers req : mark (if_pointers pointers) req = pointer_mark req.
Proof. unfold if_pointers, SpecDoc.pointer_mark. by destruct pointers, req. Qed.
Lemma line_plain req desc go k args n nn : line req (QDecl desc go k args (QName n nn)) = plain_line k (n +:+ mark nn req) desc.
Proof. unfold line, SpecDoc.plain_line. cbn [qd_json args_text qd_type qtype_text is_list qd_desc]. by rewrite !sapp_nil_l, <- !app_assoc_s. Qed.
Lemma line_list req desc go k args t nn : line req (QDecl desc go k args (QList t nn)) = list_line k ("[" +:+ qtype_text req t +:+ "]" +:+ mark nn req) desc.
Proof. unfold line, SpecDoc.list_line. cbn [qd_json args_text qd_type qtype_text is_list qd_desc]. by rewrite <- !app_assoc_s. Qed.
Context (any files : bool) (file name pkg : string) (schema : instance) (own : part).
Context (Ha : n_allOf schema = []) (Ho : n_oneOf schema = []) (Hown : declares_part false file schema own) (Hno : no_targets schema).
Set Default Proof Using "Type Ha Ho Hown Hno".
Notation inside := (in_document any files file name pkg schema own).
Lemma scalar_name_not t d b : scalar_name t d = Some b -> t <> "array" /\ t <> "object" /\ t <> "graphql-hydration".
Proof. intros H. split_and!; by intros ->. Qed.
Lemma or_none t : or_target pointers "" t = t.
Proof. done. Qed.
Lemma scalar_line σ k r req i t b : prop_at schema σ k r req -> d_inst false r = Ok i -> one_type i t -> scalar_name t (bool_decide (n_format i = "date-time")) = Some b ->
  inside (plain_line k (b +:+ (if nullable i && pointers && negb req then "" else "!")) (n_desc i)).
Proof.
  intros Hp Hi Ht Hb. destruct (scalar_name_not _ _ _ Hb) as (N1 & N2 & N3). destruct (prop_line any files _ name pkg _ _ _ _ _ _ Ha Ho Hown Hno Hp) as (P & G & ds & Ss & Hq & Hl & _).
  inversion Hq as [? ? ? ? ? ? i' ty ? Hi' Hk Hh|? ? ? ? ? ? i' Hi' Hk Ht'|? ? ? ? ? ? i' x j ty ? Hi' Hk Ht'|? ? ? ? ? ? i' x j Hi' Hk Ht']; subst; assert (i' = i) as -> by congruence.
  2: { exfalso. apply N3. by eapply one_type_inj. } 2: { exfalso. apply N1. by eapply one_type_inj. } 2: { exfalso. apply N1. by eapply one_type_inj. }
  specialize (Hl _ ltac:(left) eq_refl). rewrite (prop_target _ _ _ _ _ _ Hp Hno Hi) in Hh.
  inversion Hh as [? ? ? ? ? ? ? i' t' b' Hi2 Ht2 Hb2|? ? ? ? ? ? ? i' Hi2 Ht2 Hf|? ? ? ? ? ? ? i' kp ps ? ? Hi2 Ht2|? ? ? ? ? ? ? i' Hi2 Ht2]; subst; assert (i' = i) as -> by congruence.
  - rewrite <- (one_type_inj _ _ _ Ht Ht2), Hb in Hb2. injection Hb2 as <-. rewrite or_none, line_plain in Hl.
    replace (mark (if nullable i then if_pointers pointers else NAlways) req) with (if nullable i && pointers && negb req then "" else "!") in Hl; [done|]. unfold if_pointers. by destruct (nullable i), pointers, req.
  - rewrite (one_type_inj _ _ _ Ht Ht2), Hf in Hb. done.
  - exfalso. apply N2. by eapply one_type_inj.
  - exfalso. apply N2. by eapply one_type_inj.
Qed.
Lemma time_line σ k r req i : prop_at schema σ k r req -> d_inst false r = Ok i -> one_type i "string" -> n_format i = "date-time" -> inside (plain_line k "DateTime" (n_desc i)).
Proof.
  intros Hp Hi Ht Hf. destruct (prop_line any files _ name pkg _ _ _ _ _ _ Ha Ho Hown Hno Hp) as (P & G & ds & Ss & Hq & Hl & _).
  inversion Hq as [? ? ? ? ? ? i' ty ? Hi' Hk Hh|? ? ? ? ? ? i' Hi' Hk Ht'|? ? ? ? ? ? i' x j ty ? Hi' Hk Ht'|? ? ? ? ? ? i' x j Hi' Hk Ht']; subst; assert (i' = i) as -> by congruence; try by pose proof (one_type_inj _ _ _ Ht Ht').
  specialize (Hl _ ltac:(left) eq_refl). rewrite (prop_target _ _ _ _ _ _ Hp Hno Hi) in Hh.
  inversion Hh as [? ? ? ? ? ? ? i' t' b' Hi2 Ht2 Hb2|? ? ? ? ? ? ? i' Hi2 Ht2 Hf2|? ? ? ? ? ? ? i' kp ps ? ? Hi2 Ht2|? ? ? ? ? ? ? i' Hi2 Ht2]; subst; assert (i' = i) as -> by congruence; try by pose proof (one_type_inj _ _ _ Ht Ht2).
  by rewrite <- (one_type_inj _ _ _ Ht Ht2), Hf in Hb2.
Qed.
Lemma named_not n : n ∉ reserved -> forall t, t = named_type pointers n -> n <> "DateTime" -> t = QName n (if_pointers pointers).
Proof. intros _ t -> Hd. unfold named_type. by rewrite decide_False. Qed.
Lemma show_type_start s : type_start (qs_name s) (newline +:+ show_type "type" "" s).
Proof. unfold type_start, SpecGql.show_type. exists (qs_desc s). eexists. by rewrite decide_True, sapp_nil_l. Qed.
Lemma object_line_q σ k r req i kp ps : prop_at schema σ k r req -> d_inst false r = Ok i -> one_type i "object" -> n_props i = Some (kp :: ps) ->
  exists T, (T <> "DateTime" -> inside (plain_line k (T +:+ pointer_mark req) (n_desc i))) /\ exists text, type_start T text /\ inside text.
Proof.
  intros Hp Hi Ht Hps. destruct (prop_line any files _ name pkg _ _ _ _ _ _ Ha Ho Hown Hno Hp) as (P & G & ds & Ss & Hq & Hl & HS).
  inversion Hq as [? ? ? ? ? ? i' ty ? Hi' Hk Hh|? ? ? ? ? ? i' Hi' Hk Ht'|? ? ? ? ? ? i' x j ty ? Hi' Hk Ht'|? ? ? ? ? ? i' x j Hi' Hk Ht']; subst; assert (i' = i) as -> by congruence; try by pose proof (one_type_inj _ _ _ Ht Ht').
  specialize (Hl _ ltac:(left) eq_refl). rewrite (prop_target _ _ _ _ _ _ Hp Hno Hi) in Hh.
  inversion Hh as [? ? ? ? ? ? ? i' t' b' Hi2 Ht2 Hb2|? ? ? ? ? ? ? i' Hi2 Ht2 Hf2|? ? ? ? ? ? ? i' kp' ps' ds S2 Hi2 Ht2 Hps2 Hres Hall|? ? ? ? ? ? ? i' Hi2 Ht2 Hps2]; subst; assert (i' = i) as -> by congruence; try by pose proof (one_type_inj _ _ _ Ht Ht2).
  - by rewrite <- (one_type_inj _ _ _ Ht Ht2) in Hb2.
  - exists (sub_type title types_map G k). split.
    + intros Hd. rewrite or_none in Hl. unfold named_type in Hl. rewrite decide_False in Hl by done. by rewrite line_plain, mark_pointers in Hl.
    + eexists. split; [|apply (HS _ ltac:(left))]; [apply show_type_start|]. cbn [qs_fields]. intros E.
      assert (Hnil : ds = []). { destruct ds as [|d ds]; [done|]. assert (Hdd : d ∈ fields_by_name (d :: ds)) by (rewrite fields_by_name_perm; left). rewrite E in Hdd. by apply elem_of_nil in Hdd. }
      subst ds. inversion Hall as [|? ? ? ? ? ? dd ? ? dd' ? Hq1 ? E1 E2 E3 E4 E5 E6]; subst. destruct dd; [|done]. by inversion Hq1.
  - congruence.
Qed.
Lemma any_line σ k r req i : prop_at schema σ k r req -> d_inst false r = Ok i -> one_type i "object" -> n_props i = Some [] -> inside (plain_line k "Any" (n_desc i)).
Proof.
  intros Hp Hi Ht Hps. destruct (prop_line any files _ name pkg _ _ _ _ _ _ Ha Ho Hown Hno Hp) as (P & G & ds & Ss & Hq & Hl & HS).
  inversion Hq as [? ? ? ? ? ? i' ty ? Hi' Hk Hh|? ? ? ? ? ? i' Hi' Hk Ht'|? ? ? ? ? ? i' x j ty ? Hi' Hk Ht'|? ? ? ? ? ? i' x j Hi' Hk Ht']; subst; assert (i' = i) as -> by congruence; try by pose proof (one_type_inj _ _ _ Ht Ht').
  specialize (Hl _ ltac:(left) eq_refl). rewrite (prop_target _ _ _ _ _ _ Hp Hno Hi) in Hh.
  inversion Hh as [? ? ? ? ? ? ? i' t' b' Hi2 Ht2 Hb2|? ? ? ? ? ? ? i' Hi2 Ht2 Hf2|? ? ? ? ? ? ? i' kp' ps' ds S2 Hi2 Ht2 Hps2|? ? ? ? ? ? ? i' Hi2 Ht2 Hps2]; subst; assert (i' = i) as -> by congruence; try by pose proof (one_type_inj _ _ _ Ht Ht2).
  - by rewrite <- (one_type_inj _ _ _ Ht Ht2) in Hb2.
  - congruence.
Qed.
Lemma list_scalar_line σ k r req i x j t b : prop_at schema σ k r req -> d_inst false r = Ok i -> one_type i "array" -> n_items i = Some x ->
  d_inst false x = Ok j -> one_type j t -> scalar_name t (bool_decide (n_format j = "date-time")) = Some b ->
  inside (list_line k ("[" +:+ b +:+ "!]" +:+ pointer_mark req) (n_desc i)).
Proof.
  intros Hp Hi Ht Hx Hj Hjt Hb. destruct (scalar_name_not _ _ _ Hb) as (N1 & N2 & N3). destruct (prop_line any files _ name pkg _ _ _ _ _ _ Ha Ho Hown Hno Hp) as (P & G & ds & Ss & Hq & Hl & HS).
  inversion Hq as [? ? ? ? ? ? i' ty ? Hi' Hk Hh|? ? ? ? ? ? i' Hi' Hk Ht'|? ? ? ? ? ? i' x' j' ty ? Hi' Hk Ht' Hx' Hj' Htg Hh|? ? ? ? ? ? i' x' j' Hi' Hk Ht' Hx' Hj' Hv]; subst; assert (i' = i) as -> by congruence; try by pose proof (one_type_inj _ _ _ Ht Ht').
  - exfalso. inversion Hh as [? ? ? ? ? ? ? i' t' b' Hi2 Ht2 Hb2|? ? ? ? ? ? ? i' Hi2 Ht2 Hf2|? ? ? ? ? ? ? i' kp' ps' ds S2 Hi2 Ht2 Hps2|? ? ? ? ? ? ? i' Hi2 Ht2 Hps2]; subst; assert (i' = i) as -> by congruence; try by pose proof (one_type_inj _ _ _ Ht Ht2).
    by rewrite <- (one_type_inj _ _ _ Ht Ht2) in Hb2.
  - assert (x' = x) as -> by congruence. assert (j' = j) as -> by congruence. specialize (Hl _ ltac:(right; left) eq_refl). rewrite (prop_target _ _ _ _ _ _ Hp Hno Hi) in Hh.
    inversion Hh as [? ? ? ? ? ? ? i' t' b' Hi2 Ht2 Hb2|? ? ? ? ? ? ? i' Hi2 Ht2 Hf2|? ? ? ? ? ? ? i' kp' ps' ds S2 Hi2 Ht2 Hps2|? ? ? ? ? ? ? i' Hi2 Ht2 Hps2]; subst; assert (i' = j) as -> by congruence.
    + rewrite <- (one_type_inj _ _ _ Hjt Ht2), Hb in Hb2. injection Hb2 as <-. rewrite line_list, mark_pointers in Hl. rewrite or_none in Hl. cbn [qtype_text mark] in Hl. by rewrite <- app_assoc_s in Hl.
    + rewrite (one_type_inj _ _ _ Hjt Ht2), Hf2 in Hb. done.
    + exfalso. apply N2. by eapply one_type_inj.
    + exfalso. apply N2. by eapply one_type_inj.
  - exfalso. assert (x' = x) as -> by congruence. assert (j' = j) as -> by congruence. apply N3. by eapply one_type_inj.
Qed.
Lemma list_object_line σ k r req i x j kp ps : prop_at schema σ k r req -> d_inst false r = Ok i -> one_type i "array" -> n_items i = Some x ->
  d_inst false x = Ok j -> one_type j "object" -> n_props j = Some (kp :: ps) ->
  exists T, (T <> "DateTime" -> inside (list_line k ("[" +:+ T +:+ pointer_mark req +:+ "]" +:+ pointer_mark req) (n_desc i))) /\ exists text, type_start T text /\ inside text.
Proof.
  intros Hp Hi Ht Hx Hj Hjt Hps. destruct (prop_line any files _ name pkg _ _ _ _ _ _ Ha Ho Hown Hno Hp) as (P & G & ds & Ss & Hq & Hl & HS).
  inversion Hq as [? ? ? ? ? ? i' ty ? Hi' Hk Hh|? ? ? ? ? ? i' Hi' Hk Ht'|? ? ? ? ? ? i' x' j' ty ? Hi' Hk Ht' Hx' Hj' Htg Hh|? ? ? ? ? ? i' x' j' Hi' Hk Ht' Hx' Hj' Hv]; subst; assert (i' = i) as -> by congruence; try by pose proof (one_type_inj _ _ _ Ht Ht').
  - exfalso. inversion Hh as [? ? ? ? ? ? ? i' t' b' Hi2 Ht2 Hb2|? ? ? ? ? ? ? i' Hi2 Ht2 Hf2|? ? ? ? ? ? ? i' kp' ps' ds S2 Hi2 Ht2 Hps2|? ? ? ? ? ? ? i' Hi2 Ht2 Hps2]; subst; assert (i' = i) as -> by congruence; try by pose proof (one_type_inj _ _ _ Ht Ht2).
    by rewrite <- (one_type_inj _ _ _ Ht Ht2) in Hb2.
  - assert (x' = x) as -> by congruence. assert (j' = j) as -> by congruence. specialize (Hl _ ltac:(right; left) eq_refl). rewrite (prop_target _ _ _ _ _ _ Hp Hno Hi) in Hh.
    inversion Hh as [? ? ? ? ? ? ? i' t' b' Hi2 Ht2 Hb2|? ? ? ? ? ? ? i' Hi2 Ht2 Hf2|? ? ? ? ? ? ? i' kp' ps' ds S2 Hi2 Ht2 Hps2 Hres Hall|? ? ? ? ? ? ? i' Hi2 Ht2 Hps2]; subst; assert (i' = j) as -> by congruence; try by pose proof (one_type_inj _ _ _ Hjt Ht2).
    + by rewrite <- (one_type_inj _ _ _ Hjt Ht2) in Hb2.
    + exists (sub_type title types_map G k). split.
      * intros Hd. rewrite line_list, mark_pointers in Hl. rewrite or_none in Hl. unfold named_type in Hl. rewrite decide_False in Hl by done. cbn [qtype_text] in Hl. by rewrite mark_pointers, <- !app_assoc_s in Hl.
      * eexists. split; [|apply (HS _ ltac:(left))]; [apply show_type_start|]. cbn [qs_fields]. intros E.
        assert (Hnil : ds = []). { destruct ds as [|d ds]; [done|]. assert (Hdd : d ∈ fields_by_name (d :: ds)) by (rewrite fields_by_name_perm; left). rewrite E in Hdd. by apply elem_of_nil in Hdd. }
        subst ds. inversion Hall as [|? ? ? ? ? ? dd ? ? dd' ? Hq1 ? E1 E2 E3 E4 E5 E6]; subst. destruct dd; [|done]. by inversion Hq1.
    + congruence.
  - exfalso. assert (x' = x) as -> by congruence. assert (j' = j) as -> by congruence. by pose proof (one_type_inj _ _ _ Hjt Hv).
Qed.
End text.

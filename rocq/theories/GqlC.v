(** What follows for the types of a GraphQL document. *)
From stdpp Require Import strings list gmap.
From Coq Require Import Ascii ZArith Lia.
From Verif Require Import GoStr GoStrL Val Conv Schema Inst Load SpecPath PathL SpecWalk WalkL SpecLoad FlatL SpecGen SpecNamed SpecGql Gen GenL SortL GenP GenM GenT NamedL NamedT NamedF NamedK GqlL GqlM GqlT GqlF SpecDoc.

(** ** pieces of text *)
Lemma contains_refl x : contains x x.
Proof. exists "", "". by rewrite sapp_nil_l, sapp_nil_r. Qed.
Lemma contains_l a x y : contains x y -> contains (a +:+ x) y.
Proof. intros (c & d & ->). exists (a +:+ c), d. by rewrite <- app_assoc_s. Qed.
Lemma contains_r b x y : contains x y -> contains (x +:+ b) y.
Proof. intros (c & d & ->). exists c, (d +:+ b). by rewrite <- !app_assoc_s. Qed.
Lemma contains_trans x y z : contains x y -> contains y z -> contains x z.
Proof. intros (a & b & ->) H. apply contains_l, contains_r, H. Qed.
Lemma join_cons_ne sep x y l : join sep (x :: y :: l) = x +:+ sep +:+ join sep (y :: l).
Proof. done. Qed.
Lemma contains_join sep (l : list string) x : x ∈ l -> contains (join sep l) x.
Proof.
  induction l as [|y l IH]; intros H; [by apply elem_of_nil in H|]. apply elem_of_cons in H as [->|H].
  - destruct l; [apply contains_refl|]. rewrite join_cons_ne. apply contains_r, contains_refl.
  - destruct l as [|z l]; [by apply elem_of_nil in H|]. rewrite join_cons_ne. apply contains_l, contains_l, IH, H.
Qed.
Lemma written_in f text files x : (f, text) ∈ files -> contains text x -> written files x.
Proof. intros H1 H2. by exists f, text. Qed.

Section text.
Set Default Proof Using "Type".
Context (title lower : string -> string) (structs_map rename types_map : string -> option string) (pointers : bool) (quote trim : string -> string) (import : string).
Notation show_field := (show_field quote trim).
Notation show_type := (show_type title quote trim import).
Notation show_types := (show_types title quote trim import).
Notation document := (document title lower structs_map types_map quote trim import).
Notation doc_types := (doc_types title lower structs_map types_map).
Lemma field_in_type kind impl s d : d ∈ qs_fields s -> contains (show_type kind impl s) (show_field (bool_decide (qd_json d ∈ qs_req s)) d).
Proof.
  intros Hd. unfold SpecGql.show_type. do 9 apply contains_l. apply contains_r. apply contains_join. apply elem_of_list_fmap. by exists d.
Qed.
Lemma types_root kind impl s Ss : contains (show_types kind impl s Ss) (newline +:+ show_type kind impl s).
Proof. unfold SpecGql.show_types. rewrite app_assoc_s. apply contains_r, contains_refl. Qed.
Lemma types_other kind impl s Ss x : x ∈ Ss -> qs_dead x = false -> contains (show_types kind impl s Ss) (newline +:+ show_type "type" "" x).
Proof.
  intros Hx Hd. unfold SpecGql.show_types. do 2 apply contains_l. apply contains_join. apply elem_of_list_fmap. exists x. by rewrite Hd.
Qed.
Definition live (Ss : list qstruct) : list (string * string * qstruct) := map (fun s => ("type", "", s)) (filter (fun s => qs_dead s = false) Ss).
Lemma types_all kind impl s Ss t : t ∈ (kind, impl, s) :: live Ss -> contains (show_types kind impl s Ss) (newline +:+ show_type t.1.1 t.1.2 t.2).
Proof.
  intros [->|Ht]%elem_of_cons; [apply types_root|]. apply elem_of_list_fmap in Ht as (x & -> & Hx). apply elem_of_list_filter in Hx as [H1 H2]. by apply types_other.
Qed.
Lemma doc_type_in any files file name pkg schema cs os own t : t ∈ doc_types name pkg file schema cs os own ->
  written (document any files file name pkg schema cs os own) (newline +:+ show_type t.1.1 t.1.2 t.2).
Proof.
  unfold SpecDoc.doc_types, SpecDoc.document. cbn zeta. set (ms := zip_with (fun m c => (file_of m, member_text title lower structs_map types_map quote trim import name schema cs m c)) (n_oneOf schema) os). intros [Ht|[Ht|Ht]%elem_of_app]%elem_of_app.
  - assert (H : contains (common_text title structs_map types_map quote trim import pkg schema cs) (newline +:+ show_type t.1.1 t.1.2 t.2)).
    { unfold common_text. destruct (has_all schema); [|by apply elem_of_nil in Ht]. by apply types_all. }
    destruct files; (eapply written_in; [left|]; apply contains_l, contains_r, H).
  - apply elem_of_list_join in Ht as (l & Ht & Hl). apply elem_of_lookup_zip_with in Hl as (j & m & c & -> & Hm & Hc).
    assert (Hx : contains (member_text title lower structs_map types_map quote trim import name schema cs m c) (newline +:+ show_type t.1.1 t.1.2 t.2)).
    { unfold member_text. by apply types_all. }
    assert (Hms : (file_of m, member_text title lower structs_map types_map quote trim import name schema cs m c) ∈ ms).
    { apply elem_of_lookup_zip_with. by exists j, m, c. }
    destruct files.
    + eapply written_in; [right; apply elem_of_list_fmap; eexists; split; [done|exact Hms]|]. cbn [snd]. by apply contains_l.
    + eapply written_in; [left|]. do 2 apply contains_l. apply contains_r. eapply contains_trans; [|exact Hx]. apply contains_join. apply elem_of_list_fmap. by eexists (_, _).
  - assert (H : contains (own_text title lower structs_map types_map quote trim import file schema own) (newline +:+ show_type t.1.1 t.1.2 t.2)).
    { unfold own_text. destruct (n_allOf schema); [|by apply elem_of_nil in Ht]. destruct (n_oneOf schema); [|by apply elem_of_nil in Ht]. by apply types_all. }
    destruct files; (eapply written_in; [left|]).
    + by do 2 apply contains_l.
    + by do 3 apply contains_l.
Qed.

(** ** conformance *)
Lemma mark_bang nn req : mark nn req = bang (settled nn req).
Proof. by destruct nn. Qed.
Lemma qtype_text_ftype req t : qtype_text req t = ftype_text (field_type req t).
Proof. induction t as [n nn|t IH nn|s]; cbn; [by rewrite mark_bang|by rewrite IH, mark_bang|done]. Qed.
Lemma serves_more (a b : bool) t : (b = true -> a = true) -> serves_as (field_type a t) (field_type b t).
Proof.
  intros H. assert (Hs : forall nn, settled nn b = true -> settled nn a = true) by (by intros []).
  induction t as [n nn|t IH nn|s]; cbn; [by split; [|apply Hs]|by split; [|apply Hs]|done].
Qed.
Lemma member_conforms impl pkg schema cs m c :
  conforms (member_type title lower structs_map types_map impl cs m c) (common_type title structs_map types_map pkg schema cs).
Proof.
  intros d Hd. unfold common_type in Hd. cbn [qs_fields] in Hd. rewrite fields_by_name_perm in Hd. exists d. split; [|split; [done|split; [done|]]].
  - unfold member_type. cbn [qs_fields]. rewrite fields_by_name_perm. apply elem_of_app. by left.
  - unfold type_in. apply serves_more. unfold common_type, member_type. cbn [qs_req]. rewrite !bool_decide_eq_true. intros H. apply elem_of_app. by left.
Qed.

(** ** references *)
Notation qholds := (qholds title rename types_map pointers trim).
Notation qdeclares := (qdeclares title rename types_map pointers trim).
Notation qdeclares_all := (qdeclares_all title rename types_map pointers trim).
Definition below (r : tree) (n : string) : Prop := exists σ x i, winst r σ x /\ d_inst false x = Ok i /\ n_target i = n.
Definition ref_in (T : string -> Prop) (Ss : list qstruct) (n : string) : Prop := n ∈ given_types \/ T n \/ exists s, s ∈ Ss /\ qs_dead s = false /\ qs_name s = n.
Definition all_refs (T : string -> Prop) (Ss Ss0 : list qstruct) : Prop :=
  forall s d n, s ∈ Ss0 -> qs_dead s = false -> d ∈ qs_fields s -> refers_to (qd_type d) = Some n -> ref_in T Ss n.
Lemma ref_mono (T T' : string -> Prop) (Ss Ss' : list qstruct) n : (forall n, T n -> T' n) -> (forall s, s ∈ Ss -> s ∈ Ss') -> ref_in T Ss n -> ref_in T' Ss' n.
Proof. intros H1 H2 [H|[H|(s & H & H')]]; [by left|right; left; by apply H1|right; right; exists s; split; [by apply H2|done]]. Qed.
Lemma refs_mono (T T' : string -> Prop) (Ss Ss' Ss0 : list qstruct) : (forall n, T n -> T' n) -> (forall s, s ∈ Ss -> s ∈ Ss') -> all_refs T Ss Ss0 -> all_refs T' Ss' Ss0.
Proof. intros H1 H2 H s d n Ha Hb Hc Hd. eapply ref_mono; [exact H1|exact H2|]. by eapply H. Qed.
Lemma below_object r i ps n : d_inst false r = Ok i -> one_type i "object" -> n_props i = Some ps -> target_in ps n -> below r n.
Proof.
  intros Hi Ht Hps (σ & x & j & Hs & Hj & Hn). destruct Hs as [k p τ x Hin Hw|y τ x [=]]. exists (Nm k :: τ), x, j. split; [|done].
  eapply winst_prop; [|by eapply d_inst_props|exact Hin|exact Hw]. apply (d_inst_type _ _ _ "object" ltac:(done) Hi). by rewrite (one_type_has i _ _ Ht).
Qed.
Lemma below_array r i x n : d_inst false r = Ok i -> one_type i "array" -> n_items i = Some x -> below x n -> below r n.
Proof.
  intros Hi Ht Hx (σ & y & j & Hs & Hj & Hn). exists (Star :: σ), y, j. split; [|done]. eapply winst_item; [| |by rewrite <- (d_inst_items _ _ _ Hi)|done].
  - rewrite <- (d_inst_type _ _ _ "object" ltac:(done) Hi). by rewrite (one_type_has i _ _ Ht).
  - rewrite <- (d_inst_type _ _ _ "array" ltac:(done) Hi). by rewrite (one_type_has i _ _ Ht).
Qed.
Lemma target_prop ps k r n : (k, r) ∈ ps -> below r n -> target_in ps n.
Proof. intros Hin (σ & x & i & Hw & H). exists (Nm k :: σ), x, i. split; [|done]. by eapply swinst_prop. Qed.
Lemma scalar_given t d b : scalar_name t d = Some b -> b ∈ given_types.
Proof. clear. unfold scalar_name, given_types. repeat case_decide; [| | |destruct d|]; intros [=]; subst; set_solver. Qed.
Lemma or_target_refers target t n : refers_to (or_target pointers target t) = Some n -> (target <> "" /\ n = target) \/ (target = "" /\ refers_to t = Some n).
Proof. unfold or_target. case_decide; cbn; [by right|]. intros [= <-]. by left. Qed.
Lemma qdeclares_refs :
  (forall P G dead k target null r t Ss, qholds P G dead k target null r t Ss -> (target = "" -> forall i, d_inst false r = Ok i -> n_target i = "") ->
     (dead = false -> forall n, refers_to t = Some n -> n ∈ given_types \/ (target <> "" /\ n = target) \/ exists s, s ∈ Ss /\ qs_dead s = false /\ qs_name s = n) /\
     all_refs (below r) Ss Ss) /\
  (forall P G dead req k r ds Ss, qdeclares P G dead req k r ds Ss ->
     (dead = false -> forall d n, d ∈ ds -> refers_to (qd_type d) = Some n -> ref_in (below r) Ss n) /\ all_refs (below r) Ss Ss) /\
  (forall P G dead reqs ps ds Ss, qdeclares_all P G dead reqs ps ds Ss ->
     (dead = false -> forall d n, d ∈ ds -> refers_to (qd_type d) = Some n -> ref_in (target_in ps) Ss n) /\ all_refs (target_in ps) Ss Ss).
Proof.
  assert (Hint : "Int" ∈ given_types) by (do 2 right; left). assert (Htime : "DateTime" ∈ given_types) by (do 4 right; left). assert (Hany : "Any" ∈ given_types) by (do 5 right; left).
  assert (Hnone : forall T Ss, all_refs T Ss []) by (intros T Ss s d n H; by apply elem_of_nil in H).
  apply (qdeclares_mutind title rename types_map pointers trim).
  - intros P G dead k target null r i t b Hi Ht Hb _. split; [|done]. intros _ n [H|[_ H]]%or_target_refers; [by right; left|]. injection H as <-. left. by eapply scalar_given.
  - intros P G dead k target null r i Hi Ht Hf _. split; [|done]. intros _ n [H|[_ H]]%or_target_refers; [by right; left|]. injection H as <-. left. done.
  - intros P G dead k target null r i kp ps ds Ss Hi Ht Hps Hres _ [IH1 IH2] Hnd1 Hnd2 Hnd3 Htg. split.
    + intros Hdead n [H|[E H]]%or_target_refers; [by right; left|]. right. right. eexists. split; [left|]. split; [|cbn; by injection H]. cbn [qs_dead].
      rewrite Hdead. cbn. rewrite (Htg E i Hi). by rewrite bool_decide_eq_false_2 by (by intros []).
    + assert (HT : forall n, target_in (kp :: ps) n -> below r n) by (intros n; by eapply below_object).
      intros s d n [->|Hs]%elem_of_cons Hd Hds Hn.
      * cbn [qs_dead] in Hd. cbn [qs_fields] in Hds. rewrite fields_by_name_perm in Hds. eapply ref_mono; [exact HT| |by eapply IH1]. intros s Hs. by right.
      * eapply ref_mono; [exact HT| |by eapply IH2]. intros s' Hs'. by right.
  - intros P G dead k target null r i Hi Ht Hps _. split.
    + intros _ n H. cbn in H. injection H as <-. case_decide; [left; done|]. right; left. done.
    + intros s d n [->|Hs]%elem_of_cons Hd Hds; [done|by apply elem_of_nil in Hs].
  - intros P G dead req k r i t Ss Hi Hk Hh IH. destruct IH as [IH1 IH2]. { intros E j Hj. by assert (j = i) as -> by congruence. }
    split; [|done]. intros Hd d n ->%elem_of_list_singleton Hn. destruct (IH1 Hd n Hn) as [H|[[H ->]|H]]; [by left| |by right; right]. right; left. exists [], r, i. split; [constructor|done].
  - intros P G dead req k r i Hi Hk Ht. split; [|done]. intros _ d n ->%elem_of_list_singleton [=].
  - intros P G dead req k r i x j t Ss Hi Hk Ht Hx Hj Htg Hh IH. destruct IH as [IH1 IH2]. { intros E j' Hj'. assert (j' = j) as -> by congruence. by apply Htg. }
    assert (HT : forall n, below x n -> below r n) by (intros n; by eapply below_array). split.
    + intros Hd d n Hds Hn. apply elem_of_cons in Hds as [->| ->%elem_of_list_singleton]; [cbn in Hn; injection Hn as <-; left; done|]. cbn in Hn.
      destruct (IH1 Hd n Hn) as [H|[[H ->]|H]]; [by left| |by right; right]. right; left. exists [], r, i. split; [constructor|done].
    + eapply refs_mono; [exact HT| |exact IH2]. done.
  - intros P G dead req k r i x j Hi Hk Ht Hx Hj Hv. split; [|done]. intros _ d n [->| ->%elem_of_list_singleton]%elem_of_cons Hn; cbn in Hn; [injection Hn as <-; left; done|done].
  - intros P G dead reqs. split; [|done]. intros _ d n H. by apply elem_of_nil in H.
  - intros P G dead reqs k r ds Ss ps ds' Ss' _ [H1 H2] _ [H3 H4].
    assert (T1 : forall n, below r n -> target_in ((k, r) :: ps) n) by (intros n; apply (target_prop _ k r); left).
    assert (T2 : forall n, target_in ps n -> target_in ((k, r) :: ps) n).
    { intros n (σ & x & i & Hs & H). exists σ, x, i. split; [|done]. destruct Hs as [k' p τ x Hin Hw|y τ x [=]]. eapply swinst_prop; [by right|done]. }
    assert (S1 : forall s, s ∈ Ss -> s ∈ Ss ++ Ss') by (intros s Hs; apply elem_of_app; by left). assert (S2 : forall s, s ∈ Ss' -> s ∈ Ss ++ Ss') by (intros s Hs; apply elem_of_app; by right). split.
    + intros Hd d n [H|H]%elem_of_app Hn; [eapply ref_mono; [exact T1|exact S1|by eapply H1]|eapply ref_mono; [exact T2|exact S2|by eapply H3]].
    + intros s d n [H|H]%elem_of_app Ha Hb Hc; [eapply ref_mono; [exact T1|exact S1|by eapply H2]|eapply ref_mono; [exact T2|exact S2|by eapply H4]].
Qed.

(** ** the types are one for each object *)
Notation tname := (type_name title).
Definition qcovers (Ss : list qstruct) (P : string) (O : list seg -> Prop) : Prop := exists l, map qs_key Ss = map (tname P) l /\ NoDup l /\ forall σ, σ ∈ l <-> O σ.
Lemma qcovers_none P O : (forall σ, ~ O σ) -> qcovers [] P O.
Proof. intros H. exists []. split_and!; [done|constructor|]. intros σ. split; [by intros ?%elem_of_nil|by intros ?%H]. Qed.
Lemma qcovers_object P k r i ps s Ss : d_inst false r = Ok i -> one_type i "object" -> n_props i = Some ps -> qs_key s = P +:+ title k ->
  qcovers Ss (P +:+ title k) (inprops ps) -> qcovers (s :: Ss) (P +:+ title k) (isobj r).
Proof.
  intros Hi Ht Hps Hs (l & Hl & Hnd & Hin). exists ([] :: l). split; [cbn; by rewrite Hl, Hs|]. split.
  - constructor; [|done]. rewrite Hin. by intros (? & ? & ? & _ & [=] & _).
  - intros σ. rewrite elem_of_cons, Hin. rewrite (objs_object r i ps Hi); [done| |done]. by rewrite (one_type_has i _ _ Ht).
Qed.
Lemma qcovers_array P k r i x Ss : d_inst false r = Ok i -> one_type i "array" -> n_items i = Some x -> qcovers Ss (P +:+ title k) (isobj x) -> qcovers Ss (P +:+ title k) (isobj r).
Proof.
  intros Hi Ht Hx (l & Hl & Hnd & Hin). exists (map (fun σ => Star :: σ) l). split; [by rewrite Hl, map_map|]. split; [by apply NoDup_map_cons|].
  intros σ. rewrite (objs_array r i x Hi); [|by rewrite (one_type_has i _ _ Ht)..|done]. setoid_rewrite <- Hin. rewrite elem_of_list_fmap. clear. naive_solver.
Qed.
Lemma no_objects r i t : d_inst false r = Ok i -> one_type i t -> t <> "object" -> t <> "array" -> forall σ, ~ isobj r σ.
Proof. intros Hi Ht H1 H2. eapply objs_leaf; [done|..]; rewrite (one_type_has i _ _ Ht) by done; by apply bool_decide_eq_false_2. Qed.
Lemma qdeclares_objects :
  (forall P G dead k target null r t Ss, qholds P G dead k target null r t Ss -> qcovers Ss (P +:+ title k) (isobj r)) /\
  (forall P G dead req k r ds Ss, qdeclares P G dead req k r ds Ss -> qcovers Ss (P +:+ title k) (isobj r)) /\
  (forall P G dead reqs ps ds Ss, qdeclares_all P G dead reqs ps ds Ss -> NoDup ps.*1 -> qcovers Ss P (inprops ps)).
Proof.
  apply (qdeclares_mutind title rename types_map pointers trim).
  - intros P G dead k target null r i t b Hi Ht Hb. apply qcovers_none. eapply no_objects; [done|done|by intros ->|by intros ->].
  - intros P G dead k target null r i Hi Ht Hf. apply qcovers_none. eapply no_objects; done.
  - intros P G dead k target null r i kp ps ds Ss Hi Ht Hps Hres _ IH Hnd1 Hnd2 Hnd3. eapply qcovers_object; [done|done|done|done|by apply IH].
  - intros P G dead k target null r i Hi Ht Hps. eapply qcovers_object; [done|done|done|done|]. apply qcovers_none. intros σ (k' & p & τ & H & _). by apply elem_of_nil in H.
  - done.
  - intros P G dead req k r i Hi Hk Ht. apply qcovers_none. eapply no_objects; done.
  - intros P G dead req k r i x j t Ss Hi Hk Ht Hx Hj Htg Hh IH. by eapply qcovers_array.
  - intros P G dead req k r i x j Hi Hk Ht Hx Hj Hv. eapply qcovers_array; [done|done|done|]. apply qcovers_none. eapply no_objects; done.
  - intros P G dead reqs _. apply qcovers_none. intros σ (k' & p & τ & H & _). by apply elem_of_nil in H.
  - intros P G dead reqs k r ds Ss ps ds' Ss' _ (l & Hl & Hndl & Hin) _ IH Hnd. cbn in Hnd. apply NoDup_cons in Hnd as [Hkp Hnd]. destruct (IH Hnd) as (l' & Hl' & Hndl' & Hin').
    exists (map (fun σ => Nm k :: σ) l ++ l'). split; [by rewrite map_app, Hl, Hl', map_app, map_map|]. split.
    + apply NoDup_app. split; [by apply NoDup_map_cons|]. split; [|done]. intros σ (τ & -> & _)%elem_of_list_fmap. rewrite Hin'. intros (k' & p & τ' & H & [= -> ->] & _).
      apply Hkp. apply elem_of_list_fmap. by exists (k', p).
    + intros σ. rewrite elem_of_app, elem_of_list_fmap, Hin'. unfold inprops. setoid_rewrite Hin. setoid_rewrite elem_of_cons. clear. naive_solver.
Qed.

(** ** the Go structs *)
Notation ndeclares_all := (ndeclares_all title rename pointers).
Notation ndeclares := (ndeclares title rename pointers).
Notation nholds := (nholds title rename pointers).
Notation bound := (go_fields (is_total title rename trim)).
Definition bound_all (T : string -> Prop) (Ss0 Ss : list qstruct) (Gs : gstructs) : Prop := forall s, s ∈ Ss -> exists gs, (qs_key s, gs) ∈ Gs /\ bound T Ss0 (qs_fields s) gs.
Lemma stands_mono (Ss Ss' : list qstruct) t ty : (forall s, s ∈ Ss -> s ∈ Ss') -> stands_for Ss t ty -> stands_for Ss' t ty.
Proof.
  intros Hin. revert t. induction ty as [| | | | | |ty IH|ty IH|ds|K]; intros t; cbn; try done.
  - intros (n & nn & -> & [->|(s & Hs & Hn)]); exists n || exists "Any"; exists nn; (split; [done|]); [by left|right; exists s; split; [by apply Hin|done]].
  - apply IH.
  - intros (t' & nn & -> & H). exists t', nn. split; [done|]. by apply IH.
  - intros (s & nn & Hs & H). exists s, nn. split; [by apply Hin|done].
Qed.
Lemma bound_mono (T T' : string -> Prop) (Ss Ss' : list qstruct) ds gs gs' : (forall n, T n -> T' n) -> (forall s, s ∈ Ss -> s ∈ Ss') -> (forall g, g ∈ gs -> g ∈ gs') -> bound T Ss ds gs -> bound T' Ss' ds gs'.
Proof.
  intros HT HS Hg H d Hd Hv Ht. destruct (H d Hd Hv Ht) as (g & ty & H1 & H2 & H3 & H4 & H5). exists g, ty. split; [by apply Hg|]. split; [done|]. split; [done|]. split; [done|].
  destruct H5 as [H5|(n & H5 & H6 & H7)]; [left; by eapply stands_mono|right; exists n; split; [done|]; split; [done|by apply HT]].
Qed.
Lemma bound_all_mono (T T' : string -> Prop) (Ss Ss' Ss0 : list qstruct) (Gs Gs' : gstructs) : (forall n, T n -> T' n) -> (forall s, s ∈ Ss -> s ∈ Ss') -> (forall g, g ∈ Gs -> g ∈ Gs') ->
  bound_all T Ss Ss0 Gs -> bound_all T' Ss' Ss0 Gs'.
Proof. intros HT HS Hg H s Hs. destruct (H s Hs) as (gs & H1 & H2). exists gs. split; [by apply Hg|]. by eapply bound_mono. Qed.
Lemma one_type_inj i t u : one_type i t -> one_type i u -> t = u.
Proof. intros [H _] [H' _]. congruence. Qed.
Lemma bound_all_app T Ss0 Ss Ss' Gs : bound_all T Ss0 Ss Gs -> bound_all T Ss0 Ss' Gs -> bound_all T Ss0 (Ss ++ Ss') Gs.
Proof. intros H1 H2 s [H|H]%elem_of_app; [by apply H1|by apply H2]. Qed.
Lemma base_obj d : base_type "object" d = None.
Proof. by destruct d. Qed.
Definition type_for (T : string -> Prop) (target : string) (Ss : list qstruct) (t : qtype) (ty : gtype) : Prop :=
  stands_for Ss t ty \/ exists n, refers_to t = Some n /\ n <> "" /\ (n = target \/ T n).
Lemma or_target_for T target Ss t ty : (target = "" -> stands_for Ss t ty) -> type_for T target Ss (or_target pointers target t) ty.
Proof. intros H. unfold type_for, or_target. case_decide as E; [left; by apply H|]. right. exists target. unfold named_type. split; [done|]. split; [done|by left]. Qed.
Lemma stands_ptr b Ss t ty : stands_for Ss t ty -> stands_for Ss t (ptr b ty).
Proof. by destruct b. Qed.
Lemma scalar_stands t d b c Ss nn : scalar_name t d = Some b -> base_type t d = Some c -> stands_for Ss (QName b nn) c.
Proof.
  unfold scalar_name, base_type. repeat case_decide; subst; try done; try (destruct d; [done|]); intros [= <-] [= <-]; by exists nn.
Qed.
Lemma qdeclares_bound :
  (forall P G dead k target null r t Ss, qholds P G dead k target null r t Ss -> forall req null' ty Gs, nholds P k req null' r ty Gs -> bound_all (below r) Ss Ss Gs /\ type_for (below r) target Ss t ty) /\
  (forall P G dead req k r ds Ss, qdeclares P G dead req k r ds Ss ->
     (forall i, d_inst false r = Ok i -> hydrated_leaf i -> Ss = [] /\ forall d, d ∈ ds -> is_virtual d = true) /\
     forall g Gs, ndeclares P req k r g Gs -> bound (below r) Ss ds [g] /\ bound_all (below r) Ss Ss Gs) /\
  (forall P G dead reqs ps ds Ss, qdeclares_all P G dead reqs ps ds Ss -> forall gs Gs, ndeclares_all P reqs ps gs Gs -> bound (target_in ps) Ss ds gs /\ bound_all (target_in ps) Ss Ss Gs).
Proof.
  assert (Hnone : forall T Ss Gs, bound_all T Ss [] Gs) by (intros T Ss Gs s H; by apply elem_of_nil in H).
  assert (Hself : forall r i, d_inst false r = Ok i -> below r (n_target i)) by (intros r i Hi; exists [], r, i; split; [constructor|done]).
  apply (qdeclares_mutind title rename types_map pointers trim).
  - intros P G dead k target null r i t b Hi Ht Hb req null' ty Gs Hn. split; [done|]. apply or_target_for. intros _.
    inversion Hn as [? ? ? ? ? i' t' b' Hi' Ht' Hb'|? ? ? ? ? i' Hi' Ht' Hf'|? ? ? ? ? i' ps' d' ds' Ss' Hi' Ht' Hps' Hall|? ? ? ? ? i' ps' Ss' Hi' Ht' Hps' Hall]; subst; assert (i' = i) as -> by congruence;
      rewrite <- (one_type_inj _ _ _ Ht Ht') in * || idtac.
    + apply stands_ptr. by eapply scalar_stands.
    + rewrite (one_type_inj _ _ _ Ht Ht'), Hf' in Hb. done.
    + by rewrite (one_type_inj _ _ _ Ht Ht') in Hb.
    + by rewrite (one_type_inj _ _ _ Ht Ht') in Hb.
  - intros P G dead k target null r i Hi Ht Hf req null' ty Gs Hn. split; [done|]. apply or_target_for. intros _.
    inversion Hn as [? ? ? ? ? i' t' b' Hi' Ht' Hb'|? ? ? ? ? i' Hi' Ht' Hf'|? ? ? ? ? i' ps' d' ds' Ss' Hi' Ht' Hps' Hall|? ? ? ? ? i' ps' Ss' Hi' Ht' Hps' Hall]; subst; assert (i' = i) as -> by congruence.
    + by rewrite <- (one_type_inj _ _ _ Ht Ht'), Hf in Hb'.
    + apply stands_ptr. by exists NNever.
    + by pose proof (one_type_inj _ _ _ Ht Ht').
    + by pose proof (one_type_inj _ _ _ Ht Ht').
  - intros P G dead k target null r i kp ps ds Ss Hi Ht Hps Hres _ IH Hnd1 Hnd2 Hnd3 req null' ty Gs Hn.
    assert (Hbel : forall n, target_in (kp :: ps) n -> below r n) by (intros n; by eapply below_object).
    inversion Hn as [? ? ? ? ? i' t' b' Hi' Ht' Hb'|? ? ? ? ? i' Hi' Ht' _|? ? ? ? ? i' ps' d' ds' Ss' Hi' Ht' Hps' Hall|? ? ? ? ? i' ps' Ss' Hi' Ht' Hps' Hall]; subst; assert (i' = i) as -> by congruence.
    + rewrite <- (one_type_inj _ _ _ Ht Ht'), base_obj in Hb'. done.
    + by pose proof (one_type_inj _ _ _ Ht Ht').
    + assert (ps' = kp :: ps) as -> by congruence. destruct (IH _ _ Hall) as [H1 H2]. split.
      * intros s [->|Hs]%elem_of_cons.
        -- eexists. split; [left|]. cbn [qs_fields]. intros d Hd. rewrite fields_by_name_perm in Hd. revert d Hd. change (bound (below r) (QStruct (P +:+ title k) (sub_type title types_map G k) (n_desc i) (dead || bool_decide (n_target i <> "")) (n_required i) (fields_by_name ds) :: Ss) ds (by_name (d' :: ds'))).
           eapply bound_mono; [exact Hbel| | |exact H1]; [intros s Hs; by right|intros g Hg; by rewrite by_name_perm].
        -- destruct (H2 s Hs) as (g & Hg & Hb). exists g. split; [by right|]. eapply bound_mono; [exact Hbel| | |exact Hb]; [intros x Hx; by right|done].
      * apply or_target_for. intros _. apply stands_ptr. cbn [stands_for]. eexists _, _. split; [left|]. cbn [qs_key qs_name]. split; [done|]. unfold named_type. done.
    + assert (ps' = kp :: ps) as -> by congruence. destruct (IH _ _ Hall) as [H1 H2]. split.
      * intros s [->|Hs]%elem_of_cons.
        -- eexists. split; [left|]. intros d Hd. cbn [qs_fields] in Hd. rewrite fields_by_name_perm in Hd. intros Hv Hto. destruct (H1 d Hd Hv Hto) as (g & ty & Hg%elem_of_nil & Hgg); done.
        -- destruct (H2 s Hs) as (g & Hg & Hb). exists g. split; [by right|]. eapply bound_mono; [exact Hbel| | |exact Hb]; [intros x Hx; by right|done].
      * apply or_target_for. intros _. apply stands_ptr. cbn [stands_for]. eexists _, _. split; [unfold named_type; done|]. right. eexists. split; [left|done].
  - intros P G dead k target null r i Hi Ht Hps req null' ty Gs Hn.
    assert (Hb : forall T Ss gs, bound T Ss [] gs) by (intros T Ss gs d Hd; by apply elem_of_nil in Hd).
    inversion Hn as [? ? ? ? ? i' t' b' Hi' Ht' Hb'|? ? ? ? ? i' Hi' Ht' _|? ? ? ? ? i' ps' d' ds' Ss' Hi' Ht' Hps' Hall|? ? ? ? ? i' ps' Ss' Hi' Ht' Hps' Hall]; subst; assert (i' = i) as -> by congruence.
    + rewrite <- (one_type_inj _ _ _ Ht Ht'), base_obj in Hb'. done.
    + by pose proof (one_type_inj _ _ _ Ht Ht').
    + assert (ps' = []) as -> by congruence. by inversion Hall.
    + split.
      * intros s ->%elem_of_list_singleton. eexists. split; [left|]. apply Hb.
      * case_decide as E; [left; apply stands_ptr; cbn; eexists _, _; split; [done|by left]|]. right. exists target. split; [done|]. split; [done|by left].
  - intros P G dead req k r i t Ss Hi Hk Hh IH.
    assert (Hone : exists u, one_type i u /\ u <> "graphql-hydration" /\ u <> "array").
    { inversion Hh as [? ? ? ? ? ? ? i' t' b' Hi' Ht' Hb'|? ? ? ? ? ? ? i' Hi' Ht' _|? ? ? ? ? ? ? i' kp ps ds' Ss' Hi' Ht'|? ? ? ? ? ? ? i' Hi' Ht']; subst; assert (i' = i) as -> by congruence; (eexists; split; [exact Ht'|]); try done.
      split; by intros ->. }
    destruct Hone as (u & Hu & Hu1 & Hu2). split.
    + intros i' Hi' (H & _). assert (i' = i) as -> by congruence. unfold hydrated in H. apply (one_type_in i u) in H; [done|done|done].
    + intros g Gs Hn. inversion Hn as [? ? ? ? i' ty Ss' Hi' Hk' Hn'|? ? ? ? i' x ty Ss' Hi' Ha Hk' Hx Hn'|? ? ? ? i' x j Hi' Ha]; subst; assert (i' = i) as -> by congruence.
      * destruct (IH _ _ _ _ Hn') as [H1 H2]. split; [|done]. intros d ->%elem_of_list_singleton _ _. eexists _, ty. split; [left|]. split; [done|]. split; [done|]. split; [done|].
        destruct H2 as [H2|(n & H2 & H3 & [->|H4])]; [by left| |]; right; [exists (n_target i)|exists n]; (split; [done|]); (split; [done|]); [by apply Hself|done].
      * by pose proof (one_type_inj _ _ _ Hu Ha).
      * by pose proof (one_type_inj _ _ _ Hu Ha).
  - intros P G dead req k r i Hi Hk Ht. split; [intros i' _ _; split; [done|by intros d ->%elem_of_list_singleton]|]. intros g Gs _. split; [by intros d ->%elem_of_list_singleton|done].
  - intros P G dead req k r i x j t Ss Hi Hk Ht Hx Hj Htg Hh IH. split.
    + intros i' Hi' (H & _). assert (i' = i) as -> by congruence. unfold hydrated in H. apply (one_type_in i "array") in H; [done|done|done].
    + intros g Gs Hn. inversion Hn as [? ? ? ? i' ty Ss' Hi' Hk' Hn'|? ? ? ? i' x' ty Ss' Hi' Ha Hk' Hx' Hn'|? ? ? ? i' x' j' Hi' Ha Hk' Hx' Hj' Hl]; subst; assert (i' = i) as -> by congruence.
      * exfalso. inversion Hn' as [? ? ? ? ? i' t' b' Hi2 Ht' Hb'|? ? ? ? ? i' Hi2 Ht' _|? ? ? ? ? i' ps' d' ds' Ss2 Hi2 Ht' Hps' Hall|? ? ? ? ? i' ps' Ss2 Hi2 Ht' Hps' Hall]; subst; assert (i' = i) as -> by congruence.
        -- by rewrite <- (one_type_inj _ _ _ Ht Ht') in Hb'.
        -- by pose proof (one_type_inj _ _ _ Ht Ht').
        -- by pose proof (one_type_inj _ _ _ Ht Ht').
        -- by pose proof (one_type_inj _ _ _ Ht Ht').
      * assert (x' = x) as -> by congruence. destruct (IH _ _ _ _ Hn') as [H1 H2]. assert (Hb : forall n, below x n -> below r n) by (intros n; by eapply below_array). split; [|by eapply bound_all_mono].
        intros d [->| ->%elem_of_list_singleton]%elem_of_cons Hv Hto; [exfalso; apply Hto; by exists i, k|]. eexists _, (TSlice ty). split; [left|]. split; [done|]. split; [done|]. split; [done|]. cbn [qd_type refers_to].
        destruct H2 as [H2|(n & H2 & H3 & [->|H4])]; [left; by eexists _, _| |]; right; [exists (n_target i)|exists n]; (split; [done|]); (split; [done|]); [by apply Hself|by apply Hb].
      * assert (x' = x) as -> by congruence. assert (j' = j) as -> by congruence. exfalso. destruct Hl as (Hl & _). unfold hydrated in Hl.
        assert (Hone : exists u, one_type j u /\ u <> "graphql-hydration").
        { inversion Hh as [? ? ? ? ? ? ? i' t' b' Hi2 Ht' Hb'|? ? ? ? ? ? ? i' Hi2 Ht' _|? ? ? ? ? ? ? i' kp ps ds' Ss' Hi2 Ht'|? ? ? ? ? ? ? i' Hi2 Ht']; subst; assert (i' = j) as -> by congruence; (eexists; split; [exact Ht'|]); try done. by intros ->. }
        destruct Hone as (u & Hu & Hu1). by apply (one_type_in j u) in Hl.
  - intros P G dead req k r i x j Hi Hk Ht Hx Hj Hv. split.
    + intros i' Hi' (H & _). assert (i' = i) as -> by congruence. unfold hydrated in H. apply (one_type_in i "array") in H; [done|done|done].
    + intros g Gs _. split; [|done]. intros d [->| ->%elem_of_list_singleton]%elem_of_cons Hvi Hto; [exfalso; apply Hto; by exists i, k|done].
  - intros P G dead reqs gs Gs _. split; [|done]. intros d Hd. by apply elem_of_nil in Hd.
  - intros P G dead reqs k r ds Ss ps ds' Ss' _ [IH1 IH2] _ IH3 gs Gs Hn.
    assert (HT1 : forall n, below r n -> target_in ((k, r) :: ps) n) by (intros n; eapply target_prop; left).
    assert (HT2 : forall n, target_in ps n -> target_in ((k, r) :: ps) n).
    { intros n (σ & x & i & Hw & H). exists σ, x, i. split; [|done]. destruct Hw as [k' p τ x Hin Hw|? ? ? [=]]. eapply swinst_prop; [by right|done]. }
    assert (HS1 : forall s, s ∈ Ss -> s ∈ Ss ++ Ss') by (intros s Hs; apply elem_of_app; by left). assert (HS2 : forall s, s ∈ Ss' -> s ∈ Ss ++ Ss') by (intros s Hs; apply elem_of_app; by right).
    inversion Hn as [|? ? ? ? i ? ? ? Hi Hl Hk Hr|? ? ? ? d ? ? S1 S2 Hd Hr]; subst.
    + destruct (IH1 i Hi Hl) as [-> H2]. destruct (IH3 _ _ Hr) as [H3 H4]. split.
      * intros d [Hd|Hd]%elem_of_app Hv; [by rewrite (H2 d Hd) in Hv|]. revert Hv. eapply bound_mono; [exact HT2|exact HS2|intros g Hg; exact Hg|exact H3|exact Hd].
      * eapply bound_all_mono; [exact HT2|intros s Hs; exact Hs|done|done].
    + destruct (IH2 _ _ Hd) as [H1 H2]. destruct (IH3 _ _ Hr) as [H3 H4]. split.
      * intros x [Hx|Hx]%elem_of_app Hv.
        -- revert Hv. eapply bound_mono; [exact HT1|exact HS1| |exact H1|exact Hx]. intros g ->%elem_of_list_singleton. left.
        -- revert Hv. eapply bound_mono; [exact HT2|exact HS2| |exact H3|exact Hx]. intros g Hg. by right.
      * apply bound_all_app.
        -- eapply bound_all_mono; [exact HT1|exact HS1| |exact H2]. intros g Hg; apply elem_of_app; by left.
        -- eapply bound_all_mono; [exact HT2|exact HS2| |exact H4]. intros g Hg; apply elem_of_app; by right.
Qed.
End text.

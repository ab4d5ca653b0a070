(** The structs of a schema are one for each of its objects. *)
From stdpp Require Import strings list gmap sorting.
From Coq Require Import Ascii ZArith Lia.
From Verif Require Import GoStr GoStrL Val Conv Schema Inst Load SpecConv ConvT SpecPath PathL SpecSchema SpecWalk WalkL SpecLoad FlatL SpecGen SpecNamed Gen GenL SortL GenP GenM GenT KeyedL NamedL NamedM NamedT NamedF.

Section keys.
Context (title : string -> string) (rename : string -> option string) (pointers : bool).
Notation tname := (type_name title).
Definition isobj (r : tree) (σ : list seg) : Prop := exists x, winst r σ x /\ "object" ∈ type_names x.
Lemma objs_leaf r i : d_inst false r = Ok i -> has_type "object" i = false -> has_type "array" i = false -> forall σ, ~ isobj r σ.
Proof.
  intros Hi Ho Ha σ (x & Hw & Hx).
  assert (No : "object" ∉ type_names r). { rewrite <- (d_inst_type _ _ _ "object" ltac:(done) Hi). congruence. }
  assert (Na : "array" ∉ type_names r). { rewrite <- (d_inst_type _ _ _ "array" ltac:(done) Hi). congruence. }
  by destruct Hw.
Qed.
Lemma objs_object r i ps : d_inst false r = Ok i -> has_type "object" i = true -> n_props i = Some ps -> forall σ,
  isobj r σ <-> σ = [] \/ exists k p τ, (k, p) ∈ ps /\ σ = Nm k :: τ /\ isobj p τ.
Proof.
  intros Hi Ho Hps σ. assert (Io := proj1 (d_inst_type _ _ _ "object" ltac:(done) Hi) Ho). apply (d_inst_props _ _ _ _ Hi) in Hps. split.
  - intros (x & Hw & Hx). destruct Hw as [|raw ps' k p τ x Ho' Hps' Hin Hw|raw j τ x Ho' Ha' Hj Hw]; [by left| |done]. right.
    assert (ps' = ps) as -> by congruence. exists k, p, τ. split; [done|]. split; [done|]. by exists x.
  - intros [->|(k & p & τ & Hin & -> & x & Hw & Hx)]; [exists r; split; [constructor|done]|]. exists x. split; [|done]. by eapply winst_prop.
Qed.
Lemma objs_array r i y : d_inst false r = Ok i -> has_type "object" i = false -> has_type "array" i = true -> n_items i = Some y -> forall σ,
  isobj r σ <-> exists τ, σ = Star :: τ /\ isobj y τ.
Proof.
  intros Hi Ho Ha Hy σ. assert (Ia := proj1 (d_inst_type _ _ _ "array" ltac:(done) Hi) Ha). rewrite (d_inst_items _ _ _ Hi) in Hy.
  assert (No : "object" ∉ type_names r). { rewrite <- (d_inst_type _ _ _ "object" ltac:(done) Hi). congruence. } split.
  - intros (x & Hw & Hx). destruct Hw as [|raw ps' k p τ x Ho' Hps' Hin Hw|raw j τ x Ho' Ha' Hj Hw]; [done..|].
    assert (j = y) as -> by congruence. exists τ. split; [done|]. by exists x.
  - intros (τ & -> & x & Hw & Hx). exists x. split; [|done]. by eapply winst_item.
Qed.
Definition covers (Ss : gstructs) (P : string) (O : list seg -> Prop) : Prop := exists l, Ss.*1 = map (tname P) l /\ NoDup l /\ forall σ, σ ∈ l <-> O σ.
Definition inprops (ps : list (string * tree)) (σ : list seg) : Prop := exists k p τ, (k, p) ∈ ps /\ σ = Nm k :: τ /\ isobj p τ.
Lemma covers_none P O : (forall σ, ~ O σ) -> covers [] P O.
Proof. intros H. exists []. split_and!; [done|constructor|]. intros σ. split; [by intros ?%elem_of_nil|by intros ?%H]. Qed.
Lemma NoDup_map_cons (s : seg) l : NoDup l -> NoDup (map (fun σ : list seg => s :: σ) l).
Proof. intros H. apply NoDup_fmap_2; [|done]. by intros x y [= ->]. Qed.
Lemma covers_object P k r i ps ds Ss : d_inst false r = Ok i -> one_type i "object" -> n_props i = Some ps ->
  covers Ss (P +:+ title k) (inprops ps) -> covers ((P +:+ title k, ds) :: Ss) (P +:+ title k) (isobj r).
Proof.
  intros Hi Ht Hps (l & Hl & Hnd & Hin). exists ([] :: l). split; [cbn; by rewrite Hl|]. split.
  - constructor; [|done]. rewrite Hin. by intros (? & ? & ? & _ & [=] & _).
  - intros σ. rewrite elem_of_cons, Hin. rewrite (objs_object r i ps Hi); [done| |done]. by rewrite (one_type_has i _ _ Ht).
Qed.
Lemma ndeclares_objects :
  (forall P k req null r ty Ss, nholds title rename pointers P k req null r ty Ss -> covers Ss (P +:+ title k) (isobj r)) /\
  (forall P req k r d Ss, ndeclares title rename pointers P req k r d Ss -> covers Ss (P +:+ title k) (isobj r)) /\
  (forall P reqs ps ds Ss, ndeclares_all title rename pointers P reqs ps ds Ss -> NoDup ps.*1 -> covers Ss P (inprops ps)).
Proof.
  apply ndeclares_mutind.
  - intros P k req null r i t b Hi Ht Hb. apply covers_none. eapply objs_leaf; [done|..]; rewrite (one_type_has i _ _ Ht) by done; apply bool_decide_eq_false_2; by intros <-.
  - intros P k req null r i Hi Ht _. apply covers_none. eapply objs_leaf; [done|..]; by rewrite (one_type_has i _ _ Ht) by done.
  - intros P k req null r i ps d ds Ss Hi Ht Hps _ IH _ Hnd. eapply covers_object; eauto.
  - intros P k req null r i ps Ss Hi Ht Hps _ IH Hnd _. eapply covers_object; eauto.
  - done.
  - intros P req k r i x ty Ss Hi Ht Hk Hx _ (l & Hl & Hnd & Hin). exists (map (fun σ => Star :: σ) l). split; [by rewrite Hl, map_map|]. split; [by apply NoDup_map_cons|].
    intros σ. rewrite (objs_array r i x Hi); [|by rewrite (one_type_has i _ _ Ht)..|done]. setoid_rewrite <- Hin. rewrite elem_of_list_fmap. naive_solver.
  - intros P req k r i x j Hi Ht Hk Hx Hj (Hh & Ho & Ha). apply covers_none. intros σ. rewrite (objs_array r i x Hi); [|by rewrite (one_type_has i _ _ Ht)..|done].
    intros (τ & -> & Hy). eapply (objs_leaf x j); [done|by apply bool_decide_eq_false_2..|done].
  - intros P reqs _. apply covers_none. intros σ (k & p & τ & H & _). by apply elem_of_nil in H.
  - intros P reqs k r i ps ds Ss Hi (Hh & Ho & Ha) Hk _ IH Hnd. cbn in Hnd. apply NoDup_cons in Hnd as [Hkp Hnd]. destruct (IH Hnd) as (l & Hl & Hndl & Hin). exists l. split_and!; [done..|].
    intros σ. rewrite Hin. unfold inprops. setoid_rewrite elem_of_cons. split; [naive_solver|]. intros (k' & p & τ & [[= -> ->]|H] & -> & Hp); [|eauto 10].
    exfalso. eapply (objs_leaf r i); [done|by apply bool_decide_eq_false_2..|done].
  - intros P reqs k r d ps ds Ss Ss' _ (l & Hl & Hndl & Hin) _ IH Hnd. cbn in Hnd. apply NoDup_cons in Hnd as [Hkp Hnd]. destruct (IH Hnd) as (l' & Hl' & Hndl' & Hin').
    exists (map (fun σ => Nm k :: σ) l ++ l'). split; [by rewrite fmap_app, Hl, Hl', map_app, map_map|]. split.
    + apply NoDup_app. split; [by apply NoDup_map_cons|]. split; [|done]. intros σ (τ & -> & _)%elem_of_list_fmap. rewrite Hin'. intros (k' & p & τ' & H & [= -> ->] & _).
      apply Hkp. apply elem_of_list_fmap. by exists (k', p).
    + intros σ. rewrite elem_of_app, elem_of_list_fmap, Hin'. unfold inprops. setoid_rewrite Hin. setoid_rewrite elem_of_cons. naive_solver.
Qed.
Lemma inprops_in ps σ : inprops ps σ <-> object_in ps σ.
Proof.
  split.
  - intros (k & p & τ & Hin & -> & x & Hw & Hx). exists x. split; [|done]. by eapply swinst_prop.
  - intros (x & [k p τ x' Hin Hw|] & Hx); [|done]. exists k, p, τ. split; [done|]. split; [done|]. by exists x'.
Qed.
Lemma structs_objects P reqs ps ds Ss : ndeclares_all title rename pointers P reqs ps ds Ss -> NoDup ps.*1 ->
  exists l, Ss.*1 = map (tname P) l /\ NoDup l /\ forall σ, σ ∈ l <-> object_in ps σ.
Proof. intros H Hnd. destruct (proj2 (proj2 ndeclares_objects) _ _ _ _ _ H Hnd) as (l & H1 & H2 & H3). exists l. split_and!; [done..|]. intros σ. by rewrite H3, inprops_in. Qed.

(** ** references *)
Definition refs_ok (Ss : gstructs) (t : gtype) : Prop := forall Q, refers t Q -> exists ds, (Q, ds) ∈ Ss /\ ds <> [].
Definition closed (Ss : gstructs) (Ss0 : gstructs) : Prop := forall s d Q, s ∈ Ss0 -> d ∈ s.2 -> field_refers d Q -> exists ds, (Q, ds) ∈ Ss /\ ds <> [].
Lemma refs_flat Ss b n t d : base_type t d = Some b -> refs_ok Ss (ptr n b).
Proof. unfold base_type. repeat case_decide; destruct d; intros E; try done; injection E as <-; intros Q HQ; by destruct n. Qed.
Lemma ndeclares_refs :
  (forall P k req null r ty Ss, nholds title rename pointers P k req null r ty Ss -> refs_ok Ss ty /\ closed Ss Ss) /\
  (forall P req k r d Ss, ndeclares title rename pointers P req k r d Ss -> (forall Q, field_refers d Q -> exists ds, (Q, ds) ∈ Ss /\ ds <> []) /\ closed Ss Ss) /\
  (forall P reqs ps ds Ss, ndeclares_all title rename pointers P reqs ps ds Ss -> (forall d Q, d ∈ ds -> field_refers d Q -> exists ds, (Q, ds) ∈ Ss /\ ds <> []) /\ closed Ss Ss).
Proof.
  assert (Hnone : forall Ss, closed Ss []) by (intros Ss s d Q H; by apply elem_of_nil in H).
  apply ndeclares_mutind.
  - intros P k req null r i t b Hi Ht Hb. split; [by eapply refs_flat|done].
  - intros P k req null r i Hi Ht _. split; [|done]. intros Q. by destruct (_ || _).
  - intros P k req null r i ps d ds Ss Hi Ht Hps _ [IH1 IH2] _ Hnd.
    assert (Hne : by_name (d :: ds) <> []). { intros E. pose proof (Permutation_length (by_name_perm (d :: ds))) as Hl. by rewrite E in Hl. }
    split.
    + intros Q HQ. assert (Q = P +:+ title k) as -> by (by destruct (_ || _)). exists (by_name (d :: ds)). split; [left|done].
    + intros s d' Q [->|Hs]%elem_of_cons Hd HQ.
      * cbn [snd] in Hd. rewrite by_name_perm in Hd. destruct (IH1 _ _ Hd HQ) as (x & Hx & Hn). exists x. split; [by right|done].
      * destruct (IH2 _ _ _ Hs Hd HQ) as (x & Hx & Hn). exists x. split; [by right|done].
  - intros P k req null r i ps Ss Hi Ht Hps _ [IH1 IH2] Hnd _. split; [by intros Q; destruct null|].
    intros s d' Q [->|Hs]%elem_of_cons Hd HQ; [by apply elem_of_nil in Hd|]. destruct (IH2 _ _ _ Hs Hd HQ) as (x & Hx & Hn). exists x. split; [by right|done].
  - intros P req k r i ty Ss Hi Hk _ [IH1 IH2]. done.
  - intros P req k r i x ty Ss Hi Ht Hk Hx _ [IH1 IH2]. done.
  - done.
  - intros P reqs. split; [|done]. intros d Q H. by apply elem_of_nil in H.
  - done.
  - intros P reqs k r d ps ds Ss Ss' _ [H1 H2] _ [H3 H4].
    assert (Hl : forall Q, (exists ds, (Q, ds) ∈ Ss /\ ds <> []) -> exists ds, (Q, ds) ∈ Ss ++ Ss' /\ ds <> []) by (intros Q (x & Hx & Hn); exists x; split; [apply elem_of_app; by left|done]).
    assert (Hr : forall Q, (exists ds, (Q, ds) ∈ Ss' /\ ds <> []) -> exists ds, (Q, ds) ∈ Ss ++ Ss' /\ ds <> []) by (intros Q (x & Hx & Hn); exists x; split; [apply elem_of_app; by right|done]).
    split.
    + intros d' Q [->|Hd]%elem_of_cons HQ; [by apply Hl, H1|apply Hr; by eapply H3].
    + intros s d' Q [Hs|Hs]%elem_of_app Hd HQ; [apply Hl; by eapply H2|apply Hr; by eapply H4].
Qed.
Lemma refs_declared P reqs ps ds Ss : ndeclares_all title rename pointers P reqs ps ds Ss ->
  forall d Q, (d ∈ ds \/ exists s, s ∈ Ss /\ d ∈ s.2) -> field_refers d Q -> exists ds', (Q, ds') ∈ Ss /\ ds' <> [].
Proof. intros H. destruct (proj2 (proj2 ndeclares_refs) _ _ _ _ _ H) as [H1 H2]. intros d Q [Hd|(s & Hs & Hd)] HQ; [by eapply H1|by eapply H2]. Qed.
End keys.

(** ** names that stay as they are *)
Section title.
Context (W : oracles).
Notation title := (exported W).
Lemma title_any b s : title_go false s = s -> title_go b s = s.
Proof. destruct s as [|a s]; [done|]. cbn. destruct b; [|done]. by intros [= _ ->]. Qed.
Lemma title_app b s t : title_go b (s +:+ t) = title_go b s +:+ title_go (match List.rev (list_ascii_of_string s) with [] => b | a :: _ => is_word a end) t.
Proof.
  revert b. induction s as [|a s IH]; intros b; [done|]. rewrite sapp_cons. cbn [title_go list_ascii_of_string List.rev]. rewrite sapp_cons, IH. f_equal. f_equal. f_equal.
  by destruct (List.rev (list_ascii_of_string s)).
Qed.
Lemma upper_upper a : upper_char (upper_char a) = upper_char a /\ is_word (upper_char a) = is_word a /\ (is_ascii_char a = true -> is_ascii_char (upper_char a) = true).
Proof. destruct a as [[] [] [] [] [] [] [] []]; vm_compute; done. Qed.
Lemma title_idem b s : title_go b (title_go b s) = title_go b s.
Proof. revert b. induction s as [|a s IH]; intros b; [done|]. cbn. destruct (upper_upper a) as (H1 & H2 & _). destruct b; cbn; rewrite ?H1, ?H2, IH; done. Qed.
Lemma title_ascii b s : str_all is_ascii_char s = true -> str_all is_ascii_char (title_go b s) = true.
Proof. revert b. induction s as [|a s IH]; intros b; [done|]. cbn. intros [Ha Hs]%andb_prop. rewrite IH by done. destruct b; [by rewrite Ha|]. destruct (upper_upper a) as (_ & _ & ->); done. Qed.
Lemma all_app s t : str_all is_ascii_char (s +:+ t) = str_all is_ascii_char s && str_all is_ascii_char t.
Proof. induction s as [|a s IH]; [done|]. rewrite sapp_cons. cbn. by rewrite IH, andb_assoc. Qed.
Definition kept (P : string) : Prop := str_all is_ascii_char P = true /\ title P = P.
Lemma kept_title k : ascii_string k -> kept (title k).
Proof.
  intros Hk%ascii_all. unfold kept, exported, go_title. rewrite Hk. assert (Ha := title_ascii false k Hk). split; [done|]. rewrite Ha. apply title_idem.
Qed.
Lemma kept_app P Q : kept P -> kept Q -> kept (P +:+ Q).
Proof.
  unfold kept, exported, go_title. intros [HP1 HP2] [HQ1 HQ2]. rewrite HP1 in HP2. rewrite HQ1 in HQ2. rewrite all_app, HP1, HQ1. split; [done|].
  cbn [andb]. rewrite title_app, HP2. by rewrite title_any.
Qed.
Lemma kept_type_name P σ : kept P -> (forall k, Nm k ∈ σ -> ascii_string k) -> kept (type_name title P σ).
Proof.
  revert P. induction σ as [|s σ IH]; intros P HP Hs; [done|]. cbn. destruct s as [k| |]; apply IH; try done.
  all: try (intros k' Hk'; apply Hs; by right). apply kept_app; [done|]. apply kept_title. apply Hs. left.
Qed.
End title.

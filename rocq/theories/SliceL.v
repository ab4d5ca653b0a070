(** C42: no field of a generated file is a slice of slices. *)
From stdpp Require Import strings list gmap.
From Coq Require Import Ascii ZArith Lia.
From Verif Require Import GoStr GoStrL Val Conv Schema Inst Load SpecPath PathL SpecWalk WalkL SpecLoad FlatL SpecGen Gen GenL SortL GenP GenM GenT GenU SpecSlice.

Definition fit (fs : list (string * field)) : Prop := forall f, field_in f fs -> no_bracket (f_type f).
Lemma put_in {A} k (v : A) l x : x ∈ put k v l -> x = (k, v) \/ x ∈ l.
Proof.
  induction l as [|[k' v'] l IH]; cbn [put]; [intros H; left; by apply elem_of_list_singleton in H|].
  destruct (decide (k' = k)); intros [->|H]%elem_of_cons; [by left|right; by right|right; left|].
  destruct (IH H) as [->|?]; [by left|right; by right].
Qed.
Lemma fit_nil : fit [].
Proof. intros f H. inversion H as [k fs Hin|k g fs Hin]; subst; by apply elem_of_nil in Hin. Qed.
Lemma fit_put n v fs : fit fs -> no_bracket (f_type v) -> fit (f_fields v) -> fit (put n v fs).
Proof.
  intros Hfs Hv Hv' f H. inversion H as [k fs' Hin|k g fs' Hin Hb]; subst.
  - apply put_in in Hin as [[= -> ->]|Hin]; [done|]. apply Hfs. by eapply field_here.
  - apply put_in in Hin as [[= -> ->]|Hin]; [by apply Hv'|]. apply Hfs. by eapply field_below.
Qed.
Lemma fit_sub n f fs : fit fs -> assocd n fs = Some f -> no_bracket (f_type f) /\ fit (f_fields f).
Proof.
  intros H E. apply assocd_elem in E. split; [apply H; by eapply field_here|]. intros g Hg. apply H. by eapply field_below.
Qed.
Lemma single_in l t ty : single_type l t = Ok ty -> ty = t \/ ty ∈ l.
Proof.
  revert t. induction l as [|x l IH]; intros t H; cbn in H; [injection H as ->; by left|].
  destruct (decide (x = "null")); [destruct (IH _ H); [by left|right; by right]|]. destruct (decide (t <> "")); [done|].
  destruct (IH _ H) as [->|]; right; [left|by right].
Qed.

Section slice.
Context (W : oracles) (A : args).
Lemma fit_leaf rename made fs n i fs' : fit fs -> (forall t, t ∈ types i -> no_bracket t) -> add_leaf W rename made fs n i = Ok fs' -> fit fs'.
Proof.
  intros Hfs Hi H. unfold add_leaf in H. destruct (single_type (types_of i) "") as [ty| |] eqn:Es; [|done..]. cbn [rbind] in H.
  assert (Hty : no_bracket ty). { apply single_in in Es as [->|Hin]; [intros s; discriminate|by apply Hi]. }
  match type of H with rbind ?e _ = _ => destruct e as [f| |] eqn:Ef end; [|done..]. cbn [rbind] in H.
  assert (Hf : no_bracket (f_type f) /\ fit (f_fields f)).
  { destruct (assocd n fs) as [g|] eqn:Eg.
    - destruct (f_array g && bool_decide (f_type g = "")); [|done]. injection Ef as <-. cbn. split; [done|]. by apply (fit_sub _ _ _ Hfs Eg).
    - injection Ef as <-. cbn. split; [done|apply fit_nil]. }
  destruct Hf as [Hf1 Hf2].
  set (ty' := if has_type "string" i && bool_decide (n_format i = "date-time") then "date-time" else f_type f) in H.
  assert (Hty' : no_bracket ty')  by (unfold ty'; destruct (has_type "string" i && bool_decide (n_format i = "date-time")); [intros s E; cbn in E; discriminate E|exact Hf1]).
  cbv zeta in H. destruct made; [|repeat case_match; discriminate H]. injection H as <-.
  destruct (decide (ty' = "array")); [|destruct (decide (ty' = "object"))]; apply fit_put; cbn; try done; try apply fit_nil.
Qed.
Lemma fit_add rename tree i : (forall t, t ∈ types i -> no_bracket t) -> forall made fs fs',
  fit fs -> add_field W rename made fs tree i = Ok fs' -> fit fs'.
Proof.
  intros Hi. induction tree as [|n tree IH]; intros made fs fs' Hfs H; cbn [add_field] in H; destruct (has_type "graphql-hydration" i); try (by injection H as <-).
  destruct tree as [|n' tree]; [by eapply fit_leaf|].
  destruct (assocd n fs) as [f|] eqn:Ef.
  - destruct (fit_sub _ _ _ Hfs Ef) as [Hf1 Hf2].
    destruct (add_field W rename (f_made f) (f_fields f) (n' :: tree) i) as [fs1| |] eqn:E; [|done..]. cbn [rbind] in H. injection H as <-.
    apply fit_put; [done|done|]. by eapply IH; [|exact E].
  - destruct made; [|done]. destruct (add_field W rename true [] (n' :: tree) i) as [fs1| |] eqn:E; [|done..]. cbn [rbind] in H. injection H as <-.
    apply fit_put; [done|intros ? EE; cbn in EE; discriminate EE|]. eapply IH; [|exact E]. apply fit_nil.
Qed.
Definition fits_file (name : string) (g : gofile) : Prop :=
  g_name (gf_root g) = name /\ fit (g_fields (gf_root g)) /\ forall k s, (k, s) ∈ gf_nested g -> fit (g_fields s).
Lemma join_head a l : a <> "" -> no_bracket a -> no_bracket (join "" (a :: l)).
Proof.
  intros Ha Hn s H. destruct a as [|c a]; [done|].
  assert (Hj : exists r, join "" (String c a :: l) = String c r).
  { destruct l; [by exists a|]. eexists. cbn [join]. reflexivity. }
  destruct Hj as [r Hj]. rewrite Hj in H. injection H as -> _. by apply (Hn a).
Qed.
Lemma fit_walk name p i g g' : exported W name <> "" -> no_bracket (exported W name) -> (forall t, t ∈ types i -> no_bracket t) ->
  fits_file name g -> walk_func W A p i g = (g', Ok tt) -> fits_file name g'.
Proof.
  intros Hne Hnb Hi (Hn & Hr & Hs) H. unfold walk_func in H. destruct (a_noNested A); cbn [negb] in H.
  - set (parts := exported W (g_name (gf_root g)) :: _) in H. set (pk := join "" (removelast parts)) in H.
    destruct (rev (split_json_path p)) as [|n ns]; [done|].
    set (gen := default (gf_root g) (assocd pk (gf_nested g))) in H.
    assert (Hgen : fit (g_fields gen)).
    { unfold gen. destruct (assocd pk (gf_nested g)) as [s|] eqn:Es; [|done]. cbn. eapply Hs. by apply assocd_elem. }
    assert (Hback : forall fs, fit fs -> fits_file name match assocd pk (gf_nested g) with
                     | Some _ => GoFile (gf_root g) (put pk (with_fields gen fs) (gf_nested g))
                     | None => GoFile (with_fields (gf_root g) fs) (gf_nested g)
                     end).
    { intros fs Hfs. destruct (assocd pk (gf_nested g)); split; [done| |done|]; cbn.
      - split; [done|]. intros k s' [[= -> ->]|Hin]%put_in; [done|by eapply Hs].
      - split; [done|]. done. }
    destruct (has_type "object" i).
    + match type of H with context [add_field W _ true _ [n] ?j] => destruct (add_field W (a_fieldNames A) true (g_fields gen) [n] j) as [fs| |] eqn:E end; [|done..].
      injection H as <-.
      assert (Hfs : fit fs).
      { eapply fit_add; [|exact Hgen|exact E]. cbn. intros t ->%elem_of_list_singleton.
        match goal with |- no_bracket (if ?b then _ else _) => destruct b end; [intros ? EE; cbn in EE; discriminate EE|]. unfold parts. rewrite Hn. by apply join_head. }
      destruct (Hback fs Hfs) as (H1 & H2 & H3). split; [done|]. split; [done|]. cbn.
      intros k s [[= -> ->]|Hin]%put_in; [apply fit_nil|by eapply H3].
    + destruct (add_field W (a_fieldNames A) true (g_fields gen) [n] i) as [fs| |] eqn:E; [|done..].
      injection H as <-. apply Hback. by eapply fit_add.
  - destruct (add_field W (a_fieldNames A) true (g_fields (gf_root g)) (split_json_path p) i) as [fs| |] eqn:E; [|done..].
    injection H as <-. split; [done|]. split; [|done]. cbn. by eapply fit_add.
Qed.
Lemma calls_keep {X S} (P : S -> Prop) (fn : string -> X -> S -> S * res unit) vs final :
  (forall σ x s s', (σ, x) ∈ vs -> P s -> fn (path_of σ) x s = (s', Ok tt) -> P s') ->
  forall s s', P s -> calls fn vs final s = (s', Ok tt) -> P s'.
Proof.
  induction vs as [|[σ x] vs IH]; intros Hs s s' HP H; [injection H as <- _; done|].
  cbn in H. destruct (fn (path_of σ) x s) as [s1 [[]| |]] eqn:E; [|done..].
  eapply IH; [|by eapply Hs; [left|..|exact E]|exact H]. intros σ' x' ? ? Hin. apply Hs. by right.
Qed.
Lemma go_type_one pointers required nested f : no_bracket (f_type f) -> exists t, no_bracket t /\ go_type pointers required nested f = (if f_array f then "[]" +:+ t else t).
Proof.
  intros Hf. unfold go_type. eexists. split; [|reflexivity]. repeat case_match; done.
Qed.
Lemma never_slices ord schema name embeds g f pointers required : map_order ord -> named (default [] (n_props schema)) ->
  (forall σ r, swinst (default [] (n_props schema)) (n_items schema) σ r -> props_named r) ->
  (forall σ r i t, swinst (default [] (n_props schema)) (n_items schema) σ r -> d_inst false r = Ok i -> t ∈ types i -> no_bracket t) ->
  go_title W name <> "" -> no_bracket (go_title W name) ->
  new_file W A ord schema name embeds = Ok g -> file_field g f -> ~ slice_of_slices (go_type pointers required (gf_nested g) f).
Proof.
  intros Hord Hnm Hps Hty Hne Hnb H Hf [t Ht]. unfold new_file in H.
  destruct (walk_visits ord (n_props schema) (n_items schema) Hord Hnm Hps) as (vs & is & final & He & H2 & Hin & _).
  rewrite He in H. set (root := GStruct _ _ _ _) in H. destruct (calls (walk_func W A) is final (GoFile root [])) as [g' [[]| |]] eqn:E; [|done..].
  injection H as ->.
  assert (Hfit : fits_file name g).
  { eapply (calls_keep (fits_file name)); [| |exact E].
    - intros σ i s s' Hi Hs Hw. eapply fit_walk; [done|done| |exact Hs|exact Hw]. intros u Hu.
      apply elem_of_list_lookup in Hi as [m Hm]. destruct (Forall2_lookup_r _ _ _ _ _ H2 Hm) as ([σ' r] & Hm' & Ha & Hb). cbn in Ha, Hb. subst σ'.
      eapply Hty; [apply Hin; by eapply elem_of_list_lookup_2|exact Hb|exact Hu].
    - split; [done|]. split; [apply fit_nil|]. intros k s []%elem_of_nil. }
  assert (Hb : no_bracket (f_type f)).
  { destruct Hfit as (_ & H3 & H4). destruct Hf as [Hf|(k & s & Hk & Hf)]; [by apply H3|by eapply H4]. }
  destruct (go_type_one pointers required (gf_nested g) f Hb) as (u & Hu & Hg). rewrite Hg in Ht. destruct (f_array f).
  - injection Ht as Ht. by apply (Hu ("]" +:+ t)).
  - by apply (Hu ("][]" +:+ t)).
Qed.
End slice.

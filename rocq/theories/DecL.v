(** Which instances decode. *)
From stdpp Require Import strings list gmap.
From Coq Require Import ZArith Lia.
From Verif Require Import Den BuildL ProjL WalkL AgreeL.
From Verif Require Import GoStr Val Schema Inst SpecPath SpecSchema SpecWalk SpecDec World Cases.

Definition good {A} (r : res A) : Prop := exists a, r = Ok a.
Lemma good_bind {A B} (r : res A) (f : A -> res B) : good (rbind r f) <-> exists a, r = Ok a /\ good (f a).
Proof.
  destruct r as [a| |]; cbn.
  - split; [by exists a|]. by intros (? & [= <-] & H).
  - split; [by intros [? [=]]|by intros (? & [=] & _)].
  - split; [by intros [? [=]]|by intros (? & [=] & _)].
Qed.
Lemma good_const {A B} (r : res A) (f : A -> res B) P : (forall a, good (f a) <-> P) -> good (rbind r f) <-> good r /\ P.
Proof.
  intros H. rewrite good_bind. split.
  - intros (a & -> & Ha). split; [by exists a|by apply (H a)].
  - intros [[a ->] Hp]. exists a. split; [done|by apply H].
Qed.
Lemma good_seqs {A} (l : list (res A)) : good (seqs l) <-> Forall good l.
Proof.
  induction l as [|r l IH]; cbn [seqs]; [split; [constructor|by eexists]|].
  rewrite Forall_cons, <- IH. apply good_const. intros a. rewrite (good_const _ _ True); [tauto|]. intros la. split; [done|by eexists].
Qed.
Lemma good_bool o t : good (d_bool o t) <-> forall v, t = Some v -> a_bool v.
Proof.
  unfold a_bool, good. destruct t as [v|]; cbn; [|split; [done|by eexists]].
  destruct v as [[]| | | |]; cbn; split; try (by eexists); try (by intros [? [=]]); try (by intros _ ? [= <-]; eauto);
    intros H; by destruct (H _ eq_refl) as [|[]].
Qed.
Lemma good_str t : good (d_str t) <-> forall v, t = Some v -> a_text v.
Proof.
  unfold a_text, good. destruct t as [v|]; cbn; [|split; [done|by eexists]].
  destruct v as [[]| | | |]; cbn; split; try (by eexists); try (by intros [? [=]]); try (by intros _ ? [= <-]; eauto);
    intros H; by destruct (H _ eq_refl) as [|[]].
Qed.
Lemma good_strs_go l : good (d_strs_go l) <-> forall x, x ∈ l -> a_text x.
Proof.
  induction l as [|t l IH]; cbn [d_strs_go]; [split; [by intros _ x ?%elem_of_nil|by eexists]|].
  rewrite (good_const _ _ (good (d_strs_go l))).
  - rewrite IH, good_str. setoid_rewrite elem_of_cons. split; [intros [H1 H2] x [->|Hx]; auto|].
    intros H. split; [intros v [= <-]; auto|auto].
  - intros a. rewrite (good_const _ _ True); [tauto|]. intros la. split; [done|by eexists].
Qed.
Lemma good_strs t : good (d_strs t) <-> forall v, t = Some v -> some_texts v.
Proof.
  unfold some_texts. destruct t as [v|]; cbn; [|split; [done|by eexists]].
  destruct v as [[]|l| | |]; cbn; try (split; [by intros [? [=]]|]; intros H; by destruct (H _ eq_refl) as [|[? [? _]]]).
  - split; [by intros _ ? [= <-]; left|by eexists].
  - rewrite (good_const _ _ True); [|intros; split; [done|by eexists]]. rewrite good_strs_go. split.
    + intros [H _] v [= <-]. right. by exists l.
    + intros H. split; [|done]. destruct (H _ eq_refl) as [|(? & [= <-] & Hx)]; done.
Qed.
Lemma good_type t : good (d_type t) <-> forall v, t = Some v -> a_text v \/ some_texts v.
Proof.
  transitivity ((exists s, t = Some (TS (SStr s))) \/ good (d_strs t)).
  { destruct t as [[[]| | | |]|]; cbn; split; try tauto; try (by intros [[? [=]]|H]); try (by eexists). intros _. left. by eexists. }
  rewrite good_strs. split.
  - intros [[s ->]|H] v E; [injection E as <-; left; right; by eexists|right; by apply H].
  - intros H. destruct t as [v|]; [|by right]. destruct (H v eq_refl) as [[->|[s ->]]|Hs].
    + right. intros ? [= <-]. by left.
    + left. by eexists.
    + right. by intros ? [= <-].
Qed.
Lemma good_props t : good (d_props t) <-> forall v, t = Some v -> v = TS SNil \/ exists ps, v = TObj ps.
Proof.
  unfold good. destruct t as [v|]; cbn; [|split; [done|by eexists]].
  destruct v as [[]| | | |]; cbn; split; try (by eexists); try (by intros [? [=]]); try (by intros _ ? [= <-]; eauto);
    intros H; by destruct (H _ eq_refl) as [|[]].
Qed.
Lemma assocd_map {A} (g : tree -> A) k kvs : assocd k (map (fun kv : string * tree => let (k, v) := kv in (k, g v)) kvs) = g <$> assoc k kvs.
Proof. induction kvs as [|[k' v] kvs IH]; cbn; [done|]. by case_decide. Qed.
Lemma good_subs (D : tree -> res instance) t :
  good (d_subs ((fun v => match v with TS SNil => Ok [] | TArr l => seqs (map D l) | _ => Err end) <$> t)) <->
  forall v, t = Some v -> v = TS SNil \/ exists l, v = TArr l /\ forall x, x ∈ l -> good (D x).
Proof.
  destruct t as [v|]; cbn; [|split; [done|by eexists]].
  destruct v as [[]|l| | |]; cbn; try (split; [by intros [? [=]]|]; intros H; by destruct (H _ eq_refl) as [|[? [? _]]]).
  - split; [by intros _ ? [= <-]; left|by eexists].
  - rewrite good_seqs. rewrite Forall_map, Forall_forall. split.
    + intros H v [= <-]. right. by exists l.
    + intros H. destruct (H _ eq_refl) as [|(? & [= <-] & Hx)]; done.
Qed.
Lemma good_inst addl kvs : good (d_inst addl (TObj kvs)) <->
    (forall k v, k ∈ ["additionalProperties"; "embed"] -> assoc k kvs = Some v -> a_bool v) /\
    (forall k v, k ∈ ["description"; "format"; "fromRef"; "$ref"; "$schema"; "target"] -> assoc k kvs = Some v -> a_text v) /\
    (forall k v, k ∈ ["graphql-arguments"; "required"] -> assoc k kvs = Some v -> some_texts v) /\
    (forall v, assoc "type" kvs = Some v -> a_text v \/ some_texts v) /\
    (forall v, assoc "properties" kvs = Some v -> v = TS SNil \/ exists ps, v = TObj ps) /\
    (forall k v, k ∈ ["allOf"; "anyOf"; "oneOf"] -> assoc k kvs = Some v ->
       v = TS SNil \/ exists l, v = TArr l /\ forall x, x ∈ l -> good (d_inst false x)).
Proof.
  cbn [d_inst]. set (subs := map _ kvs).
  assert (Hs : forall k, good (d_subs (assocd k subs)) <->
    forall v, assoc k kvs = Some v -> v = TS SNil \/ exists l, v = TArr l /\ forall x, x ∈ l -> good (d_inst false x)).
  { intros k. unfold subs. rewrite assocd_map. apply good_subs. }
  clearbody subs.
  transitivity (good (d_bool addl (assoc "additionalProperties" kvs)) /\ good (d_subs (assocd "allOf" subs)) /\ good (d_subs (assocd "anyOf" subs)) /\
    good (d_str (assoc "description" kvs)) /\ good (d_bool false (assoc "embed" kvs)) /\ good (d_str (assoc "format" kvs)) /\
    good (d_str (assoc "fromRef" kvs)) /\ good (d_strs (assoc "graphql-arguments" kvs)) /\ good (d_subs (assocd "oneOf" subs)) /\
    good (d_props (assoc "properties" kvs)) /\ good (d_str (assoc "$ref" kvs)) /\ good (d_strs (assoc "required" kvs)) /\
    good (d_str (assoc "$schema" kvs)) /\ good (d_str (assoc "target" kvs)) /\ good (d_type (assoc "type" kvs)) /\ True).
  { do 15 (apply good_const; intros ?). split; [done|by eexists]. }
  rewrite !good_bool, !good_str, !good_strs, good_type, good_props, !Hs.
  split.
  - intros (H1 & H2 & H3 & H4 & H5 & H6 & H7 & H8 & H9 & H10 & H11 & H12 & H13 & H14 & H15 & _).
    split_and!; try done; intros k v Hk; rewrite !elem_of_cons, elem_of_nil in Hk; destruct_or! Hk; subst; auto; done.
  - intros (B & T & L & Ty & P & Sb). split_and!; try done;
    intros v; first [apply B; set_solver|apply T; set_solver|apply L; set_solver|apply Sb; set_solver].
Qed.
Lemma decodes_fits addl t : (exists i, d_inst addl t = Ok i) <-> fits t.
Proof.
  change (good (d_inst addl t) <-> fits t). remember (depth t) as n eqn:Hn.
  revert addl t Hn. induction (lt_wf n) as [n _ IH]. intros addl t ->.
  destruct t as [[]|l|kvs| |]; try (split; [by intros [? [=]]|by inversion 1]).
  { split; [constructor|]. by eexists. }
  rewrite good_inst.
  assert (Hsub : forall k l x, assoc k kvs = Some (TArr l) -> x ∈ l -> good (d_inst false x) <-> fits x).
  { intros k l x Hk Hx. eapply IH; [|reflexivity]. pose proof (jlookup_depth k (TObj kvs) _ Hk) as H1.
    assert (H2 : depth (TArr l) <= S (pred (depth (TArr l)))) by (cbn [depth]; lia). rewrite depth_arr, Forall_forall in H2.
    specialize (H2 x Hx). assert (0 < depth (TArr l)) by (cbn [depth]; lia). lia. }
  split.
  - intros (B & T & L & Ty & P & Sb). constructor; try done. intros k v Hk Hv. destruct (Sb k v Hk Hv) as [|(l & -> & Hl)]; [by left|right].
    exists l. split; [done|]. intros x Hx. by eapply Hsub; [| |apply Hl].
  - inversion_clear 1 as [|? B T L Ty P Sb]. split_and!; try done. intros k v Hk Hv. destruct (Sb k v Hk Hv) as [|(l & -> & Hl)]; [by left|right].
    exists l. split; [done|]. intros x Hx. by eapply Hsub; [| |apply Hl].
Qed.

Lemma walks_agree_fits ord props items l1 r1 l2 r2 : map_order ord -> named (default [] props) ->
  (forall σ r, sinst (default [] props) items σ r -> props_named r /\ exists ty nl, field_type r = Ok (ty, nl)) ->
  walk_raw_schema record (default [] props) items [] = (l1, r1) ->
  walk_schema record ord props items [] = (l2, r2) ->
  (r2 = Ok tt <-> r1 = Ok tt /\ forall σ r, sinst (default [] props) items σ r -> fits r) /\
  (r2 = Ok tt -> exists l3, l3 ≡ₚ l1 /\ Forall2 (fun a b => a.1 = b.1 /\ d_inst false a.2 = Ok b.2) l3 l2).
Proof. intros H1 H2 H3 H4 H5. setoid_rewrite <- (decodes_fits false). by eapply walks_agree_exactly. Qed.

(** d_inst and [reads] agree. *)
From stdpp Require Import strings list gmap.
From Verif Require Import GoStr Val Schema Inst Den HeapL GenL LoadL RefL SpecInst.

Lemma assoc_assocd k (kvs : list (string * tree)) : assoc k kvs = assocd k kvs.
Proof. induction kvs as [|[k' v] l IH]; cbn; [done|]. rewrite IH. done. Qed.
Lemma rbind_ok {A B} (r : res A) (f : A -> res B) b : rbind r f = Ok b <-> exists a, r = Ok a /\ f a = Ok b.
Proof. destruct r as [a| |]; cbn; split; [intros H; exists a; done|intros (x & Hx & H); by simplify_eq| done|intros (x & Hx & H); done|done|intros (x & Hx & H); done]. Qed.

Section kvs.
Context (kvs : list (string * tree)) (Hnd : NoDup kvs.*1).
Lemma given_assoc k v : given kvs k v <-> assoc k kvs = Some v.
Proof. rewrite assoc_assocd. split; [apply assocd_in; done|apply assocd_elem]. Qed.
Lemma unset_assoc k : unset kvs k <-> assoc k kvs = None \/ assoc k kvs = Some (TS SNil).
Proof.
  unfold unset. split.
  - intros H. destruct (assoc k kvs) as [v|] eqn:E; [|by left]. right. apply given_assoc in E. by rewrite (H v E).
  - intros H v Hv%given_assoc. destruct H as [H|H]; rewrite H in Hv; [done|congruence].
Qed.
Lemma says_bool_ok k b0 b : d_bool b0 (assoc k kvs) = Ok b <-> says_bool kvs k b0 b.
Proof.
  unfold says_bool. rewrite unset_assoc, given_assoc. destruct (assoc k kvs) as [[[]| | | |]|]; cbn; naive_solver.
Qed.
Lemma says_str_ok k s : d_str (assoc k kvs) = Ok s <-> says_str kvs k s.
Proof.
  unfold says_str. rewrite unset_assoc, given_assoc. destruct (assoc k kvs) as [[[]| | | |]|]; cbn; naive_solver.
Qed.
Lemma strs_go_ok l ss : d_strs_go l = Ok ss <-> Forall2 string_or_null l ss.
Proof.
  revert ss. induction l as [|t l IH]; intros ss; cbn [d_strs_go].
  { split; [intros [= <-]; constructor|intros H; by inversion H]. }
  rewrite rbind_ok. split.
  - intros (s & Hs & (ss' & Hss & [= <-])%rbind_ok). constructor; [|by apply IH].
    unfold string_or_null. destruct t as [[]| | | |]; cbn in Hs; simplify_eq; [by right|by left].
  - intros H. inversion H as [|t0 s l0 ss' H1 H2]; subst. exists s. split.
    + destruct H1 as [->|[-> ->]]; done.
    + apply rbind_ok. exists ss'. split; [by apply IH|done].
Qed.
Lemma strs_opt_ok k l : d_strs (assoc k kvs) = Ok l <->
  (unset kvs k /\ l = None \/ exists ts ss, given kvs k (TArr ts) /\ Forall2 string_or_null ts ss /\ l = Some ss).
Proof.
  rewrite unset_assoc. split.
  - intros H. destruct (assoc k kvs) as [[[]|ts| | |]|] eqn:E; cbn in H; simplify_eq; [left; by eauto| |left; by eauto].
    right. apply rbind_ok in H as (ss & Hss & [= <-]). exists ts, ss. split_and!; [by apply given_assoc|by apply strs_go_ok|done].
  - intros [[[->| ->] ->]|(ts & ss & H1%given_assoc & H2%strs_go_ok & ->)]; [done..|]. rewrite H1. cbn. rewrite H2. done.
Qed.
Lemma says_strs_ok k l : (exists o, d_strs (assoc k kvs) = Ok o /\ default [] o = l) <-> says_strs kvs k l.
Proof.
  unfold says_strs. split.
  - intros (o & [[H ->]|(ts & ss & H1 & H2 & ->)]%strs_opt_ok & <-); [by left|right; by eauto].
  - intros [[H ->]|(ts & H1 & H2)]; [exists None|exists (Some l)]; rewrite strs_opt_ok; split; eauto 8.
Qed.
Lemma says_type_ok k l : d_type (assoc k kvs) = Ok l <-> says_type kvs k l.
Proof.
  unfold says_type, d_type. destruct (assoc k kvs) as [t|] eqn:E.
  - destruct t as [sc| | | |]; [destruct sc as [| | | | |s|]|..];
      try (rewrite <- E, strs_opt_ok; split; [intros [H|H]; [by left|by right; right]|
        intros [H|[(s & H%given_assoc & _)|H]]; [by left|rewrite E in H; done|by right]]).
    split; [intros [= <-]; right; left; exists s; split; [by apply given_assoc|done]|].
    intros [[[H|H]%unset_assoc _]|[(s' & H%given_assoc & ->)|(ts & ss & H%given_assoc & _)]]; rewrite E in H; by simplify_eq.
  - rewrite <- E, strs_opt_ok; split; [intros [H|H]; [by left|by right; right]|
        intros [H|[(s & H%given_assoc & _)|H]]; [by left|rewrite E in H; done|by right]].
Qed.
Lemma says_members_ok k l : d_props (assoc k kvs) = Ok l <-> says_members kvs k l.
Proof.
  unfold says_members. rewrite unset_assoc. setoid_rewrite given_assoc. destruct (assoc k kvs) as [[[]| | | |]|]; cbn; naive_solver.
Qed.
Lemma says_raw_ok k : says_raw kvs k (assoc k kvs).
Proof. destruct (assoc k kvs) as [t|] eqn:E; cbn; [by apply given_assoc|]. intros t H%given_assoc. congruence. Qed.
Lemma says_raw_eq k r : says_raw kvs k r -> assoc k kvs = r.
Proof.
  destruct r as [t|]; cbn; [by intros H%given_assoc|]. intros H. destruct (assoc k kvs) as [t|] eqn:E; [|done].
  apply given_assoc in E. by destruct (H t).
Qed.
End kvs.

Lemma seqs_ok {A} (l : list (res A)) la : seqs l = Ok la <-> Forall2 (fun r a => r = Ok a) l la.
Proof.
  revert la. induction l as [|r l IH]; intros la; cbn.
  { split; [intros [= <-]; constructor|intros H; by inversion H]. }
  rewrite rbind_ok. split.
  - intros (a & Ha & (la' & H & [= <-])%rbind_ok). constructor; [done|by apply IH].
  - intros H. inversion H as [|r0 a l0 la' H1 H2]; subst. exists a. split; [done|]. apply rbind_ok. exists la'. split; [by apply IH|done].
Qed.
Lemma distinct_arr l : distinct_keys (TArr l) <-> Forall distinct_keys l.
Proof.
  cbn. induction l as [|t l IH]; [split; [intros _; constructor|done]|]. rewrite Forall_cons, IH. done.
Qed.
Lemma distinct_obj kvs : distinct_keys (TObj kvs) <-> NoDup kvs.*1 /\ Forall (fun kv => distinct_keys kv.2) kvs.
Proof.
  cbn. assert (forall (l : list (string * tree)), (fix all (l : list (string * tree)) : Prop :=
                   match l with [] => True | (_, t) :: l' => distinct_keys t /\ all l' end) l <-> Forall (fun kv => distinct_keys kv.2) l) as H.
  { induction l as [|[k t] l IH]; [split; [intros _; constructor|done]|]. rewrite Forall_cons, IH. done. }
  by rewrite H.
Qed.

Definition sub_of (v : tree) : res (list instance) :=
  match v with TS SNil => Ok [] | TArr l => seqs (map (d_inst false) l) | _ => Err end.
Lemma d_inst_obj addl kvs : d_inst addl (TObj kvs) =
    rbind (d_bool addl (assoc "additionalProperties" kvs)) (fun ad =>
    rbind (d_subs (sub_of <$> assoc "allOf" kvs)) (fun al =>
    rbind (d_subs (sub_of <$> assoc "anyOf" kvs)) (fun an =>
    rbind (d_str (assoc "description" kvs)) (fun de =>
    rbind (d_bool false (assoc "embed" kvs)) (fun em =>
    rbind (d_str (assoc "format" kvs)) (fun fm =>
    rbind (d_str (assoc "fromRef" kvs)) (fun fr =>
    rbind (d_strs (assoc "graphql-arguments" kvs)) (fun ga =>
    rbind (d_subs (sub_of <$> assoc "oneOf" kvs)) (fun on =>
    rbind (d_props (assoc "properties" kvs)) (fun ps =>
    rbind (d_str (assoc "$ref" kvs)) (fun rf =>
    rbind (d_strs (assoc "required" kvs)) (fun rq =>
    rbind (d_str (assoc "$schema" kvs)) (fun sc =>
    rbind (d_str (assoc "target" kvs)) (fun ta =>
    rbind (d_type (assoc "type" kvs)) (fun ty =>
    Ok (Inst ad al an de (assoc "definitions" kvs) em fm fr (default [] ga) (assoc "items" kvs) on ps rf
             (default [] rq) sc ta ty)))))))))))))))).
Proof. rewrite <- !assocd_map. reflexivity. Qed.

Lemma says_schemas_ok kvs k l : NoDup kvs.*1 ->
  (forall ts, given kvs k (TArr ts) -> Forall (fun t => forall i, d_inst false t = Ok i <-> reads false t i) ts) ->
  d_subs (sub_of <$> assoc k kvs) = Ok l <-> says_schemas (reads false) kvs k l.
Proof.
  intros Hnd Hsub. unfold says_schemas. rewrite unset_assoc by done. split.
  - intros H. destruct (assoc k kvs) as [t|] eqn:E; cbn in H; [|simplify_eq; left; by eauto].
    destruct t as [[]|ts| | |]; cbn in H; simplify_eq; [left; by eauto|]. right. exists ts.
    apply given_assoc in E; [|done]. split; [done|]. apply seqs_ok, Forall2_fmap_l in H. specialize (Hsub ts E).
    rewrite Forall_forall in Hsub. revert H. clear -Hsub. intros H. induction H; constructor.
    + apply Hsub; [left|done].
    + apply IHForall2. intros t Ht. apply Hsub. by right.
  - intros [[[->| ->] ->]|(ts & H1 & H2)]; [done..|]. specialize (Hsub ts H1). apply given_assoc in H1; [|done]. rewrite H1. cbn.
    apply seqs_ok, Forall2_fmap_l. rewrite Forall_forall in Hsub. clear -Hsub H2. induction H2; constructor.
    + apply Hsub; [left|done].
    + apply IHForall2. intros t Ht. apply Hsub. by right.
Qed.

Theorem reads_iff t : distinct_keys t -> forall addl i, d_inst addl t = Ok i <-> reads addl t i.
Proof.
  (* strong form: also for the members of an array or an object *)
  enough (H : distinct_keys t -> (forall addl i, d_inst addl t = Ok i <-> reads addl t i) /\
    (forall l, t = TArr l -> Forall (fun t => forall i, d_inst false t = Ok i <-> reads false t i) l)) by (intros Hd; apply H, Hd).
  induction t as [s|l IH|kvs IH|n|l] using tree_ind'; intros Hd; (split; [|intros l0 Hl0; try done]).
  - intros addl i. destruct s; (split; [intros H; cbn in H; simplify_eq; try constructor|intros H; inversion H; subst; done]).
  - intros addl i. split; [done|intros H; inversion H].
  - simplify_eq. apply distinct_arr in Hd. rewrite Forall_forall in IH, Hd. apply Forall_forall. intros t Ht i. by apply IH; [|apply Hd].
  - apply distinct_obj in Hd as [Hnd Hd].
    assert (Hsub : forall k ts, given kvs k (TArr ts) -> Forall (fun t => forall i, d_inst false t = Ok i <-> reads false t i) ts).
    { intros k ts H. rewrite Forall_forall in IH, Hd. specialize (IH _ H (Hd _ H)). by apply IH. }
    intros addl i. rewrite d_inst_obj. split.
    + intros H. repeat (apply rbind_ok in H as (? & ? & H)). injection H as <-. constructor; cbn;
        try (by apply says_bool_ok); try (by apply says_str_ok); try (by apply says_raw_ok); try (by apply says_type_ok);
        try (by apply says_members_ok); try (apply says_schemas_ok; [done|by apply Hsub|done]); apply says_strs_ok; eauto.
    + intros H. inversion H as [|? ? ? H1 H2 H3 H4 H5 H6 H7 H8 H9 H10 H11 H12 H13 H14 H15 H16 H17]; subst.
      apply says_bool_ok in H1; [|done]. apply says_schemas_ok in H2; [|done|by apply Hsub]. apply says_schemas_ok in H3; [|done|by apply Hsub].
      apply says_str_ok in H4; [|done]. apply says_raw_eq in H5; [|done]. apply says_bool_ok in H6; [|done].
      apply says_str_ok in H7; [|done]. apply says_str_ok in H8; [|done]. apply says_strs_ok in H9 as (ga & H9 & Hga); [|done].
      apply says_raw_eq in H10; [|done]. apply says_schemas_ok in H11; [|done|by apply Hsub]. apply says_members_ok in H12; [|done].
      apply says_str_ok in H13; [|done]. apply says_strs_ok in H14 as (rq & H14 & Hrq); [|done]. apply says_str_ok in H15; [|done].
      apply says_str_ok in H16; [|done]. apply says_type_ok in H17; [|done].
      rewrite H1, H2, H3, H4, H5, H6, H7, H8, H9, H10, H11, H12, H13, H14, H15, H16, H17. cbn. rewrite Hga, Hrq. by destruct i.
  - intros addl i. split; [done|intros H; inversion H].
  - intros addl i. split; [done|intros H; inversion H].
Qed.
(** the other outcome is an error, and the report is unique *)
Lemma seqs_nopanic {A} (l : list (res A)) : Forall (fun r => r <> Panic) l -> seqs l <> Panic.
Proof. induction 1 as [|r l H1 H2 IH]; cbn; [done|]. destruct r; cbn; [|done|done]. by destruct (seqs l). Qed.
Lemma rbind_nopanic {A B} (r : res A) (f : A -> res B) : r <> Panic -> (forall a, f a <> Panic) -> rbind r f <> Panic.
Proof. destruct r; cbn; auto. Qed.
Lemma d_inst_nopanic t : forall addl, d_inst addl t <> Panic.
Proof.
  enough (H : (forall addl, d_inst addl t <> Panic) /\ (forall l, t = TArr l -> Forall (fun t => d_inst false t <> Panic) l)) by apply H.
  induction t as [s|l IH|kvs IH|n|l] using tree_ind'; (split; [|intros l0 Hl0; try done]); try done.
  - intros addl. by destruct s.
  - simplify_eq. eapply Forall_impl; [exact IH|]. intros t Ht. apply Ht.
  - intros addl. rewrite d_inst_obj.
    assert (Hsub : forall k, d_subs (sub_of <$> assoc k kvs) <> Panic).
    { intros k. destruct (assoc k kvs) as [t|] eqn:E; cbn; [|done]. destruct t as [[]|ts| | |]; cbn; try done. apply seqs_nopanic.
      apply Forall_fmap. apply assoc_elem in E. rewrite Forall_forall in IH. specialize (IH _ E) as [_ IH]. by apply IH. }
    assert (Hb : forall b k, d_bool b (assoc k kvs) <> Panic) by (intros b k; by destruct (assoc k kvs) as [[[]| | | |]|]).
    assert (Hs : forall k, d_str (assoc k kvs) <> Panic) by (intros k; by destruct (assoc k kvs) as [[[]| | | |]|]).
    assert (Hp : forall k, d_props (assoc k kvs) <> Panic) by (intros k; by destruct (assoc k kvs) as [[[]| | | |]|]).
    assert (Hg : forall l, d_strs_go l <> Panic).
    { induction l as [|t l IHl]; cbn; [done|]. apply rbind_nopanic; [by destruct t as [[]| | | |]|]. intros s. by apply rbind_nopanic. }
    assert (Hss : forall t, d_strs t <> Panic).
    { intros [[[]|ts| | |]|]; cbn; try done. by apply rbind_nopanic. }
    assert (Ht : forall k, d_type (assoc k kvs) <> Panic).
    { intros k. unfold d_type. destruct (assoc k kvs) as [[[]| | | |]|]; try done; apply Hss. }
    repeat (apply rbind_nopanic; [done|intros ?]). done.
Qed.
Theorem reads_total t addl : distinct_keys t ->
  match d_inst addl t with
  | Ok i => reads addl t i /\ forall j, reads addl t j -> j = i
  | Err => forall i, ~ reads addl t i
  | Panic => False
  end.
Proof.
  intros Hd. destruct (d_inst addl t) as [i| |] eqn:E.
  - split; [by apply reads_iff|]. intros j Hj%reads_iff; [|done]. congruence.
  - intros i Hi%reads_iff; [|done]. congruence.
  - by apply (d_inst_nopanic t addl).
Qed.

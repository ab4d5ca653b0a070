(** What is returned can be written as JSON. *)
From stdpp Require Import strings list gmap.
From Coq Require Import ZArith Floats.SpecFloat Lia.
From Verif Require Import GoStr Val Conv Instr Heap HeapL Schema Build Api SpecPath Den Param Top SpecSchema SpecProj SpecRun SpecOut ProjL RunL.
Set Default Proof Using "Type".

Lemma starts_grow y : (year_start y < year_start (S y))%Z.
Proof. unfold year_start. generalize (days_before 1970). intros d. cbn [days_before]. destruct (leap y); lia. Qed.
Local Opaque year_start.
Lemma starts_mono y n : y <= n -> (year_start y <= year_start n)%Z.
Proof. induction 1 as [|n _ IH]; [done|]. pose proof (starts_grow n). lia. Qed.
Lemma year_found x n : (year_start 0 <= x < year_start n)%Z -> exists y, y < n /\ (year_start y <= x < year_start (S y))%Z.
Proof.
  induction n as [|n IH]; [lia|]. intros H. destruct (decide (x < year_start n)%Z) as [Hx|Hx].
  - destruct IH as (y & Hy & H'); [lia|]. exists y. split; [lia|done].
  - exists n. split; [lia|]. lia.
Qed.
Local Transparent year_start.
Lemma first_year : year_start 0 = (-62167219200)%Z.
Proof. vm_compute. reflexivity. Qed.
Lemma last_year : year_start (100 * 100) = 253402300800%Z.
Proof. vm_compute. reflexivity. Qed.
Local Opaque year_start.
Lemma time_ok t : scal_ok (STime t) = true <-> exists y, year_of t y /\ y < 100 * 100.
Proof.
  unfold scal_ok, year_of. rewrite <- first_year, <- last_year, andb_true_iff, Z.leb_le, Z.ltb_lt. generalize (100 * 100). intros n. split.
  - intros H. destruct (year_found _ _ H) as (y & Hy & Hx). by exists y.
  - intros (y & Hx & Hy). pose proof (starts_mono 0 y). pose proof (starts_mono (S y) n). lia.
Qed.
Lemma tree_ok_iff t : tree_ok t = true <-> writable t.
Proof.
  induction t as [sc|ts IH|kvs IH|n|l] using tree_ind'; cbn [tree_ok].
  - destruct sc as [|b|z|z|f|s|t]; try (split; [intros _; constructor|done]).
    + split; [|by inversion 1; destruct f; try done; naive_solver].
      intros H. constructor; [by intros ->|by intros b ->].
    + rewrite time_ok. split; [intros (y & H1 & H2); eapply w_time; [exact H1|exact H2]|intros H; inversion H as [| | | | | |t' y H1 H2| |]; exists y; split; [exact H1|exact H2]].
  - rewrite forallb_forall. split.
    + intros H. constructor. rewrite Forall_forall. intros t Ht. rewrite Forall_forall in IH. apply IH; [done|]. apply H. by apply elem_of_list_In.
    + intros H t Ht. inversion H as [| | | | | | |l' Hl|]; subst. apply elem_of_list_In in Ht. rewrite Forall_forall in IH, Hl. apply IH; [done|]. by apply Hl.
  - rewrite forallb_forall. split.
    + intros H. constructor. rewrite Forall_forall. intros [k t] Ht. rewrite Forall_forall in IH. apply (IH (k, t)); [done|]. apply (H (k, t)). by apply elem_of_list_In.
    + intros H [k t] Ht. inversion H as [| | | | | | | |l' Hl]; subst. apply elem_of_list_In in Ht. rewrite Forall_forall in IH, Hl. apply (IH (k, t)); [done|]. by apply (Hl (k, t)).
  - split; [done|inversion 1].
  - split; [done|inversion 1].
Qed.
Lemma distinct_arr l : (forall t, t ∈ l -> distinct_keys t) -> distinct_keys (TArr l).
Proof. induction l as [|t l IH]; intros H; [done|]. split; [apply H; left|]. apply IH. intros t' Ht. apply H. by right. Qed.
Lemma distinct_obj kvs : NoDup kvs.*1 -> (forall k t, (k, t) ∈ kvs -> distinct_keys t) -> distinct_keys (TObj kvs).
Proof.
  intros Hnd H. split; [done|]. clear Hnd. induction kvs as [|[k t] kvs IH]; [done|]. split; [apply (H k); left|]. apply IH.
  intros k' t' Ht. apply (H k'). by right.
Qed.
Lemma reify_distinct h n : forall v t, reify n h v = Some t -> distinct_keys t.
Proof.
  induction n as [|n IH]; intros v t; [done|]. cbn [reify]. destruct v as [s|l|[l|] k|k|l].
  all: try (by intros [= <-]).
  - intros H. apply fmap_Some in H as (kvs & H & ->). apply mapM_Some in H.
    assert (Hk : kvs.*1 = elements (dom (hmap h l))).
    { clear IH. induction H as [|k kv ks kvs Hkv _ IHk]; [done|]. cbn. rewrite IHk. f_equal.
      apply bind_Some in Hkv as (v & _ & Hkv). by apply fmap_Some in Hkv as (t & _ & ->). }
    apply distinct_obj; [rewrite Hk; apply NoDup_elements|]. intros k t Hin.
    apply elem_of_list_lookup in Hin as [j Hj]. destruct (Forall2_lookup_r _ _ _ _ _ H Hj) as (k' & _ & Hkv).
    apply bind_Some in Hkv as (v & _ & Hkv). apply fmap_Some in Hkv as (t' & Ht & [= _ <-]). by eapply IH.
  - intros H. apply fmap_Some in H as (ts & H & ->). apply mapM_Some in H. apply distinct_arr. intros t Hin.
    apply elem_of_list_lookup in Hin as [j Hj]. destruct (Forall2_lookup_r _ _ _ _ _ H Hj) as (v & _ & Hv). by eapply IH.
Qed.
Lemma marshal_out W v s t : (marshal W v s).2 = Ok t -> writable t /\ distinct_keys t.
Proof.
  unfold marshal. cbn. destruct (reify _ _ _) as [t'|] eqn:E; [|done]. destruct (tree_ok t') eqn:Et; [|done]. intros [= <-].
  split; [by apply tree_ok_iff|by eapply reify_distinct].
Qed.
Lemma bind_out {A B} (m : M A) (k : A -> M B) s b : (mbind m k s).2 = Ok b -> exists a s', (m s).2 = Ok a /\ (k a s').2 = Ok b.
Proof. unfold mbind. destruct (m s) as [s' [a| |]] eqn:E; cbn; [|done..]. intros H. by exists a, s'. Qed.
Lemma base_out W E perm f root raw s t : (transform_no_validation W E perm f root raw s).2 = Ok t -> writable t /\ distinct_keys t.
Proof.
  unfold transform_no_validation. destruct f.
  - unfold base_json. destruct (e_json E raw) as [doc|]; [|done]. unfold base_json_transform.
    intros (a & s1 & _ & H)%bind_out. apply bind_out in H as (v & s2 & _ & H). by apply marshal_out in H.
  - unfold base_xml. destruct (e_xml E raw) as [doc|]; [|done]. unfold base_xml_transform.
    intros (a & s1 & _ & H)%bind_out. by apply marshal_out in H.
Qed.
Lemma serve_out W E perm f root c s t : (serve W E perm f root c s).2 = Ok t -> writable t /\ distinct_keys t.
Proof.
  destruct c as [raw|raw]; cbn [serve]; [|by apply base_out].
  unfold transform. destruct f; [unfold json_transform|unfold xml_transform]; intros (a & s1 & H1 & H)%bind_out;
    apply bind_out in H as ([] & s2 & _ & H); try done; injection H as <-;
    [apply (base_out W E perm FJson root raw s)|apply (base_out W E perm FXml root raw s)]; exact H1.
Qed.
Lemma print_out W t : (writable t /\ depth t <= o_stack W -> print W t = Ok (canon t)) /\ (~ (writable t /\ depth t <= o_stack W) -> print W t = Err).
Proof.
  unfold print. rewrite <- tree_ok_iff. case_decide; destruct (tree_ok t); split; try tauto; intros H'; exfalso; try (destruct H'; done); apply H'; done.
Qed.
Lemma outcome_out W t r : outcome W (Some t) r -> (writable t /\ depth t <= o_stack W -> r = Ok (canon t)) /\ (~ (writable t /\ depth t <= o_stack W) -> r = Err).
Proof. cbn. intros ->. apply print_out. Qed.

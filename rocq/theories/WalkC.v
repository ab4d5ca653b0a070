(** Small lemmas about walks: the remaining cases of types, a checker for concrete schemas, and a schema on
    which the walks disagree. *)
From stdpp Require Import strings list gmap.
From Coq Require Import ZArith.
From Verif Require Import GoStr Val Schema Inst SpecPath SpecSchema SpecWalk World Cases WalkL.

Lemma field_type_other r :
  (forall s, jlookup "type" r = Some (TS (SStr s)) -> field_type r = Ok (s, false)) /\
  (jlookup "type" r = None -> field_type r = Err) /\
  (forall t, jlookup "type" r = Some t -> (forall s, t <> TS (SStr s)) -> (forall l, t <> TArr l) -> field_type r = Err).
Proof.
  unfold field_type. split; [|split].
  - intros s H. by rewrite H.
  - intros H. by rewrite H.
  - intros t H H1 H2. rewrite H. destruct t as [[]|l| | |]; try done; [by destruct (H1 s)|by destruct (H2 l)].
Qed.

Definition props_named_b (r : tree) : bool :=
  match jlookup "properties" r with
  | Some (TObj ps) => bool_decide (NoDup ps.*1) && forallb (fun kp => bool_decide (kp.1 <> "")) ps
  | _ => true
  end.
Definition decodes_b (r : tree) : bool := match d_inst false r with Ok _ => true | _ => false end.
Fixpoint check (n : nat) (dec : bool) (r : tree) : bool :=
  match n with
  | 0 => false
  | S n' =>
    props_named_b r && (negb dec || decodes_b r) &&
    match field_type r with
    | Ok (ty, _) =>
      (if decide (ty = "object") then match jlookup "properties" r with Some (TObj ps) => forallb (fun kp => check n' dec kp.2) ps | _ => true end else true) &&
      (if decide (ty = "array") then match jlookup "items" r with Some i => check n' dec i | _ => true end else true)
    | _ => false
    end
  end.
Definition check_all (n : nat) (dec : bool) (props : list (string * tree)) (items : option tree) : bool :=
  forallb (fun kp => check n dec kp.2) props && match items with Some i => check n dec i | None => true end.
Definition fine_b (dec : bool) (r : tree) : Prop :=
  props_named r /\ (exists ty nl, field_type r = Ok (ty, nl)) /\ (dec = true -> exists i, d_inst false r = Ok i).
Lemma props_named_ok r : props_named_b r = true -> props_named r.
Proof.
  intros H ps Hp. unfold props_named_b in H. rewrite Hp in H. apply andb_true_iff in H as [H1 H2].
  split; [by apply bool_decide_eq_true_1 in H1|]. apply Forall_forall. intros kp Hin. apply forallb_forall with (x := kp) in H2; [|by apply elem_of_list_In].
  by apply bool_decide_eq_true_1 in H2.
Qed.
Lemma check_ok n dec raw σ r : check n dec raw = true -> inst raw σ r -> fine_b dec r.
Proof.
  intros Hc Hi. revert n Hc. induction Hi as [raw|raw nl ps k p σ r Ht Hp Hin Hi IH|raw nl i σ r Ht Hit Hi IH]; intros [|n] Hc; try done;
    cbn [check] in Hc; apply andb_true_iff in Hc as [Hc Hc3]; apply andb_true_iff in Hc as [Hc1 Hc2].
  - split; [by apply props_named_ok|]. destruct (field_type raw) as [[ty nl]| |] eqn:Ht; try done.
    split; [by eauto|]. intros ->. cbn in Hc2. unfold decodes_b in Hc2. destruct (d_inst false raw); try done. by eauto.
  - rewrite Ht in Hc3. rewrite decide_True in Hc3 by done. rewrite Hp in Hc3. apply andb_true_iff in Hc3 as [Hc3 _].
    apply (IH n). apply forallb_forall with (x := (k, p)) in Hc3; [done|]. by apply elem_of_list_In.
  - rewrite Ht in Hc3. apply andb_true_iff in Hc3 as [_ Hc3]. rewrite decide_True in Hc3 by done. rewrite Hit in Hc3. by apply (IH n).
Qed.
Lemma check_all_ok n dec props items σ r : check_all n dec props items = true -> sinst props items σ r -> fine_b dec r.
Proof.
  intros H. unfold check_all in H. apply andb_true_iff in H as [H1 H2]. intros [k p τ x Hin Hi|i τ x Hi0 Hi].
  - eapply check_ok; [|done]. apply forallb_forall with (x := (k, p)) in H1; [done|]. by apply elem_of_list_In.
  - subst items. by eapply check_ok.
Qed.
Lemma all_sinst_ok props items : check_all 9 true props items = true ->
  forall σ r, sinst props items σ r -> props_named r /\ (exists ty nl, field_type r = Ok (ty, nl)) /\ exists i, d_inst false r = Ok i.
Proof. intros H σ r Hi. destruct (check_all_ok _ _ _ _ _ _ H Hi) as (H1 & H2 & H3). auto. Qed.

Definition loose : list (string * tree) := [("a", obj_schema [] [("additionalProperties", typed "string" [])])].
Lemma loose_checks : check_all 9 false loose None = true.
Proof. vm_compute. reflexivity. Qed.
Lemma walks_disagree :
  exists props, named props /\ (forall σ r, sinst props None σ r -> props_named r /\ exists ty nl, field_type r = Ok (ty, nl)) /\
  (walk_raw_schema record props None []).2 = Ok tt /\
  forall ord, map_order ord -> (walk_schema record ord (Some props) None []).2 = Err.
Proof.
  exists loose. split; [|split; [|split]].
  - split; [refine (bool_decide_eq_true_1 (NoDup _) _); vm_compute; reflexivity|by repeat constructor].
  - intros σ r Hi. destruct (check_all_ok _ _ _ _ _ _ loose_checks Hi) as (H1 & H2 & _). exact (conj H1 H2).
  - vm_compute. reflexivity.
  - intros ord Hord. pose proof (Hord "$" ["a"]) as H.
    apply Permutation_sym, Permutation_singleton_l in H. unfold walk_schema.
    change ((default [] (Some loose)).*1) with ["a"]. rewrite <- H. vm_compute. reflexivity.
Qed.

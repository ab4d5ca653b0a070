(** Lemmas about the mapper from generated structs to Avro records. *)
From stdpp Require Import strings list gmap.
From Coq Require Import ZArith Lia.
From Verif Require Import GoStr GoStrL Val Conv Avro AvroRun Mapper MapRun SpecMapper.

Section S1.
Context (types : string -> option texpr).
Notation has_ty := (has_ty types).
Notation selects := (selects types).
Notation types_at := (types_at types).
Notation closed := (closed types).
Notation visible := (visible types).

(** ** Selectors *)
Lemma has_ty_struct fs v : has_ty (EStruct fs) v ->
  exists own emb, v = GRec own emb /\ Forall2 (fun a b => b.1 = a.1 /\ has_ty a.2 b.2) (owns fs) own /\
    Forall2 (fun e b => b.1 = e /\ has_ty (EIdent e) b.2) (embs fs) emb.
Proof. intros H. inversion H; subst. eauto 10. Qed.
Lemma has_ty_named s t v : s ∉ basics -> types s = Some t -> has_ty (EIdent s) v -> has_ty t v.
Proof.
  intros Hb Ht H. inversion H; subst; try (exfalso; apply Hb; unfold basics; set_solver).
  congruence.
Qed.
Lemma types_at_depth file fs : closed file fs -> forall d n v, has_ty (EStruct fs) v -> Forall2 has_ty (types_at d n fs) (at_depth d n v).
Proof.
  induction 1 as [fs Hnd Hf Hemb Hcl IH]. intros d n v Hv.
  destruct (has_ty_struct _ _ Hv) as (own & emb & -> & Ho & He). destruct d as [|d]; cbn [SpecMapper.types_at at_depth].
  - apply Forall2_app.
    + unfold with_name, named. clear - Ho. induction Ho as [|[k t] [k' v] l l' [Hk Ht] _ IHl]; cbn; [constructor|]. cbn in Hk. subst k'.
      case_decide; [constructor; auto|exact IHl].
    + unfold with_name, named. clear - He. induction He as [|e [k' v] l l' [Hk Ht] _ IHl]; cbn; [constructor|]. cbn in Hk. subst k'.
      case_decide; [constructor; [subst; exact Ht|exact IHl]|exact IHl].
  - clear Hv Ho Hnd Hf. revert He Hemb Hcl IH. generalize (embs fs) as l. intros l He. induction He as [|e [k' v] l l' [Hk Ht] _ IHl]; intros Hemb Hcl IH; cbn; [constructor|].
    cbn in Hk, Ht. apply Forall2_app.
    + destruct (Hemb e ltac:(left)) as (Hb & fs' & Hty & _). rewrite Hty. eapply IH; [left|exact Hty|]. eapply has_ty_named; eauto.
    + apply IHl; intros; [apply Hemb; right; assumption|eapply Hcl; [right; eassumption|eassumption]|eapply IH; [right; eassumption|eassumption|assumption]].
Qed.
Lemma shallowest_some {A} (f : nat -> list A) x d k : f d = [x] -> (forall d', d' < d -> f d' = []) ->
  forall d0, d0 <= d -> d < d0 + k -> shallowest f d0 k = Some x.
Proof.
  intros Hx Hless. induction k as [|k IH]; intros d0 H1 H2; [lia|]. cbn. destruct (decide (d0 = d)) as [->|Hne]; [rewrite Hx; reflexivity|].
  rewrite (Hless d0) by lia. apply IH; lia.
Qed.
Lemma at_depth_small d : forall n v, at_depth d n v <> [] -> d < rec_depth v.
Proof.
  induction d as [|d IH]; intros n v H; destruct v as [| | | | | | | | |own emb|]; cbn in *; try congruence; [lia|].
  assert (exists p, p ∈ emb /\ at_depth d n p.2 <> []) as ([k e] & Hp & Hd).
  { clear IH. induction emb as [|[k e] emb IHe]; cbn in H; [congruence|]. destruct (at_depth d n e) eqn:E0.
    - destruct (IHe H) as (p & Hp & Hd). exists p. split; [right; assumption|assumption].
    - exists (k, e). split; [left|]. cbn. rewrite E0. discriminate. }
  cbn in Hd. apply IH in Hd. assert (rec_depth e <= list_max (map (fun '(_, e0) => rec_depth e0) emb)).
  { apply elem_of_list_In in Hp. clear - Hp. induction emb as [|[k' e'] emb IHe]; [destruct Hp|]. cbn. destruct Hp as [Hp|Hp]; [injection Hp as -> ->; lia|]. apply IHe in Hp. unfold list_max in Hp. lia. }
  lia.
Qed.
Lemma select_rec own emb n : select n (GRec own emb) = match shallowest (fun d => at_depth d n (GRec own emb)) 0 (rec_depth (GRec own emb)) with Some x => Ran x | None => Rejected end.
Proof. reflexivity. Qed.
Lemma select_typed file fs n T v : closed file fs -> selects fs n T -> has_ty (EStruct fs) v -> exists w, select n v = Ran w /\ has_ty T w.
Proof.
  intros Hc (d & Hd & Hless) Hv. destruct (has_ty_struct _ _ Hv) as (own & emb & -> & _ & _).
  pose proof (types_at_depth _ _ Hc d n _ Hv) as H. rewrite Hd in H. apply Forall2_cons_inv_l in H as (w & l & Hw & Hl & Heq).
  apply Forall2_nil_inv_l in Hl as ->. exists w. split; [|assumption].
  rewrite select_rec. erewrite shallowest_some; [reflexivity|exact Heq| |lia|].
  - intros d' Hlt. pose proof (types_at_depth _ _ Hc d' n _ Hv) as H. rewrite (Hless _ Hlt) in H. apply Forall2_nil_inv_l in H. exact H.
  - apply (at_depth_small d n). rewrite Heq. discriminate.
Qed.
Lemma select_ptr n v : v <> GNil -> (forall w, v <> GPtr w) -> select n (GPtr v) = select n v.
Proof. intros H1 H2. destruct v; try reflexivity; [congruence|destruct (H2 v eq_refl)]. Qed.
Lemma select_ptr_struct fs n v : has_ty (EStruct fs) v -> select n (GPtr v) = select n v.
Proof. intros H. destruct (has_ty_struct _ _ H) as (? & ? & -> & _). reflexivity. Qed.
Lemma struct_type_val T fs v : struct_type types T fs -> has_ty T v -> has_ty (EStruct fs) v.
Proof. intros [->|(s & -> & Hb & Ht)] H; [assumption|]. eapply has_ty_named; eauto. Qed.

Lemma path_app p q z : path (p ++ q) z = ebind (path p z) (path q).
Proof.
  revert z. induction p as [|n p IH]; intros z; cbn; [reflexivity|]. destruct (select n z); cbn; [apply IH|reflexivity..].
Qed.
Lemma path_type_app Z p T q T' : path_type types Z p T -> path_type types T q T' -> path_type types Z (p ++ q) T'.
Proof. induction 1; intros H2; cbn; [assumption|econstructor; eauto]. Qed.
Lemma path_type_one T fs n T' : looks_into types T fs -> selects fs n T' -> path_type types T [n] T'.
Proof. intros. econstructor; eauto. constructor. Qed.

(** ** The map of the fields *)
Lemma field_key_inj n n' : has_prefix "Field_" n = false -> has_prefix "Field_" n' = false -> field_key n = field_key n' -> n = n'.
Proof.
  unfold field_key. intros H1 H2. repeat case_decide; intros Heq; [|exfalso..|assumption].
  - apply (f_equal (drop_str 6)) in Heq. exact Heq.
  - rewrite <- Heq in H2. cbn in H2. discriminate.
  - rewrite Heq in H1. cbn in H1. discriminate.
Qed.
Lemma closed_field file fs f : closed file fs -> f ∈ fs -> (exists n, af_names f = [n] /\ has_prefix "Field_" n = false) \/ (af_names f = [] /\ exists e, af_type f = EIdent e).
Proof. intros H. inversion H; subst. auto. Qed.
Lemma owns_elem n T fs : (n, T) ∈ owns fs <-> exists f, f ∈ fs /\ n ∈ af_names f /\ af_type f = T.
Proof.
  unfold owns. rewrite elem_of_list_bind. setoid_rewrite elem_of_list_fmap. split.
  - intros (f & (k & Hk & Hin) & Hf). injection Hk as -> ->. eauto.
  - intros (f & Hf & Hn & <-). exists f. split; [|assumption]. eauto.
Qed.
Lemma closed_prefix file fs : closed file fs -> forall n T, visible fs n T -> has_prefix "Field_" n = false.
Proof.
  induction 1 as [fs Hnd Hf Hemb Hcl IH]. intros n T Hv. inversion Hv; subst.
  - apply owns_elem in H as (f & Hin & Hn & _). destruct (Hf _ Hin) as [(k & Hk & Hp)|(Hk & _)]; rewrite Hk in Hn; [|set_solver]. apply elem_of_list_singleton in Hn as ->. exact Hp.
  - eapply IH; eauto.
Qed.

Local Ltac el := rewrite ?elem_of_app, ?elem_of_list_singleton; intuition (eauto; congruence).
Context (W : oracles) (E : sources) (file : string -> option texpr)
  (Hfile : forall e t, file e = Some t -> exists fn, struct_to_filename W e = Some fn /\ src_file E fn e = Some t).
Definition map_loop (n : nat) : list afield -> gmap string afield -> option (option (gmap string afield)) :=
  fix loop fs m :=
    match fs with
    | [] => Some (Some m)
    | f :: fs' =>
      match af_names f with
      | go :: _ => loop fs' (<[field_key go := f]> m)
      | [] =>
        match af_type f with
        | EIdent e =>
          obind (struct_to_filename W e) (fun fl =>
          match (t ← src_file E fl e; find_fields t) with
          | None => Some None
          | Some gs =>
            match map_fields W E n gs with
            | None => None
            | Some None => Some None
            | Some (Some me) => loop fs' (m ∪ me)
            end
          end)
        | _ => loop fs' m
        end
      end
    end.
Lemma map_fields_S n fs : map_fields W E (S n) fs = map_loop n fs ∅.
Proof. reflexivity. Qed.
Definition good_map (fs : list afield) (m : gmap string afield) : Prop :=
  (forall k g, m !! k = Some g -> exists n, k = field_key n /\ af_names g = [n] /\ visible fs n (af_type g)) /\
  (forall n T, visible fs n T -> is_Some (m !! field_key n)).
Definition part_map (fs : list afield) (m : gmap string afield) : Prop :=
  (forall k g, m !! k = Some g -> exists n, k = field_key n /\ af_names g = [n] /\
     ((n, af_type g) ∈ owns fs \/ (n ∉ (owns fs).*1 /\ exists e fs', e ∈ embs fs /\ types e = Some (EStruct fs') /\ visible fs' n (af_type g)))) /\
  (forall n, n ∈ (owns fs).*1 -> is_Some (m !! field_key n)) /\
  (forall e fs' n T, e ∈ embs fs -> types e = Some (EStruct fs') -> visible fs' n T -> is_Some (m !! field_key n)).
Lemma owns_app a b : owns (a ++ b) = owns a ++ owns b.
Proof. apply bind_app. Qed.
Lemma embs_app a b : embs (a ++ b) = embs a ++ embs b.
Proof. apply omap_app. Qed.
Lemma map_loop_ok fs : closed file fs ->
  (forall e fs', e ∈ embs fs -> types e = Some (EStruct fs') -> exists n0 m, (forall n, n0 <= n -> map_fields W E n fs' = Some (Some m)) /\ good_map fs' m) ->
  forall rest done m, fs = done ++ rest -> part_map done m ->
  exists n0 m', (forall n, n0 <= n -> map_loop n rest m = Some (Some m')) /\ part_map fs m'.
Proof.
  intros Hc Hemb. inversion Hc as [fs0 Hnd Hf He Hcl Heq]. subst fs0. induction rest as [|f rest IH]; intros done m Hfs Hm.
  { rewrite app_nil_r in Hfs. subst done. exists 0, m. split; [reflexivity|assumption]. }
  assert (Hin : f ∈ fs) by (rewrite Hfs; apply elem_of_app; right; left).
  assert (Hfs' : fs = (done ++ [f]) ++ rest) by (rewrite <- app_assoc; exact Hfs).
  destruct (Hf f Hin) as [(n & Hn & Hp)|(Hn & e & Het)].
  - assert (Hof : owns [f] = [(n, af_type f)]) by (unfold owns; cbn; rewrite Hn; reflexivity).
    assert (Hef : embs [f] = []) by (unfold embs; cbn; rewrite Hn; reflexivity).
    destruct (IH (done ++ [f]) (<[field_key n := f]> m) Hfs') as (n0 & m' & Hm' & Hpm).
    { destruct Hm as (H1 & H2 & H3). split; [|split].
      - intros k g. destruct (decide (k = field_key n)) as [->|Hne].
        + rewrite lookup_insert. intros [= <-]. exists n. split; [reflexivity|]. split; [assumption|]. left. rewrite owns_app, Hof. el.
        + rewrite lookup_insert_ne by congruence. intros Hk. destruct (H1 _ _ Hk) as (n1 & -> & Hn1 & Hor). exists n1. split; [reflexivity|]. split; [assumption|].
          rewrite owns_app, Hof, embs_app, Hef, app_nil_r. destruct Hor as [Hor|(Hno & e & fs' & He1 & He2)]; [left; el|].
          right. split; [|eauto]. rewrite fmap_app, elem_of_app. intros [Hx|Hx]; [auto|]. cbn in Hx. apply elem_of_list_singleton in Hx. congruence.
      - intros n1. rewrite owns_app, Hof, fmap_app, elem_of_app. cbn. intros [Hx|Hx%elem_of_list_singleton].
        + destruct (decide (field_key n = field_key n1)) as [->|Hne]; [rewrite lookup_insert; eauto|rewrite lookup_insert_ne by assumption; auto].
        + subst n1. rewrite lookup_insert. eauto.
      - intros e fs' n1 T. rewrite embs_app, Hef, app_nil_r. intros Ha Hb Hv.
        destruct (decide (field_key n = field_key n1)) as [->|Hne]; [rewrite lookup_insert; eauto|rewrite lookup_insert_ne by assumption; eauto]. }
    exists n0, m'. split; [|assumption]. intros k Hk. cbn. rewrite Hn. apply Hm'; assumption.
  - assert (Hof : owns [f] = []) by (unfold owns; cbn; rewrite Hn; reflexivity).
    assert (Hef : embs [f] = [e]) by (unfold embs; cbn; rewrite Hn, Het; reflexivity).
    assert (Hein : e ∈ embs fs) by (rewrite Hfs', !embs_app, Hef; el).
    destruct (He e Hein) as (Hb & fs' & Hty & Hfl). destruct (Hfile _ _ Hfl) as (fn & Hfn & Hsrc).
    destruct (Hemb e fs' Hein Hty) as (n1 & me & Hme & Hg1 & Hg2).
    destruct (IH (done ++ [f]) (m ∪ me) Hfs') as (n0 & m' & Hm' & Hpm).
    { destruct Hm as (H1 & H2 & H3). split; [|split].
      - intros k g. rewrite owns_app, Hof, app_nil_r, embs_app, Hef. rewrite lookup_union_Some_raw. intros [Hk|[Hnone Hk]].
        + destruct (H1 _ _ Hk) as (n2 & -> & Hn2 & Hor). exists n2. split; [reflexivity|]. split; [assumption|].
          destruct Hor as [Hor|(Hno & e' & fs1 & He1 & He2)]; [left; assumption|]. right. split; [assumption|]. exists e', fs1. split; [el|assumption].
        + destruct (Hg1 _ _ Hk) as (n2 & -> & Hn2 & Hv). exists n2. split; [reflexivity|]. split; [assumption|]. right. split.
          * intros Hx. destruct (H2 _ Hx) as [g' Hg']. congruence.
          * exists e, fs'. split; [el|]. auto.
      - intros n2. rewrite owns_app, Hof, app_nil_r. intros Hx. rewrite lookup_union_is_Some. left. auto.
      - intros e' fs1 n2 T. rewrite embs_app, Hef. intros [Hx|Hx%elem_of_list_singleton]%elem_of_app Hty' Hv; rewrite lookup_union_is_Some.
        + left. eauto.
        + subst e'. rewrite Hty in Hty'. injection Hty' as <-. right. eauto. }
    exists (max n0 n1), m'. split; [|assumption]. intros k Hk. cbn. rewrite Hn, Het, Hfn. cbn. rewrite Hsrc. cbn. rewrite Hme by lia. apply Hm'. lia.
Qed.
Lemma map_fields_ok fs : closed file fs -> exists n0 m, (forall n, n0 <= n -> map_fields W E n fs = Some (Some m)) /\ good_map fs m.
Proof.
  induction 1 as [fs Hnd Hf He Hcl IH].
  assert (Hc : closed file fs) by (constructor; assumption).
  destruct (map_loop_ok fs Hc IH fs [] ∅ eq_refl) as (n0 & m & Hm & H1 & H2 & H3).
  { split; [|split].
    - intros k g. rewrite lookup_empty. discriminate.
    - intros n Hn. apply elem_of_nil in Hn as [].
    - intros e fs' n T Hn. apply elem_of_nil in Hn as []. }
  exists (S n0), m. split.
  { intros [|n] Hn; [lia|]. rewrite map_fields_S. apply Hm. lia. }
  split.
  - intros k g Hk. destruct (H1 _ _ Hk) as (n & -> & Hn & Hor). exists n. split; [reflexivity|]. split; [assumption|].
    destruct Hor as [Hor|(Hno & e & fs' & He1 & He2 & Hv)]; [apply vis_own; assumption|]. eapply vis_emb; eauto.
  - intros n T Hv. inversion Hv; subst.
    + apply H2. apply elem_of_list_fmap. exists (n, T). auto.
    + eapply H3; eauto.
Qed.
Lemma good_map_lookup fs m n T : closed file fs -> good_map fs m -> (forall n T T', visible fs n T -> visible fs n T' -> T = T') -> visible fs n T ->
  exists g, m !! field_key n = Some g /\ af_names g = [n] /\ af_type g = T.
Proof.
  intros Hc (H1 & H2) Hone Hv. destruct (H2 _ _ Hv) as [g Hg]. exists g. destruct (H1 _ _ Hg) as (n' & Hk & Hn & Hv').
  assert (n = n') as <- by (eapply field_key_inj; [eapply closed_prefix; eauto|eapply closed_prefix; eauto|exact Hk]).
  split; [assumption|]. split; [assumption|]. eapply Hone; eauto.
Qed.

(** ** Deciding what is visible, for examples *)
Fixpoint vis (k : nat) (fs : list afield) : list (string * texpr) :=
  owns fs ++ match k with
  | O => []
  | S k => filter (fun p => p.1 ∉ (owns fs).*1) (embs fs ≫= (fun e => match types e with Some (EStruct fs') => vis k fs' | _ => [] end))
  end.
Fixpoint flat (k : nat) (fs : list afield) : bool :=
  match k with
  | O => bool_decide (embs fs = [])
  | S k => forallb (fun e => match types e with Some (EStruct fs') => flat k fs' | _ => true end) (embs fs)
  end.
Lemma visible_vis fs n T : visible fs n T -> forall k, flat k fs = true -> (n, T) ∈ vis k fs.
Proof.
  induction 1 as [fs n T Ho|fs n T e fs' He Ht Hn Hv IH]; intros k Hk.
  - destruct k; cbn; apply elem_of_app; left; assumption.
  - destruct k as [|k]; cbn in Hk.
    + apply bool_decide_eq_true in Hk. rewrite Hk in He. apply elem_of_nil in He as [].
    + cbn. apply elem_of_app. right. apply elem_of_list_filter. split; [exact Hn|]. apply elem_of_list_bind. exists e. split; [|assumption].
      rewrite Ht. apply IH. rewrite forallb_forall in Hk. specialize (Hk e ltac:(apply elem_of_list_In; assumption)). rewrite Ht in Hk. exact Hk.
Qed.
Lemma one_type k fs : flat k fs = true -> NoDup (vis k fs).*1 -> forall n T T', visible fs n T -> visible fs n T' -> T = T'.
Proof.
  intros Hk Hnd n T T' H1 H2. apply (visible_vis _ _ _ H1 k) in Hk as Hin1. apply (visible_vis _ _ _ H2 k) in Hk as Hin2.
  revert Hnd Hin1 Hin2. generalize (vis k fs) as l. clear. intros l. induction l as [|[k t] l IH]; intros Hnd H1 H2; [apply elem_of_nil in H1 as []|].
  cbn in Hnd. apply NoDup_cons in Hnd as [Hk Hnd].
  assert (Hin : forall T, (k, T) ∈ l -> False) by (intros T0 H; apply Hk; apply elem_of_list_fmap; exists (k, T0); auto).
  apply elem_of_cons in H1 as [H1|H1]; apply elem_of_cons in H2 as [H2|H2]; [congruence|injection H1 as -> ->; destruct (Hin _ H2)|injection H2 as -> ->; destruct (Hin _ H1)|auto].
Qed.
(** the field at depth 0 is the selected one *)
Lemma selects_first fs n T0 T : types_at 0 n fs = [T0] -> selects fs n T -> T = T0.
Proof.
  intros H (d & Hd & Hless). destruct d as [|d]; [congruence|]. rewrite (Hless 0) in H by lia. discriminate.
Qed.
Lemma selects_none fs n T : types_at 0 n fs = [] -> embs fs = [] -> ~ selects fs n T.
Proof. intros H He (d & Hd & _). destruct d as [|d]; [congruence|]. cbn in Hd. rewrite He in Hd. discriminate. Qed.
End S1.

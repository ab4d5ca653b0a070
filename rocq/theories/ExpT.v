(** Dereferencing a document whose references form no cycle: it ends, and the result means the same. *)
From stdpp Require Import strings list gmap.
From Coq Require Import Ascii ZArith.
From Verif Require Import GoStr GoStrL Val Schema Inst Load SpecLoad SpecRef SpecExp FlatL RefL DerefL TermL ExpL.
From Verif Require Den HeapL.

Lemma rank_bound (rk : string -> nat) data : exists m, forall π r, ref_at data π r -> rk r < m.
Proof.
  exists (S (list_max (map (fun p => match pget p data with Some (TS (SStr r)) => rk r | _ => 0 end) (find_refs data)))).
  intros π r H. pose proof (find_refs_complete _ _ _ H) as Hin. apply Nat.lt_succ_r.
  assert (Hx : rk r ∈ map (fun p => match pget p data with Some (TS (SStr r)) => rk r | _ => 0 end) (find_refs data)).
  { apply elem_of_list_fmap. eexists. split; [|exact Hin]. destruct H as (o & Hr & Ho). rewrite pget_app, (reach_pget _ _ _ Hr). cbn. rewrite Ho. done. }
  apply elem_of_list_In in Hx. pose proof (proj1 (list_max_le _ _) (Nat.le_refl (list_max (map (fun p => match pget p data with Some (TS (SStr r)) => rk r | _ => 0 end) (find_refs data))))) as HF. rewrite List.Forall_forall in HF. by apply HF.
Qed.
Lemma deref_mono F lf path n n' data x : dereference F lf path n data = Some x -> n <= n' -> dereference F lf path n' data = Some x.
Proof.
  revert n' data. induction n as [|n IH]; intros n' data H Hn; [done|]. destruct n' as [|n']; [lia|]. cbn [dereference] in *.
  destruct data as [s|l|kvs|k|l]; try done. destruct (expand_all _ _ _ _ _) as [[d| |]|]; try done.
  destruct d as [s|l|kvs'|k|l]; try done. destruct (decide (find_refs (TObj kvs') = [])); [done|]. apply IH; [done|lia].
Qed.

Section main.
Context (F : files) (lf : string -> option (res instance)) (path : string) (rk : string -> nat) (K : string -> Prop).
Lemma deref_total o0 : distinct (TObj o0) -> ranked F lf path (TObj o0) rk K ->
  exists n0 o, (forall n, n0 <= n -> dereference F lf path n (TObj o0) = Some (Ok (TObj o))) /\ find_refs (TObj o) = [] /\ distinct (TObj o).
Proof.
  intros Hd [HK Hkn]. destruct (rank_bound rk (TObj o0)) as [m Hm].
  destruct (deref_ends F lf path rk K (fun _ => True) ltac:(done) m (TObj o0) (S m) I Hd (ex_intro _ _ eq_refl) HK Hkn Hm ltac:(lia)) as (o & H1 & H2 & H3 & _).
  exists (S m), o. split; [|done]. intros n Hn. by eapply deref_mono.
Qed.

Context (o0 : list (string * tree)).
Notation tgt := (refers F lf path (TObj o0)).
Lemma refers_resolve r T : tgt r T -> resolve F lf r (TObj o0) path = Some (Ok (TObj T)).
Proof.
  intros (src & τ & o & Hs & Hg & ->). rewrite resolve_eq. destruct Hs as [[Hown ->]|Hoth].
  - destruct (own_resolves F lf path r τ (TObj o0) Hown) as [-> ->]. by rewrite Hg.
  - destruct (other_resolves F lf path r src τ (TObj o0) Hoth) as [-> ->]. by rewrite Hg.
Qed.
Lemma refers_unique r T T' : tgt r T -> tgt r T' -> T = T'.
Proof. intros H%refers_resolve H'%refers_resolve. congruence. Qed.
Lemma known_refers data r : known F lf path data rk K r -> data = TObj o0 -> exists T, tgt r T.
Proof.
  intros [τ o Hown Hg _ _|src τ o Hoth Hg _ _] ->; eexists; [exists (TObj o0), τ, o|exists src, τ, o]; (split; [|split; [exact Hg|reflexivity]]); [by left|by right].
Qed.

Definition sem_inv (data : tree) : Prop := forall r, K r ->
  exists T T0, resolve F lf r data path = Some (Ok (TObj T)) /\ tgt r T0 /\ sem tgt T0 T /\ plain (TObj T).
Definition inv (data : tree) : Prop :=
  plain data /\ (forall r, ~ ref_at data [] r) /\ sem_inv data /\ exists o, data = TObj o /\ sem tgt o0 o.
(** setting a scalar member *)
Lemma member_set o k s k' w : k <> "$ref" -> member tgt (set_assoc k (TS s) o) k' w <-> (k' = k /\ w = TS s) \/ (k' <> k /\ member tgt o k' w).
Proof.
  intros Hk. split.
  - intros Hm. inversion Hm as [? ? ? Ha Hb|? ? ? r T Ha Hb Hc Hd]; subst.
    + destruct (decide (k' = k)) as [->|N]; [left; rewrite set_assoc_same in Ha; by injection Ha as <-|right]. split; [done|].
      rewrite set_assoc_other in Ha by done. by eapply member_own.
    + rewrite set_assoc_other in Ha by done. destruct (decide (k' = k)) as [->|N]; [rewrite set_assoc_same in Hb; by destruct Hb|]. right. split; [done|].
      eapply member_ref; [done| |done|done]. destruct Hb as [Hb|Hb]; [left; by rewrite set_assoc_other in Hb|by right].
  - intros [[-> ->]|[N Hm]]; [eapply member_own; [apply set_assoc_same|done]|]. inversion Hm as [? ? ? Ha Hb|? ? ? r T Ha Hb Hc Hd]; subst.
    + eapply member_own; [by rewrite set_assoc_other|done].
    + eapply member_ref; [by rewrite set_assoc_other| |done|done]. destruct Hb as [Hb|Hb]; [left; by rewrite set_assoc_other|by right].
Qed.
Lemma found_set o k s π h : k <> "$ref" -> found tgt (set_assoc k (TS s) o) π h <->
  match π with
  | [] => h = HObj
  | k' :: π' => (k' = k /\ π' = [] /\ h = HVal (TS s)) \/ (k' <> k /\ found tgt o π h)
  end.
Proof.
  intros Hk. split.
  - intros Hf. inversion Hf as [|? k' v Hv Hn|? k' o1 π' ? Hv Hf'|? k' l i o1 π' ? Hv Hi Hf']; subst; [done|..].
    all: apply (member_set _ _ _ _ _ Hk) in Hv as [[-> E]|[N Hv]]; [try done|right; split; [done|]].
    + left. rewrite E. done.
    + by eapply found_value.
    + by eapply found_member.
    + by eapply found_item.
  - destruct π as [|k' π'].
    + intros ->. constructor.
    + intros [(-> & -> & ->)|[N Hf]].
      * apply (found_value tgt _ k (TS s)); [|done]. apply member_set; [done|]. by left.
      * inversion Hf as [|? ? v Hv Hn|? ? o1 ? ? Hv Hf'|? ? l i o1 ? ? Hv Hi Hf']; subst.
        -- eapply found_value; [|done]. apply member_set; [done|]. by right.
        -- eapply found_member; [|done]. apply member_set; [done|]. by right.
        -- eapply found_item; [|done..]. apply member_set; [done|]. by right.
Qed.
Lemma sem_set o o' k s : k <> "$ref" -> sem tgt o o' -> sem tgt (set_assoc k (TS s) o) (set_assoc k (TS s) o').
Proof.
  intros Hk H π h. rewrite !found_set by done. destruct π as [|k' π]; [done|]. specialize (H (k' :: π) h). tauto.
Qed.

Lemma inv_step data data' dest o T r0 : distinct data -> reach data dest o -> assoc "$ref" o = Some (TS (SStr r0)) ->
  resolve F lf r0 data path = Some (Ok (TObj T)) -> expanded dest o T data data' -> K r0 -> (forall r, K r -> known F lf path data rk K r) ->
  inv data -> inv data'.
Proof.
  intros Hd Hr Ho HT He Hk0 Hkn (Hpl & Hroot & Hsem & o1 & -> & Ho1).
  assert (Hne : dest <> []) by (intros ->; by destruct (Hroot r0); exists o).
  assert (Hnd : NoDup o.*1) by (by eapply reach_nodup).
  assert (Hplo : plain (TObj o)) by (eapply pget_plain; [exact Hpl|by apply reach_pget]).
  destruct (Hsem r0 Hk0) as (T' & T0 & HT' & Ht0 & HsT & HplT). assert (T' = T) as -> by congruence.
  assert (Hos : sem tgt o (overlay (del_assoc "$ref" o) T)).
  { eapply expand_sem; [done|done|exact Ho|exact Ht0| |exact HsT]. intros T1 HT1. by eapply refers_unique. }
  destruct He as [[? _]|[_ Hs]]; [done|]. destruct (pset_obj _ _ _ _ Hs) as [o2 ->].
  assert (Hpl' : plain (TObj o2)).
  { eapply pset_plain; [|exact Hpl|by eauto using reach_pget|exact Hs]. apply overlay_plain; [by apply del_assoc_plain|done]. }
  assert (He : expanded dest o T (TObj o1) (TObj o2)) by (by right).
  split; [done|]. split; [|split].
  - intros r H. apply (step_from _ _ dest o T r0 Hd Hr Ho He) in H as [[H _]|(_ & ρ & E & _)]; [by apply (Hroot r)|].
    symmetry in E. apply app_eq_nil in E as [-> _]. done.
  - intros r Hk. destruct (Hsem r Hk) as (Tr & Tr0 & HTr & Ht & Hst & Hplr).
    destruct (Hkn r Hk) as [τ oτ Hown Hg Hnb _|src τ oτ Hoth Hg _ _].
    + destruct (own_resolves F lf path r τ (TObj o1) Hown) as [Es Ef]. rewrite resolve_eq, Es, Ef, Hg in HTr. injection HTr as <-.
      assert (Hx : exists oτ', pget τ (TObj o2) = Some (TObj oτ') /\ sem tgt oτ oτ').
      { destruct (apart_or dest τ) as [[ρ E]|[[ρ [E Hρ]]|Ha]].
        - destruct ρ as [|k ρ]; [|destruct (Hnb dest (k :: ρ) r0 E Hne ltac:(done)); by exists o]. rewrite app_nil_r in E. rewrite E in Hg |- *.
          rewrite (reach_pget _ _ _ Hr) in Hg. injection Hg as <-. eexists. split; [|exact Hos].
          rewrite <- (app_nil_r dest). by rewrite (pset_get dest _ (TObj o1) (TObj o2) []) by eauto using reach_pget.
        - subst dest. pose proof (reach_below _ _ _ _ _ Hr Hg) as Hb.
          rewrite pset_app, Hg in Hs by eauto. destruct (pset ρ _ (TObj oτ)) as [t1|] eqn:E1; [|done]. destruct (pset_obj _ _ _ _ E1) as [oτ' ->].
          exists oτ'. split; [rewrite <- (app_nil_r τ); by rewrite (pset_get τ _ (TObj o1) (TObj o2) []) by eauto|].
          eapply replace_sem; [exact Hb|done|exact E1|exact Hos].
        - exists oτ. split; [|done]. by rewrite (pset_apart dest _ (TObj o1) (TObj o2) τ) by eauto using reach_pget. }
      destruct Hx as (oτ' & Hg' & Hsτ). destruct (own_resolves F lf path r τ (TObj o2) Hown) as [Es' _].
      exists (set_assoc "fromRef" (TS (SStr r)) oτ'), Tr0. split; [by rewrite resolve_eq, Es', Ef, Hg'|]. split; [done|]. split.
      * eapply sem_trans; [exact Hst|]. by apply sem_set.
      * apply set_assoc_plain; [|exact (pget_plain _ _ _ Hpl' Hg')]. eapply plain_assoc; [exact Hplr|]. apply set_assoc_same.
    + exists Tr, Tr0. split; [|done]. destruct (other_resolves F lf path r src τ (TObj o1) Hoth) as [Es Ef].
      destruct (other_resolves F lf path r src τ (TObj o2) Hoth) as [Es' _]. rewrite resolve_eq in *. by rewrite Es in HTr; rewrite Es'.
  - exists o2. split; [done|]. eapply sem_trans; [exact Ho1|]. eapply replace_sem; [exact Hr|done|exact Hs|exact Hos].
Qed.
Lemma deref_means n x : distinct (TObj o0) -> ranked F lf path (TObj o0) rk K -> plain (TObj o0) -> (forall r, ~ ref_at (TObj o0) [] r) ->
  (forall r T, K r -> tgt r T -> plain (TObj T)) ->
  dereference F lf path n (TObj o0) = Some x ->
  exists o, x = Ok (TObj o) /\ forall π h, found tgt o0 π h <-> found no_target o π h.
Proof.
  intros Hd [HK Hkn] Hpl Hroot HplT Hx. destruct (rank_bound rk (TObj o0)) as [m Hm].
  assert (Hinv : inv (TObj o0)).
  { split; [done|]. split; [done|]. split; [|by exists o0]. intros r Hr. destruct (known_refers _ _ (Hkn r Hr) eq_refl) as [T HT].
    exists T, T. split; [by apply refers_resolve|]. split; [done|]. split; [done|]. by eapply HplT. }
  destruct (deref_ends F lf path rk K inv inv_step m (TObj o0) (S m + n) Hinv Hd (ex_intro _ _ eq_refl) HK Hkn Hm ltac:(lia)) as (o & H1 & H2 & H3 & H4).
  exists o. rewrite (deref_mono _ _ _ _ (S m + n) _ _ Hx) in H1 by lia. injection H1 as ->. split; [done|].
  destruct H4 as (_ & _ & _ & o' & [= <-] & Hs). intros π h. rewrite (Hs π h).
  (* without references, members are the own ones *)
  assert (Hno : forall π r, ~ ref_at (TObj o) π r).
  { intros π' r Hr. apply find_refs_complete in Hr. rewrite H2 in Hr. by apply elem_of_nil in Hr. }
  clear -Hno. revert h. remember (length π) as len eqn:El. revert o Hno π El. induction len as [len IH] using lt_wf_ind. intros o Hno π -> h.
  assert (Hm : forall k v, member tgt o k v <-> member no_target o k v).
  { intros k v. split; intros Hm; inversion Hm as [? ? ? Ha Hb|? ? ? r T Ha Hb Hc Hd]; subst; try (by eapply member_own).
    destruct (Hno [] r). by apply ref_obj_here. }
  assert (Hsub : forall k o', member no_target o k (TObj o') -> forall π r, ~ ref_at (TObj o') π r).
  { intros k o' Hv. inversion Hv as [? ? ? Ha Hb|]; subst; [|done]. intros π' r (x & Hx & Hx'). apply (Hno (k :: π') r). exists x. split; [|done]. by eapply reach_member. }
  assert (Hsubi : forall k l i o', member no_target o k (TArr l) -> l !! i = Some (TObj o') -> forall π r, ~ ref_at (TObj o') π r).
  { intros k l i o' Hv Hi. inversion Hv as [? ? ? Ha Hb|]; subst; [|done]. intros π' r (x & Hx & Hx'). apply (Hno (k :: item_key i :: π') r). exists x. split; [|done]. by eapply reach_item. }
  split; intros Hf; inversion Hf as [|? k v Hv Hn|? k o1 π' ? Hv Hf'|? k l i o1 π' ? Hv Hi Hf']; subst.
  - constructor.
  - eapply found_value; [by apply Hm|done].
  - apply Hm in Hv. eapply found_member; [done|]. eapply (IH (length π')); [cbn; lia| |done|done]. by eapply Hsub.
  - apply Hm in Hv. eapply found_item; [done..|]. eapply (IH (length π')); [cbn; lia| |done|done]. by eapply Hsubi.
  - constructor.
  - eapply found_value; [by apply Hm|done].
  - eapply found_member; [by apply Hm|]. eapply (IH (length π')); [cbn; lia| |done|done]. by eapply Hsub.
  - eapply found_item; [by apply Hm|done|]. eapply (IH (length π')); [cbn; lia| |done|done]. by eapply Hsubi.
Qed.
End main.

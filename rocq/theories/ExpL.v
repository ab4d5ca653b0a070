(** Dereferencing computes what the document stands for. *)
From stdpp Require Import strings list gmap.
From Coq Require Import Ascii ZArith.
From Verif Require Import GoStr GoStrL Val Schema Inst Load SpecLoad SpecRef SpecExp FlatL RefL DerefL TermL.
From Verif Require Den HeapL.

Lemma plain_obj kvs : plain (TObj kvs) <-> Forall (fun kv => plain kv.2) kvs.
Proof.
  unfold plain. cbn. split; intros H.
  - induction kvs as [|[k v] kvs IH]; [constructor|]. destruct H as [H2 H3]. constructor; [done|]. by apply IH.
  - induction H as [|[k v] kvs Hv H IH]; done.
Qed.
Lemma plain_arr l : plain (TArr l) <-> Forall plain l.
Proof.
  unfold plain. cbn. split; intros H.
  - induction l as [|x l IH]; [constructor|]. destruct H as [H2 H3]. constructor; [done|]. by apply IH.
  - induction H as [|x l Hv H IH]; done.
Qed.
Lemma plain_assoc k kvs v : plain (TObj kvs) -> assoc k kvs = Some v -> plain v.
Proof. intros H%plain_obj Ha%assoc_elem. rewrite Forall_forall in H. by apply (H _ Ha). Qed.
Lemma plain_item l i v : plain (TArr l) -> l !! i = Some v -> plain v.
Proof. intros H%plain_arr Hi. rewrite Forall_lookup in H. by eapply H. Qed.
Lemma plain_remarshal v : plain v -> remarshal v = v.
Proof. destruct v as [[]| | | |]; try done. cbn. intros ->. done. Qed.
Lemma pget_plain p t v : plain t -> pget p t = Some v -> plain v.
Proof.
  revert t. induction p as [|k p IH]; intros t Hd H; [cbn in *; congruence|]. cbn in H. destruct t as [s|l|kvs|n|l]; try done.
  - destruct (item_at k 0 l) as [[i x]|] eqn:E; [|done]. apply item_at_inv in E as (n & _ & Hn & _). cbn in H. eapply IH; [|done]. by eapply plain_item.
  - destruct (assoc k kvs) as [x|] eqn:E; [|done]. cbn in H. eapply IH; [|done]. by eapply plain_assoc.
Qed.
Lemma set_assoc_plain k v kvs : plain v -> plain (TObj kvs) -> plain (TObj (set_assoc k v kvs)).
Proof. intros Hv H%plain_obj. apply plain_obj. by apply set_assoc_forall. Qed.
Lemma del_assoc_plain k o : plain (TObj o) -> plain (TObj (del_assoc k o)).
Proof. intros H%plain_obj. apply plain_obj. rewrite Forall_forall in *. intros kv Hkv. apply H. by eapply del_assoc_sub. Qed.
Lemma overlay_plain S T : plain (TObj S) -> plain (TObj T) -> plain (TObj (overlay S T)).
Proof.
  intros HS%plain_obj. revert T. induction HS as [|[k v] S Hv HS IH]; intros T HT; [done|]. cbn [overlay foldl fst snd].
  apply IH. apply set_assoc_plain; [|done]. by rewrite plain_remarshal.
Qed.
Lemma pset_plain p v t t' : plain v -> plain t -> (exists old, pget p t = Some old) -> pset p v t = Some t' -> plain t'.
Proof.
  intros Hv. revert t t'. induction p as [|k p IH]; intros t t' Ht [old Ho] H; [cbn in *; congruence|]. cbn in *. destruct t as [s|l|kvs|n|l]; try done.
  - destruct (item_at k 0 l) as [[i x]|] eqn:E; [|done]. cbn in *. destruct (pset p v x) as [t1|] eqn:E1; [|done]. injection H as <-.
    apply plain_arr. apply Forall_insert; [by apply plain_arr|]. apply item_at_inv in E as (n & _ & Hn & _). eapply IH; [|by eauto..]. by eapply plain_item.
  - destruct (assoc k kvs) as [w|] eqn:E; [|done]. cbn in *. destruct (pset p v w) as [t1|] eqn:E1; [|done]. injection H as <-.
    apply set_assoc_plain; [|done]. eapply IH; [|by eauto..]. by eapply plain_assoc.
Qed.

Section sem.
Context (tgt : string -> list (string * tree) -> Prop).
Notation member := (member tgt). Notation found := (found tgt).
Definition sem (o o' : list (string * tree)) : Prop := forall π h, found o π h <-> found o' π h.
Lemma sem_refl o : sem o o. Proof. done. Qed.
Lemma sem_sym o o' : sem o o' -> sem o' o. Proof. intros H π h. symmetry. apply H. Qed.
Lemma sem_trans o1 o2 o3 : sem o1 o2 -> sem o2 o3 -> sem o1 o3. Proof. intros H1 H2 π h. etransitivity; [apply H1|apply H2]. Qed.
Definition isim (x y : tree) : Prop := x = y \/ exists o o', x = TObj o /\ y = TObj o' /\ sem o o'.
Inductive vsim : tree -> tree -> Prop :=
| vsim_eq v : vsim v v
| vsim_obj o o' : sem o o' -> vsim (TObj o) (TObj o')
| vsim_arr l l' : Forall2 isim l l' -> vsim (TArr l) (TArr l').
Lemma isim_sym x y : isim x y -> isim y x.
Proof. intros [->|(o & o' & -> & -> & H)]; [by left|right]. exists o', o. split; [done|]. split; [done|]. by apply sem_sym. Qed.
Lemma vsim_sym v v' : vsim v v' -> vsim v' v.
Proof.
  intros [w|o o' H|l l' H]; constructor.
  - by apply sem_sym.
  - apply Forall2_flip. eapply Forall2_impl; [exact H|]. intros x y. apply isim_sym.
Qed.
Lemma vsim_head v v' : vsim v v' -> head_of v = head_of v'.
Proof.
  intros [w|o o' H|l l' H]; [done|done|]. cbn. f_equal. induction H as [|x y l l' [->|(o & o' & -> & -> & _)] H IH]; [done|cbn; by rewrite IH..].
Qed.
Lemma cong_half o o' : (forall k v, member o k v -> exists v', member o' k v' /\ vsim v v') -> forall π h, found o π h -> found o' π h.
Proof.
  intros Hm π h H. destruct H as [o|o k v Hv Hn|o k o1 π h Hv Hf|o k l i o1 π h Hv Hi Hf].
  - constructor.
  - destruct (Hm _ _ Hv) as (v' & Hv' & Hs). rewrite (vsim_head _ _ Hs). eapply found_value; [done|]. intros ox ->. inversion Hs; subst; by eapply Hn.
  - destruct (Hm _ _ Hv) as (v' & Hv' & Hs). inversion Hs as [|? ? Hss|]; subst; eapply found_member; try done. by apply Hss.
  - destruct (Hm _ _ Hv) as (v' & Hv' & Hs). inversion Hs as [|?|? l' HF]; subst.
    + by eapply found_item.
    + rewrite Forall2_lookup in HF. specialize (HF i). rewrite Hi in HF. inversion HF as [? y Hxy Hx Hy|]; subst. symmetry in Hy.
      destruct Hxy as [<-|(ox & oy & [= <-] & -> & Hsem)]; eapply found_item; try done. by apply Hsem.
Qed.
Lemma cong o o' : (forall k v, member o k v -> exists v', member o' k v' /\ vsim v v') ->
  (forall k v, member o' k v -> exists v', member o k v' /\ vsim v v') -> sem o o'.
Proof. intros H1 H2 π h. split; by apply cong_half. Qed.

(** replacing a member by one of the same meaning *)
Lemma set_members o k v v' : assoc k o = Some v -> vsim v v' -> (k = "$ref" -> (forall r, v <> TS (SStr r)) /\ (forall r, v' <> TS (SStr r))) ->
  sem o (set_assoc k v' o).
Proof.
  intros Hk Hs Hnr. assert (Href : forall r, assoc "$ref" (set_assoc k v' o) = Some (TS (SStr r)) <-> assoc "$ref" o = Some (TS (SStr r))).
  { intros r. destruct (decide (k = "$ref")) as [->|N]; [|by rewrite set_assoc_other]. rewrite set_assoc_same, Hk. destruct (Hnr eq_refl) as [H1 H2].
    split; intros [= E]; [by destruct (H2 r)|by destruct (H1 r)]. }
  assert (Hnone : forall k', assoc k' (set_assoc k v' o) = None <-> assoc k' o = None).
  { intros k'. destruct (decide (k' = k)) as [->|N]; [by rewrite set_assoc_same, Hk|by rewrite set_assoc_other]. }
  apply cong; intros k' w Hw.
  - inversion Hw as [? ? ? Ha Hb|? ? ? r T Ha Hb Hc Hd]; subst.
    + destruct (decide (k' = k)) as [->|N].
      * assert (w = v) as -> by congruence. exists v'. split; [|done]. eapply member_own; [by rewrite set_assoc_same|]. intros E. by apply Hnr.
      * exists w. split; [|constructor]. eapply member_own; [by rewrite set_assoc_other|done].
    + exists w. split; [|constructor]. eapply member_ref; [by apply Href| |done|done]. destruct Hb as [Hb|Hb]; [left; by apply Hnone|by right].
  - inversion Hw as [? ? ? Ha Hb|? ? ? r T Ha Hb Hc Hd]; subst.
    + destruct (decide (k' = k)) as [->|N].
      * rewrite set_assoc_same in Ha. injection Ha as ->. exists v. split; [|by apply vsim_sym]. eapply member_own; [done|]. intros E. by apply Hnr.
      * rewrite set_assoc_other in Ha by done. exists w. split; [|constructor]. by eapply member_own.
    + exists w. split; [|constructor]. eapply member_ref; [by apply Href| |done|done]. destruct Hb as [Hb|Hb]; [left; by apply Hnone|by right].
Qed.
(** replacing an object somewhere *)
Lemma replace_sem t dest old v o o' : reach t dest old -> t = TObj o -> pset dest (TObj v) t = Some (TObj o') -> sem old v -> sem o o'.
Proof.
  intros H. revert o o'. induction H as [o0|kvs k o0 dest old Hk H IH|kvs k l i o0 dest old Hk Hi H IH]; intros o o' [= <-] Hs Hsem.
  - cbn in Hs. injection Hs as <-. done.
  - cbn in Hs. rewrite Hk in Hs. destruct (pset dest _ (TObj o0)) as [t1|] eqn:E1; [|done]. cbn in Hs. injection Hs as <-.
    destruct (pset_obj _ _ _ _ E1) as [o1 ->]. eapply set_members; [done| |done]. constructor. by eapply IH.
  - cbn in Hs. rewrite Hk in Hs. cbn in Hs. pose proof (item_at_key i 0 _ l Hi) as Ei. cbn in Ei. rewrite Ei in Hs. cbn in Hs.
    destruct (pset dest _ (TObj o0)) as [t1|] eqn:E1; [|done]. cbn in Hs. injection Hs as <-.
    destruct (pset_obj _ _ _ _ E1) as [o1 ->]. eapply set_members; [done| |done]. constructor.
    apply Forall2_same_length_lookup. split; [by rewrite insert_length|]. intros j x y Hx Hy. destruct (decide (j = i)) as [->|N].
    + rewrite list_lookup_insert in Hy by (by eapply lookup_lt_Some). injection Hy as <-. assert (x = TObj o0) as -> by congruence.
      right. exists o0, o1. split; [done|]. split; [done|]. by eapply IH.
    + rewrite list_lookup_insert_ne in Hy by done. left. congruence.
Qed.
(** expanding a reference *)
Lemma found_cong_members o o' : (forall k v, member o k v <-> member o' k v) -> sem o o'.
Proof. intros H. apply cong; intros k v Hv; exists v; (split; [by apply H|constructor]). Qed.
Lemma expand_sem o r T T0 : NoDup o.*1 -> plain (TObj o) -> assoc "$ref" o = Some (TS (SStr r)) -> tgt r T0 -> (forall T1, tgt r T1 -> T1 = T0) -> sem T0 T ->
  sem o (overlay (del_assoc "$ref" o) T).
Proof.
  intros Hnd Hpl Ho Ht0 Hu HT. pose proof (del_assoc_nodup "$ref" _ Hnd) as HndS.
  (* members of the result *)
  assert (HS : forall k v, assoc k (del_assoc "$ref" o) = Some v -> assoc k (overlay (del_assoc "$ref" o) T) = Some v).
  { intros k v Hv. rewrite overlay_assoc, Hv by done. rewrite plain_remarshal; [done|]. eapply plain_assoc; [|exact Hv]. by apply del_assoc_plain. }
  assert (Hno : assoc "$ref" (del_assoc "$ref" o) = None) by (by apply del_assoc_same).
  assert (Hmem : forall k v, member (overlay (del_assoc "$ref" o) T) k v <->
     (assoc k (del_assoc "$ref" o) = Some v \/ assoc k (del_assoc "$ref" o) = None /\ member T k v)).
  { intros k v. split.
    - intros Hm. inversion Hm as [? ? ? Ha Hb|? ? ? r' T' Ha Hb Hc Hd]; subst.
      + rewrite overlay_assoc in Ha by done. destruct (assoc k (del_assoc "$ref" o)) as [w|] eqn:E.
        * left. rewrite <- Ha. f_equal. symmetry. apply plain_remarshal. eapply plain_assoc; [|exact E]. by apply del_assoc_plain.
        * right. split; [done|]. by eapply member_own.
      + rewrite overlay_assoc, Hno in Ha by done. destruct (assoc k (del_assoc "$ref" o)) as [w|] eqn:E.
        * exfalso. destruct Hb as [Hb|Hb]; [by rewrite overlay_assoc, E in Hb|subst; congruence].
        * right. split; [done|]. eapply member_ref; [done| |done|done]. destruct Hb as [Hb|Hb]; [left; by rewrite overlay_assoc, E in Hb|by right].
    - intros [Hv|[Hn Hm]].
      + eapply member_own; [by apply HS|]. intros ->. by rewrite Hno in Hv.
      + inversion Hm as [? ? ? Ha Hb|? ? ? r' T' Ha Hb Hc Hd]; subst.
        * eapply member_own; [by rewrite overlay_assoc, Hn|done].
        * eapply member_ref; [by rewrite overlay_assoc, Hno| |done|done]. destruct Hb as [Hb|Hb]; [left; by rewrite overlay_assoc, Hn|by right]. }
  assert (Hmo : forall k v, member o k v <-> (assoc k (del_assoc "$ref" o) = Some v \/ assoc k (del_assoc "$ref" o) = None /\ member T0 k v)).
  { intros k v. split.
    - intros Hm. inversion Hm as [? ? ? Ha Hb|? ? ? r' T' Ha Hb Hc Hd]; subst.
      + left. destruct (decide (k = "$ref")) as [->|N]; [|by rewrite del_assoc_other]. rewrite Ho in Ha. injection Ha as <-. by destruct (Hb eq_refl r).
      + right. assert (r' = r) as -> by congruence. rewrite (Hu _ Hc) in Hd. split; [|done]. destruct Hb as [Hb| ->]; [|done].
        destruct (decide (k = "$ref")) as [->|N]; [done|by rewrite del_assoc_other].
    - intros [Hv|[Hn Hm]].
      + destruct (decide (k = "$ref")) as [->|N]; [by rewrite Hno in Hv|]. rewrite del_assoc_other in Hv by done. by eapply member_own.
      + eapply member_ref; [exact Ho| |exact Ht0|exact Hm]. destruct (decide (k = "$ref")) as [->|N]; [by right|left]. by rewrite del_assoc_other in Hn. }
  (* paths *)
  assert (Hpath : forall (P Q : list (string * tree)), (forall k v, member P k v <-> (assoc k (del_assoc "$ref" o) = Some v \/ assoc k (del_assoc "$ref" o) = None /\ member Q k v)) ->
    forall π h, found P π h -> π = [] /\ h = HObj \/ exists k π', π = k :: π' /\
      ((exists v, assoc k (del_assoc "$ref" o) = Some v /\ found [(k, v)] π h /\ (k <> "$ref")) \/ assoc k (del_assoc "$ref" o) = None /\ found Q π h)).
  { intros P Q HPQ π h Hf. inversion Hf as [|? k v Hv Hn|? k o1 π' ? Hv Hf'|? k l i o1 π' ? Hv Hi Hf']; subst; [by left|right..].
    all: eexists _, _; split; [done|]; apply HPQ in Hv as [Hv|[Hnone Hv]].
    - left. eexists. split; [exact Hv|]. assert (k <> "$ref") by (intros ->; by rewrite Hno in Hv). split; [|done]. eapply found_value; [|done]. eapply member_own; [cbn; by rewrite decide_True|done].
    - right. split; [done|]. by eapply found_value.
    - left. eexists. split; [exact Hv|]. assert (k <> "$ref") by (intros ->; by rewrite Hno in Hv). split; [|done]. eapply found_member; [|done]. eapply member_own; [cbn; by rewrite decide_True|done].
    - right. split; [done|]. by eapply found_member.
    - left. eexists. split; [exact Hv|]. assert (k <> "$ref") by (intros ->; by rewrite Hno in Hv). split; [|done]. eapply found_item; [|done..]. eapply member_own; [cbn; by rewrite decide_True|done].
    - right. split; [done|]. by eapply found_item. }
  assert (Hback : forall (P Q : list (string * tree)), (forall k v, member P k v <-> (assoc k (del_assoc "$ref" o) = Some v \/ assoc k (del_assoc "$ref" o) = None /\ member Q k v)) ->
    forall k π' h, ((exists v, assoc k (del_assoc "$ref" o) = Some v /\ found [(k, v)] (k :: π') h /\ (k <> "$ref")) \/ assoc k (del_assoc "$ref" o) = None /\ found Q (k :: π') h) -> found P (k :: π') h).
  { intros P Q HPQ k π' h [(v & Hv & Hf & Hk)|[Hn Hf]].
    - assert (Hone : forall w, member [(k, v)] k w -> w = v).
      { intros w Hw. inversion Hw as [? ? ? Ha Hb|? ? ? r' T' Ha Hb Hc Hd]; subst; cbn in Ha; [rewrite decide_True in Ha by done; congruence|]. by rewrite decide_False in Ha. }
      inversion Hf as [|? ? w Hw Hn|? ? o1 ? ? Hw Hf'|? ? l i o1 ? ? Hw Hi Hf']; subst; apply Hone in Hw; subst.
      + eapply found_value; [|done]. apply HPQ. by left.
      + eapply found_member; [|done]. apply HPQ. by left.
      + eapply found_item; [|done..]. apply HPQ. by left.
    - inversion Hf as [|? ? w Hw Hn'|? ? o1 ? ? Hw Hf'|? ? l i o1 ? ? Hw Hi Hf']; subst.
      + eapply found_value; [|done]. apply HPQ. by right.
      + eapply found_member; [|done]. apply HPQ. by right.
      + eapply found_item; [|done..]. apply HPQ. by right. }
  intros π h. split; intros Hf.
  - destruct (Hpath _ _ Hmo _ _ Hf) as [[-> ->]|(k & π' & -> & H)]; [constructor|]. apply (Hback _ _ Hmem). destruct H as [H|[Hn H]]; [by left|right]. split; [done|]. by apply HT.
  - destruct (Hpath _ _ Hmem _ _ Hf) as [[-> ->]|(k & π' & -> & H)]; [constructor|]. apply (Hback _ _ Hmo). destruct H as [H|[Hn H]]; [by left|right]. split; [done|]. by apply HT.
Qed.
End sem.

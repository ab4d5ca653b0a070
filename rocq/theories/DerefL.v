(** References of a document, and the passes of dereferencing. *)
From stdpp Require Import strings list gmap.
From Coq Require Import Ascii ZArith.
From Verif Require Import GoStr GoStrL Val Schema Inst Load SpecLoad SpecRef FlatL RefL.
From Verif Require Den HeapL.
Notation distinct := Den.distinct_keys.

Lemma distinct_obj kvs : distinct (TObj kvs) <-> NoDup kvs.*1 /\ Forall (fun kv => distinct kv.2) kvs.
Proof.
  cbn. split; intros [H1 H2]; (split; [done|]); clear H1.
  - induction kvs as [|[k v] kvs IH]; [constructor|]. destruct H2 as [H2 H3]. constructor; [done|]. by apply IH.
  - induction H2 as [|[k v] kvs Hv H IH]; done.
Qed.
Lemma distinct_arr l : distinct (TArr l) <-> Forall distinct l.
Proof.
  cbn. split; intros H.
  - induction l as [|x l IH]; [constructor|]. destruct H as [H2 H3]. constructor; [done|]. by apply IH.
  - induction H as [|x l Hv H IH]; done.
Qed.
Lemma distinct_assoc k kvs v : distinct (TObj kvs) -> assoc k kvs = Some v -> distinct v.
Proof. intros [_ H]%distinct_obj Ha%assoc_elem. rewrite Forall_forall in H. by apply (H _ Ha). Qed.
Lemma distinct_item l i v : distinct (TArr l) -> l !! i = Some v -> distinct v.
Proof. intros H%distinct_arr Hi. rewrite Forall_lookup in H. by eapply H. Qed.

Lemma reach_pget t π o : reach t π o -> pget π t = Some (TObj o).
Proof.
  induction 1 as [o|kvs k o π out Hk H IH|kvs k l i o π out Hk Hi H IH]; [done|cbn; by rewrite Hk|].
  cbn. rewrite Hk. cbn. pose proof (item_at_key i 0 _ l Hi) as E. cbn in E. rewrite E. done.
Qed.
Lemma pget_distinct p t v : distinct t -> pget p t = Some v -> distinct v.
Proof.
  revert t. induction p as [|k p IH]; intros t Hd H; [cbn in *; congruence|]. cbn in H. destruct t as [s|l|kvs|n|l]; try done.
  - destruct (item_at k 0 l) as [[i x]|] eqn:E; [|done]. apply item_at_inv in E as (n & _ & Hn & _). cbn in H. eapply IH; [|done]. by eapply distinct_item.
  - destruct (assoc k kvs) as [x|] eqn:E; [|done]. cbn in H. eapply IH; [|done]. by eapply distinct_assoc.
Qed.
Lemma reach_distinct t π o : distinct t -> reach t π o -> distinct (TObj o).
Proof. intros Hd Hr%reach_pget. by eapply pget_distinct. Qed.

(** ** findRefs *)
Fixpoint items_refs (k : string) (i : nat) (l : list tree) : list (list string) :=
  match l with
  | [] => []
  | x :: l' => (match x with TObj _ => map (fun r => k :: item_key i :: r) (find_refs x) | _ => [] end) ++ items_refs k (S i) l'
  end.
Definition member_refs (kv : string * tree) : list (list string) :=
  match kv.2 with
  | TS (SStr _) => if decide (kv.1 = "$ref") then [[kv.1]] else []
  | TObj _ => map (cons kv.1) (find_refs kv.2)
  | TArr l => items_refs kv.1 0 l
  | _ => []
  end.
Lemma find_refs_obj kvs : find_refs (TObj kvs) = concat (map member_refs kvs).
Proof.
  cbn [find_refs]. f_equal. apply map_ext. intros [k v]. unfold member_refs. cbn [fst snd]. destruct v as [s|l|o|n|l]; try done.
  generalize 0 as i. induction l as [|x l IH]; intros i; [done|]. cbn [items_refs]. by rewrite <- IH.
Qed.
Lemma items_refs_iff k i l p : p ∈ items_refs k i l <-> exists j o q, l !! j = Some (TObj o) /\ q ∈ find_refs (TObj o) /\ p = k :: item_key (i + j) :: q.
Proof.
  revert i. induction l as [|x l IH]; intros i.
  - cbn. split; [intros H; by apply elem_of_nil in H|intros (j & o & q & Hj & _); done].
  - cbn [items_refs]. rewrite elem_of_app, IH. split.
    + intros [H|(j & o & q & Hj & Hq & ->)].
      * destruct x as [s|l'|o|n|l']; try (by apply elem_of_nil in H). apply elem_of_list_fmap in H as (q & -> & Hq).
        exists 0, o, q. split; [done|]. split; [done|]. by rewrite Nat.add_0_r.
      * exists (S j), o, q. split; [done|]. split; [done|]. do 3 f_equal. lia.
    + intros ([|j] & o & q & Hj & Hq & ->).
      * cbn in Hj. injection Hj as ->. left. rewrite Nat.add_0_r. by apply (elem_of_list_fmap_1 (fun r => k :: item_key i :: r)).
      * right. exists j, o, q. split; [done|]. split; [done|]. do 3 f_equal. lia.
Qed.
Lemma in_refs_obj kvs p : p ∈ find_refs (TObj kvs) <-> exists kv, kv ∈ kvs /\ p ∈ member_refs kv.
Proof. rewrite find_refs_obj. rewrite elem_of_list_In, in_concat. setoid_rewrite elem_of_list_In. split.
  - intros (l & Hl & Hp). apply in_map_iff in Hl as (kv & <- & Hkv). eauto.
  - intros (kv & Hkv & Hp). exists (member_refs kv). split; [|done]. apply in_map_iff. eauto.
Qed.
Lemma obj_ind (P : list (string * tree) -> Prop) :
  (forall kvs, (forall k o, (k, TObj o) ∈ kvs -> P o) -> (forall k l i o, (k, TArr l) ∈ kvs -> l !! i = Some (TObj o) -> P o) -> P kvs) ->
  forall kvs, P kvs.
Proof.
  intros H. set (R := fun t => match t with TObj kvs => P kvs | TArr l => forall i o, l !! i = Some (TObj o) -> P o | _ => True end).
  assert (HR : forall t, R t).
  { intros t. induction t as [s|l IH|kvs IH|n|l] using HeapL.tree_ind'; try done.
    - intros i o Hi. rewrite Forall_lookup in IH. exact (IH _ _ Hi).
    - apply H; rewrite Forall_forall in IH.
      + intros k o Hin. exact (IH _ Hin).
      + intros k l i o Hin Hi. exact (IH _ Hin _ _ Hi). }
  intros kvs. exact (HR (TObj kvs)).
Qed.
Lemma find_refs_sound kvs p : distinct (TObj kvs) -> p ∈ find_refs (TObj kvs) -> exists π r, p = π ++ ["$ref"] /\ ref_at (TObj kvs) π r.
Proof.
  revert p. induction kvs as [kvs IH1 IH2] using obj_ind; intros p Hd Hp.
  apply in_refs_obj in Hp as ([k v] & Hkv & Hp). pose proof Hd as [Hnd _]%distinct_obj.
  pose proof (elem_assoc _ _ _ Hnd Hkv) as Ha. unfold member_refs in Hp. cbn [fst snd] in Hp.
  pose proof (distinct_assoc _ _ _ Hd Ha) as Hdv.
  destruct v as [s|l|o|n|l]; try (by apply elem_of_nil in Hp).
  - destruct s; try (by apply elem_of_nil in Hp). case_decide as E; [|by apply elem_of_nil in Hp]. apply elem_of_list_singleton in Hp as ->. subst k.
    exists [], s. split; [done|]. exists kvs. split; [constructor|done].
  - apply items_refs_iff in Hp as (j & o & q & Hj & Hq & ->). cbn [Nat.add] in *.
    destruct (IH2 _ _ _ _ Hkv Hj q (distinct_item _ _ _ Hdv Hj) Hq) as (π & r & -> & o' & Hr & Ho').
    exists (k :: item_key j :: π), r. split; [done|]. exists o'. split; [|done]. by eapply reach_item.
  - apply elem_of_list_fmap in Hp as (q & -> & Hq). destruct (IH1 _ _ Hkv q Hdv Hq) as (π & r & -> & o' & Hr & Ho').
    exists (k :: π), r. split; [done|]. exists o'. split; [|done]. by eapply reach_member.
Qed.
Lemma find_refs_complete t π r : ref_at t π r -> π ++ ["$ref"] ∈ find_refs t.
Proof.
  intros (out & Hr & Ho). induction Hr as [o|kvs k o π out Hk H IH|kvs k l i o π out Hk Hi H IH]; apply in_refs_obj.
  - exists ("$ref", TS (SStr r)). split; [by apply assoc_elem|]. unfold member_refs. cbn [fst snd]. rewrite decide_True by done. by left.
  - exists (k, TObj o). split; [by apply assoc_elem|]. unfold member_refs. cbn [fst snd]. apply elem_of_list_fmap. eexists. split; [done|]. by apply IH.
  - exists (k, TArr l). split; [by apply assoc_elem|]. unfold member_refs. cbn [fst snd]. apply items_refs_iff. eexists i, o, _. split; [done|].
    split; [by apply IH|done].
Qed.
Lemma find_refs_iff kvs p : distinct (TObj kvs) -> p ∈ find_refs (TObj kvs) <-> exists π r, p = π ++ ["$ref"] /\ ref_at (TObj kvs) π r.
Proof. intros Hd. split; [by apply find_refs_sound|]. intros (π & r & -> & H). by eapply find_refs_complete. Qed.
Lemma member_refs_head kv p : p ∈ member_refs kv -> exists q, p = kv.1 :: q.
Proof.
  destruct kv as [k v]. unfold member_refs. cbn [fst snd]. intros Hp. destruct v as [s|l|o|n|l]; try (by apply elem_of_nil in Hp).
  - destruct s; try (by apply elem_of_nil in Hp). case_decide; [|by apply elem_of_nil in Hp]. apply elem_of_list_singleton in Hp as ->. by eexists.
  - apply items_refs_iff in Hp as (j & o & q & _ & _ & ->). by eexists.
  - apply elem_of_list_fmap in Hp as (q & -> & _). by eexists.
Qed.
Lemma find_refs_nodup kvs : distinct (TObj kvs) -> NoDup (find_refs (TObj kvs)).
Proof.
  induction kvs as [kvs IH1 IH2] using obj_ind; intros Hd. rewrite find_refs_obj. pose proof Hd as [Hnd Hds]%distinct_obj.
  assert (Hm : forall kv, kv ∈ kvs -> NoDup (member_refs kv)).
  { intros [k v] Hkv. rewrite Forall_forall in Hds. pose proof (Hds _ Hkv) as Hdv. cbn [snd] in Hdv. unfold member_refs. cbn [fst snd].
    destruct v as [s|l|o|n|l]; try constructor.
    - destruct s; try constructor. case_decide; [|constructor]. apply NoDup_singleton.
    - assert (HI : forall i o, l !! i = Some (TObj o) -> NoDup (find_refs (TObj o))).
      { intros i o Hi. by eapply IH2; [done..|]; eapply distinct_item. }
      clear IH1 IH2 Hkv Hds Hnd Hd Hdv. generalize 0 as i. induction l as [|x l IH]; intros i; [constructor|]. cbn [items_refs].
      apply NoDup_app. split; [|split].
      + destruct x as [s|l'|o|n|l']; try constructor. apply (NoDup_fmap_2 (fun r => k :: item_key i :: r)). by apply (HI 0).
      + intros p Hp (j & o & q & _ & _ & ->)%items_refs_iff. destruct x as [s|l'|o'|n|l']; try (by apply elem_of_nil in Hp).
        apply elem_of_list_fmap in Hp as (q' & E & _). apply (f_equal (fun p => nth 1 p "")) in E. cbn [nth] in E. apply item_key_inj in E. lia.
      + apply IH. intros j o Hj. by apply (HI (S j)).
    - apply (NoDup_fmap_2 (cons k)). by eapply IH1. }
  clear IH1 IH2 Hd Hds. induction kvs as [|kv kvs IH]; [constructor|]. cbn in *. apply NoDup_cons in Hnd as [Hn Hnd]. apply NoDup_app. split; [|split].
  - apply Hm. by left.
  - intros p Hp Hp'. apply elem_of_list_In, in_concat in Hp' as (l & Hl & Hp'). apply in_map_iff in Hl as (kv' & <- & Hkv').
    apply elem_of_list_In in Hp', Hkv'. apply member_refs_head in Hp as [q ->]. apply member_refs_head in Hp' as [q' E]. injection E as E _.
    apply Hn. rewrite E. by apply elem_of_list_fmap_1.
  - apply IH; [done|]. intros kv' H. apply Hm. by right.
Qed.

(** ** replacing an object *)
Lemma reach_app t π o ρ out : reach t π o -> reach (TObj o) ρ out -> reach t (π ++ ρ) out.
Proof.
  intros H. induction H as [o'|kvs k o' π o Hk H IH|kvs k l i o' π o Hk Hi H IH]; intros H'; [done| |]; rewrite <- ?app_comm_cons.
  - eapply reach_member; [done|]. by apply IH.
  - eapply reach_item; [done..|]. by apply IH.
Qed.
Lemma reach_below t τ ρ out o : reach t (τ ++ ρ) out -> pget τ t = Some (TObj o) -> reach (TObj o) ρ out.
Proof.
  remember (τ ++ ρ) as π eqn:E. intros H. revert τ ρ E. induction H as [o'|kvs k o' π out Hk H IH|kvs k l i o' π out Hk Hi H IH]; intros τ ρ E Hg.
  - symmetry in E. apply app_eq_nil in E as [-> ->]. cbn in Hg. injection Hg as ->. constructor.
  - destruct τ as [|k' τ]; cbn in E, Hg.
    + injection Hg as <-. rewrite <- E. by eapply reach_member.
    + injection E as <- E. rewrite Hk in Hg. cbn in Hg. by eapply IH.
  - destruct τ as [|k' [|c τ]]; cbn in E, Hg.
    + injection Hg as <-. rewrite <- E. by eapply reach_item.
    + injection E as <- E. rewrite Hk in Hg. by cbn in Hg.
    + injection E as <- <- E. rewrite Hk in Hg. cbn in Hg. pose proof (item_at_key i 0 _ l Hi) as Ei. cbn in Ei. rewrite Ei in Hg. cbn in Hg. by eapply IH.
Qed.
(** where nothing is replaced *)
Definition extends (π dest : list string) : Prop := exists ρ, π = dest ++ ρ.
Lemma extends_dec π dest : extends π dest \/ ~ extends π dest.
Proof.
  destruct (apart_or dest π) as [[r ->]|[[r [-> Hr]]|H]].
  - left. by exists r.
  - right. intros [ρ E]. rewrite <- app_assoc in E. rewrite <- (app_nil_r π) in E at 1. apply app_inv_head in E. symmetry in E. apply app_eq_nil in E as [-> _]. done.
  - right. intros [ρ E]. by eapply apart_not_prefix.
Qed.
Lemma item_lookup_key l i x n y : item_at (item_key i) 0 l = Some (n, x) -> l !! i = Some y -> n = i /\ x = y.
Proof. intros H Hi. pose proof (item_at_key i 0 _ l Hi) as E. cbn in E. rewrite E in H. by injection H as <- <-. Qed.
Lemma pset_obj p v o t' : pset p (TObj v) (TObj o) = Some t' -> exists o', t' = TObj o'.
Proof.
  destruct p as [|k p]; cbn; [intros [= <-]; by eexists|]. destruct (assoc k o) as [w|]; [|intros [= <-]; by eexists].
  destruct (pset p (TObj v) w); [|done]. cbn. intros [= <-]. by eexists.
Qed.
Lemma reach_set dest v t t' old π : reach t dest old -> pset dest (TObj v) t = Some t' -> ~ extends π dest ->
  (forall o, reach t π o -> exists o', reach t' π o' /\ forall k s, assoc k o = Some (TS s) <-> assoc k o' = Some (TS s)) /\
  (forall o', reach t' π o' -> exists o, reach t π o /\ forall k s, assoc k o = Some (TS s) <-> assoc k o' = Some (TS s)).
Proof.
  intros H. revert t' π. induction H as [o0|kvs k o0 dest old Hk H IH|kvs k l i o0 dest old Hk Hi H IH]; intros t' π Hs Hne.
  - destruct Hne. by exists π.
  - cbn in Hs. rewrite Hk in Hs. destruct (pset dest (TObj v) (TObj o0)) as [t1|] eqn:E1; [|done]. cbn in Hs. injection Hs as <-.
    destruct (pset_obj _ _ _ _ E1) as [o1 ->]. destruct π as [|k' π].
    + split.
      * intros o Ho. inversion Ho; subst. eexists. split; [constructor|]. intros k' s. destruct (decide (k' = k)) as [->|N]; [by rewrite set_assoc_same, Hk|by rewrite set_assoc_other].
      * intros o Ho. inversion Ho; subst. eexists. split; [constructor|]. intros k' s. destruct (decide (k' = k)) as [->|N]; [by rewrite set_assoc_same, Hk|by rewrite set_assoc_other].
    + destruct (decide (k' = k)) as [->|N].
      * assert (Hne' : ~ extends π dest) by (intros [ρ ->]; apply Hne; by exists ρ).
        destruct (IH _ _ eq_refl Hne') as [IHa IHb]. split.
        -- intros o Ho. inversion Ho; subst; [|congruence]. assert (o2 = o0) as -> by congruence. destruct (IHa _ ltac:(eassumption)) as (o' & Ho' & Hx).
           exists o'. split; [|done]. eapply reach_member; [apply set_assoc_same|done].
        -- intros o Ho. inversion Ho as [|? ? o2 ? ? Hka|? ? ? ? ? ? ? Hka]; subst; rewrite set_assoc_same in Hka; [|done]. injection Hka as <-. destruct (IHb _ ltac:(eassumption)) as (o' & Ho' & Hx).
           exists o'. split; [|done]. by eapply reach_member.
      * split; intros o Ho; exists o; (split; [|done]); inversion Ho as [|? ? o2 ? ? Hka|? ? ? ? ? ? ? Hka]; subst;
          [eapply reach_member|eapply reach_item|eapply reach_member|eapply reach_item]; eauto; rewrite set_assoc_other in *; done.
  - cbn in Hs. rewrite Hk in Hs. cbn in Hs. pose proof (item_at_key i 0 _ l Hi) as Ei. cbn in Ei. rewrite Ei in Hs. cbn in Hs.
    destruct (pset dest (TObj v) (TObj o0)) as [t1|] eqn:E1; [|done]. cbn in Hs. injection Hs as <-.
    destruct (pset_obj _ _ _ _ E1) as [o1 ->]. pose proof (lookup_lt_Some _ _ _ Hi) as Hlt. destruct π as [|k' π].
    + split.
      * intros o Ho. inversion Ho; subst. eexists. split; [constructor|]. intros k' s. destruct (decide (k' = k)) as [->|N]; [by rewrite set_assoc_same, Hk|by rewrite set_assoc_other].
      * intros o Ho. inversion Ho; subst. eexists. split; [constructor|]. intros k' s. destruct (decide (k' = k)) as [->|N]; [by rewrite set_assoc_same, Hk|by rewrite set_assoc_other].
    + destruct (decide (k' = k)) as [->|N].
      * split.
        -- intros o Ho. inversion Ho as [|? ? o2 ? ? Hka|? ? l2 j o2 π' ? Hka Hj Hr]; subst; [congruence|]. assert (l2 = l) as -> by congruence.
           destruct (decide (j = i)) as [->|Nj].
           ++ assert (o2 = o0) as -> by congruence. assert (Hne' : ~ extends π' dest) by (intros [ρ ->]; apply Hne; by exists ρ).
              destruct (IH _ _ eq_refl Hne') as [IHa _]. destruct (IHa _ Hr) as (o' & Ho' & Hx). exists o'. split; [|done].
              eapply reach_item; [apply set_assoc_same| |done]. by apply list_lookup_insert.
           ++ exists o. split; [|done]. eapply reach_item; [apply set_assoc_same| |done]. by rewrite list_lookup_insert_ne.
        -- intros o Ho. inversion Ho as [|? ? o2 ? ? Hka|? ? l2 j o2 π' ? Hka Hj Hr]; subst; rewrite set_assoc_same in Hka; [done|]. injection Hka as <-.
           destruct (decide (j = i)) as [->|Nj].
           ++ rewrite list_lookup_insert in Hj by done. injection Hj as <-. assert (Hne' : ~ extends π' dest) by (intros [ρ ->]; apply Hne; by exists ρ).
              destruct (IH _ _ eq_refl Hne') as [_ IHb]. destruct (IHb _ Hr) as (o' & Ho' & Hx). exists o'. split; [|done]. by eapply reach_item.
           ++ exists o. split; [|done]. rewrite list_lookup_insert_ne in Hj by done. by eapply reach_item.
      * split; intros o Ho; exists o; (split; [|done]); inversion Ho as [|? ? o2 ? ? Hka|? ? ? ? ? ? ? Hka]; subst;
          [eapply reach_member|eapply reach_item|eapply reach_member|eapply reach_item]; eauto; rewrite set_assoc_other in *; done.
Qed.

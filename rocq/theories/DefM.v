(** Single members of the objects that have defaults. *)
From stdpp Require Import strings list gmap.
From Coq Require Import Ascii ZArith Lia.
From Verif Require Import GoStr GoStrL Val Conv Instr Heap Schema Build Api SpecPath PathL Den Param HeapL Refine Top
  SpecSchema BuildL SpecProj ProjL SpecXml XmlL SpecRun RunL SpecDef DefD DefE DefB DefS DefP DefT.

(** ** canonical documents *)
Lemma tmap_elements (m : gmap string tree) : tmap (omap (fun k => pair k <$> m !! k) (elements (dom m))) = m.
Proof.
  unfold tmap.
  assert (H : forall ks i, (list_to_map (omap (fun k => pair k <$> m !! k) ks) : gmap string tree) !! i = if decide (i ∈ ks) then m !! i else None).
  { induction ks as [|k ks IH]; intros i; [by rewrite decide_False by (apply not_elem_of_nil)|].
    cbn [omap list_omap]. destruct (m !! k) as [x|] eqn:E; cbn [fmap option_fmap option_map list_to_map foldr uncurry].
    - cbn. destruct (decide (i = k)) as [->|Hne]; [by rewrite lookup_insert, decide_True by (by left)|].
      rewrite lookup_insert_ne by done. rewrite IH. repeat case_decide; try done; exfalso; rewrite elem_of_cons in *; naive_solver.
    - rewrite IH. destruct (decide (i = k)) as [->|Hne]; [repeat case_decide; congruence|].
      repeat case_decide; try done; exfalso; rewrite elem_of_cons in *; naive_solver. }
  apply map_eq. intros i. rewrite H. case_decide as Hi; [done|]. rewrite elem_of_elements, not_elem_of_dom in Hi. done.
Qed.
Lemma member_canon k t : member k (canon t) = canon <$> member k t.
Proof. destruct t; try done. cbn [canon member]. by rewrite tmap_elements, tmap_canon. Qed.
Lemma locate_canon ks : forall t, locate (names ks) (canon t) = canon <$> locate (names ks) t.
Proof.
  induction ks as [|k ks IH]; intros t; [done|]. cbn [names fmap list_fmap locate]. rewrite member_canon.
  destruct (member k t); cbn; [apply IH|done].
Qed.
Lemma print_ok W t o : print W t = Ok o -> o = canon t.
Proof. unfold print. case_decide; [|done]. destruct (tree_ok t); [|done]. by intros [= <-]. Qed.

(** ** objects *)
Lemma tmap_in l k t : NoDup l.*1 -> tmap l !! k = Some t <-> (k, t) ∈ l.
Proof. intros H. unfold tmap. split; [apply elem_of_list_to_map_2|by apply elem_of_list_to_map_1]. Qed.
Lemma NoDup_filter_fst (P : string * tree -> Prop) `{forall x, Decision (P x)} l : NoDup l.*1 -> NoDup (filter P l).*1.
Proof.
  induction l as [|kt l IH]; [done|]. rewrite fmap_cons, NoDup_cons. intros [H1 H2]. rewrite filter_cons. case_decide; [|by apply IH].
  cbn. apply NoDup_cons. split; [|by apply IH]. intros Hin. apply H1. apply elem_of_list_fmap in Hin as (y & -> & Hy).
  apply elem_of_list_filter in Hy as [_ Hy]. by apply elem_of_list_fmap_1.
Qed.
Lemma member_obj_of l k t : NoDup l.*1 -> tmap l !! k = Some t -> tnil t = false -> member k (obj_of l) = Some t.
Proof.
  intros Hnd Hk Ht. apply (tmap_in l k t Hnd) in Hk. unfold obj_of.
  assert (Hin : (k, t) ∈ filter (fun kv : string * tree => tnil kv.2 = false) l) by (by apply elem_of_list_filter).
  destruct (filter _ l) as [|x l'] eqn:E; [by apply elem_of_nil in Hin|]. cbn [member]. apply tmap_in; [|done].
  rewrite <- E. by apply NoDup_filter_fst.
Qed.
Lemma member_obj_of_nil l k t : NoDup l.*1 -> tmap l !! k = Some t -> tnil t = true -> member k (obj_of l) = None.
Proof.
  intros Hnd Hk Ht. apply (tmap_in l k t Hnd) in Hk. unfold obj_of.
  destruct (filter _ l) as [|x l'] eqn:E; [done|]. cbn [member]. rewrite <- E.
  destruct (tmap _ !! k) as [y|] eqn:Ey; [|done]. apply (elem_of_list_to_map_2 (M := gmap string)) in Ey.
  apply elem_of_list_filter in Ey as [Hy Hin]. cbn in Hy.
  apply (tmap_in l k t Hnd) in Hk. apply (tmap_in l k y Hnd) in Hin. congruence.
Qed.
Lemma member_or_nil l k : member k (obj_or_nil l) = tmap l !! k.
Proof. destruct l; [|done]. cbn. unfold tmap. cbn. by rewrite lookup_empty. Qed.
Lemma obj_or_nil_nil l : tnil (obj_or_nil l) = true -> l = [].
Proof. by destruct l. Qed.
Lemma tmap_overlay d r j : NoDup r.*1 -> tmap (overlay d r) !! j = or_else (tmap r !! j) (tmap d !! j).
Proof.
  intros Hnd. rewrite overlay_map by done. rewrite put_all by done. 
  destruct (tmap r !! j) as [t|] eqn:E; cbn [or_else].
  - apply (tmap_in r j t Hnd) in E. destruct (tnil t) eqn:Et.
    + apply lookup_union_r. apply not_elem_of_list_to_map_1. intros Hin. apply elem_of_list_fmap in Hin as ([j' t'] & -> & Hin).
      apply elem_of_list_filter in Hin as [H1 H2]. cbn in *. apply (tmap_in r j' t Hnd) in E. apply (tmap_in r j' t' Hnd) in H2. congruence.
    + apply lookup_union_Some_l. apply elem_of_list_to_map_1; [by apply NoDup_filter_fst|]. by apply elem_of_list_filter.
  - apply lookup_union_r. apply not_elem_of_list_to_map_1. intros Hin. apply elem_of_list_fmap in Hin as ([j' t'] & -> & Hin).
    apply elem_of_list_filter in Hin as [H1 H2]. apply (tmap_in r j' t' Hnd) in H2. cbn in *. congruence.
Qed.
Lemma all_of_pairs {A B} (f : string * A -> option B) l : forall r,
  all_of (List.map (fun kc => pair kc.1 <$> f kc) l) = Some r -> Forall2 (fun kc kr => kr.1 = kc.1 /\ f kc = Some kr.2) l r.
Proof.
  induction l as [|kc l IH]; intros r; cbn; [intros [= <-]; constructor|].
  destruct (f kc) as [b|] eqn:E; cbn; [|done]. destruct (all_of _) as [r'|]; cbn; [|done]. intros [= <-].
  constructor; [done|by apply IH].
Qed.

(** ** schemas with distinct names *)
Fixpoint duniq (s : dsch) : Prop :=
  match s with
  | DSame _ => True
  | DRec cs => NoDup cs.*1 /\
    (fix all (cs : list (string * dsch)) : Prop := match cs with [] => True | (_, c) :: cs' => duniq c /\ all cs' end) cs
  | DDef _ ms => NoDup ms.*1
  end.
Lemma dprel_uniq :
  (forall σ σp s p, dprel σ σp s p -> wf_paths p -> duniq s) /\
  (forall σ cs cs', dprel_all σ cs cs' -> Forall (fun kc => wf_paths kc.2) cs' ->
   cs.*1 = cs'.*1 /\ (fix all (cs : list (string * dsch)) : Prop := match cs with [] => True | (_, c) :: cs' => duniq c /\ all cs' end) cs).
Proof.
  apply dprel_mutind.
  - intros; done.
  - intros σ σp cs cs' Hall IH Hwf. apply wf_obj in Hwf as [Hnd Hwf]. destruct IH as [H1 H2].
    { eapply Forall_impl; [exact Hwf|]. by intros ? (_ & _ & ?). }
    cbn [duniq]. rewrite H1. done.
  - intros σ σp d cs cs' Hall Hwf. apply wf_obj in Hwf as [Hnd Hwf]. cbn [duniq].
    assert (E : cs.*1 = cs'.*1); [|by rewrite E]. clear -Hall. induction Hall; cbn; [done|by f_equal].
  - intros σ _. done.
  - intros σ k c cs c' cs' Hk Hc IHc Hcs IHcs Hwf. inversion Hwf as [|? ? Hw1 Hw2]; subst. destruct IHcs as [H1 H2]; [done|]. cbn. split; [by f_equal|].
    split; [by apply IHc|done].
Qed.

Lemma made_all W root ms v r : NoDup ms.*1 ->
  all_of (List.map (fun kc => match kc with (k, c) => pair k <$> project W root c v (v ≫= member k) end) ms) = Some r ->
  NoDup r.*1 /\ forall j, tmap r !! j = made W root ms v j.
Proof.
  intros Hnd Hr.
  assert (HF : Forall2 (fun kc kr => kr.1 = kc.1 /\ project W root kc.2 v (v ≫= member kc.1) = Some kr.2) ms r).
  { apply (all_of_pairs (fun kc => project W root kc.2 v (v ≫= member kc.1))). rewrite <- Hr. f_equal. apply map_ext. by intros [k c]. }
  split.
  - replace (r.*1) with (ms.*1); [done|]. clear -HF. induction HF as [|? ? ? ? (? & _) HF IH]; cbn; [done|by f_equal].
  - intros j. unfold made, tmap. clear Hr Hnd. induction HF as [|[k c] [k' t] ms r [H1 H2] HF IH]; [done|]. cbn in H1, H2. subst k'.
    cbn. destruct (decide (j = k)) as [->|Hne]; [rewrite !lookup_insert; cbn; by rewrite H2|]. by rewrite !lookup_insert_ne.
Qed.
Lemma list_to_map_in {A} (l : list (string * A)) k x : (list_to_map l : gmap string A) !! k = Some x -> (k, x) ∈ l.
Proof. apply elem_of_list_to_map_2. Qed.
Lemma dproject_look W root ks : forall s parent v t s' d ms, duniq s -> dproject W root s parent v = Some (t, s') ->
  dlook ks s = Some (DDef d ms) ->
  exists d', dlook ks s' = Some (DDef d' ms) /\
    (forall j, tmap d' !! j = or_else (made W root ms (v ≫= locate (names ks)) j) (tmap d !! j)) /\
    (forall j, locate (names (ks ++ [j])) t = tmap d' !! j).
Proof.
  induction ks as [|k ks IH]; intros s parent v t s' d ms Hu Hd Hl.
  - injection Hl as ->. cbn [dproject] in Hd. destruct (all_of _) as [r|] eqn:Er; [|done]. injection Hd as <- <-.
    destruct (made_all _ _ _ _ _ Hu Er) as [Hn Hr]. exists (overlay d r). split; [done|]. split.
    + intros j. rewrite tmap_overlay by done. rewrite Hr. f_equal. by destruct v.
    + intros j. cbn [app names fmap list_fmap locate]. rewrite member_or_nil. by destruct (tmap _ !! j).
  - destruct s as [|cs|]; [done| |done]. cbn [dlook] in Hl.
    destruct ((list_to_map cs : gmap string dsch) !! k) as [c|] eqn:Ec; [|done]. change (dlook ks c = Some (DDef d ms)) in Hl.
    cbn [dproject] in Hd. destruct (all_of _) as [r|] eqn:Er; [|done]. injection Hd as <- <-.
    assert (HF : Forall2 (fun kc kr => kr.1 = kc.1 /\ dproject W root kc.2 v (v ≫= member kc.1) = Some kr.2) cs r).
    { apply (all_of_pairs (fun kc => dproject W root kc.2 v (v ≫= member kc.1))). rewrite <- Er. f_equal. apply map_ext. by intros [k0 c0]. }
    destruct Hu as [Hnd Hu].
    assert (Hc : duniq c).
    { apply list_to_map_in in Ec. clear -Ec Hu. induction cs as [|[k0 c0] cs IHc]; [by apply elem_of_nil in Ec|].
      apply elem_of_cons in Ec as [[= -> ->]|Ec]; [apply Hu|]. apply IHc; [apply Hu|done]. }
    assert (Hx : exists kr, dproject W root c v (v ≫= member k) = Some kr /\
      tmap (List.map (fun kr : string * (tree * dsch) => (kr.1, kr.2.1)) r) !! k = Some kr.1 /\
      (list_to_map (List.map (fun kr : string * (tree * dsch) => (kr.1, kr.2.2)) r) : gmap string dsch) !! k = Some kr.2).
    { clear -HF Ec. induction HF as [|[k0 c0] [k1 [t1 s1]] cs r [H1 H2] HF IHF]; [done|]. cbn in H1, H2. subst k1.
      cbn in Ec. unfold tmap. cbn. destruct (decide (k = k0)) as [->|Hne].
      - rewrite lookup_insert in Ec. injection Ec as ->. exists (t1, s1). rewrite !lookup_insert. done.
      - rewrite lookup_insert_ne in Ec by done. rewrite !lookup_insert_ne by done. by apply IHF. }
    destruct Hx as ([t1 s1] & H1 & H2 & H3). cbn in H2, H3.
    assert (Hndr : NoDup (List.map (fun kr : string * (tree * dsch) => (kr.1, kr.2.1)) r).*1).
    { replace ((List.map (fun kr : string * (tree * dsch) => (kr.1, kr.2.1)) r).*1) with (cs.*1); [done|].
      clear -HF. induction HF as [|? ? ? ? (? & _) HF IHF]; cbn; [done|by f_equal]. }
    destruct (IH c v (v ≫= member k) t1 s1 d ms Hc H1 Hl) as (d' & A1 & A2 & A3). exists d'. split.
    { cbn [dlook]. rewrite H3. exact A1. }
    split.
    + intros j. rewrite A2. f_equal. f_equal. destruct v as [v|]; [|done]. cbn. by destruct (member k v).
    + intros j. cbn [app names fmap list_fmap locate]. fold (names (ks ++ [j])). destruct (tnil t1) eqn:Et.
      * rewrite (member_obj_of_nil _ k t1) by done. cbn. rewrite <- A3. destruct t1 as [[]| | | |]; try done. by destruct ks.
      * rewrite (member_obj_of _ k t1) by done. cbn. apply A3.
Qed.

Section top.
Context (W : oracles) (HW : jpath_parametric W) (E : env) (HE : unmarshals E).
Lemma dstate_uniq tid props i sc s : dstate W E tid props i sc s -> duniq sc.
Proof.
  intros Hs. destruct (dstate_inv W HW E HE _ _ _ _ _ Hs) as (p & Hp & _ & Hwf & _). by eapply (proj1 dprel_uniq).
Qed.
Lemma call_ok tid props i sc s perm raw doc o : dstate W E tid props i sc s -> orders perm -> e_json E raw = Some doc -> small doc ->
  (transform_no_validation W E perm FJson i raw s).2 = Ok o ->
  exists t sc', dproject W doc sc (Some doc) (Some doc) = Some (t, sc') /\ o = canon t /\
    dstate W E tid props i sc' (transform_no_validation W E perm FJson i raw s).1.
Proof.
  intros Hs Ho Hj Hsm Hr. pose proof (ddocument W HW E HE tid props i sc s perm raw doc Hs Ho Hj Hsm) as H.
  rewrite Hr in H. destruct (dproject W doc sc (Some doc) (Some doc)) as [[t sc']|] eqn:Ed; cbn in H; [|by destruct H].
  symmetry in H. exists t, sc'. split; [done|]. split; [by eapply print_ok|].
  by eapply (dstate_doc W E tid props i sc s perm (Unvalidated raw)).
Qed.
Lemma dmember tid props i sc s perm raw doc o ks d ms j : dstate W E tid props i sc s -> orders perm -> e_json E raw = Some doc -> small doc ->
  (transform_no_validation W E perm FJson i raw s).2 = Ok o -> dlook ks sc = Some (DDef d ms) ->
  locate (names (ks ++ [j])) o = canon <$> or_else (made W doc ms (locate (names ks) doc) j) (tmap d !! j).
Proof.
  intros Hs Ho Hj Hsm Hr Hl. destruct (call_ok _ _ _ _ _ _ _ _ _ Hs Ho Hj Hsm Hr) as (t & sc' & Hd & -> & _).
  destruct (dproject_look W doc ks _ _ _ _ _ _ _ (dstate_uniq _ _ _ _ _ Hs) Hd Hl) as (d' & _ & A2 & A3).
  rewrite locate_canon, A3, A2. done.
Qed.
Lemma dleft tid props i sc s perm1 raw1 doc1 o1 perm2 raw2 doc2 o2 ks d ms j : dstate W E tid props i sc s ->
  orders perm1 -> e_json E raw1 = Some doc1 -> small doc1 -> orders perm2 -> e_json E raw2 = Some doc2 -> small doc2 ->
  (transform_no_validation W E perm1 FJson i raw1 s).2 = Ok o1 ->
  (transform_no_validation W E perm2 FJson i raw2 (transform_no_validation W E perm1 FJson i raw1 s).1).2 = Ok o2 ->
  dlook ks sc = Some (DDef d ms) ->
  locate (names (ks ++ [j])) o2 = canon <$> or_else (made W doc2 ms (locate (names ks) doc2) j)
    (or_else (made W doc1 ms (locate (names ks) doc1) j) (tmap d !! j)).
Proof.
  intros Hs Ho1 Hj1 Hsm1 Ho2 Hj2 Hsm2 Hr1 Hr2 Hl. destruct (call_ok _ _ _ _ _ _ _ _ _ Hs Ho1 Hj1 Hsm1 Hr1) as (t & sc' & Hd & -> & Hs').
  destruct (dproject_look W doc1 ks _ _ _ _ _ _ _ (dstate_uniq _ _ _ _ _ Hs) Hd Hl) as (d' & A1 & A2 & _).
  rewrite (dmember _ _ _ _ _ _ _ _ _ _ _ _ j Hs' Ho2 Hj2 Hsm2 Hr2 A1). f_equal. f_equal. apply A2.
Qed.
End top.

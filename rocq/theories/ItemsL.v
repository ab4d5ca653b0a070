(** C19: arrays anywhere in a schema. *)
From stdpp Require Import strings list gmap.
From Coq Require Import ZArith.
From Verif Require Import GoStr Val Conv Instr Heap Schema Build Api SpecPath Den Param Top SpecSchema SpecProj SpecRun SpecTrans.
From Verif Require Import ProjL RunL ItemL SpecItems.

(** the projection is made by items *)
Lemma all_of_in {A B} (f : A -> option B) l r x : all_of (f <$> l) = Some r -> x ∈ l -> exists y, f x = Some y /\ y ∈ r.
Proof.
  revert r. induction l as [|a l IH]; intros r H Hx; [by apply elem_of_nil in Hx|]. cbn in H.
  destruct (f a) as [b|] eqn:Ef; [|done]. cbn in H. destruct (all_of (f <$> l)) as [r'|] eqn:El; [|done]. injection H as <-.
  apply elem_of_cons in Hx as [->|Hx]; [exists b; split; [done|left]|]. destruct (IH r' eq_refl Hx) as (y & ? & ?). exists y. split; [done|by right].
Qed.
Lemma result_of (l : list (string * tree)) k t : NoDup l.*1 -> (k, t) ∈ l -> result_at k (obj_of l) = t.
Proof.
  intros Hn Hin. unfold result_at.
  assert (E : member k (obj_of l) = tmap (filter (fun kv : string * tree => tnil kv.2 = false) l) !! k).
  { unfold obj_of. by destruct (filter _ l). }
  rewrite E. clear E. unfold tmap. induction l as [|[k' t'] l IH]; [by apply elem_of_nil in Hin|]. cbn in Hn. apply NoDup_cons in Hn as [Hk Hn].
  rewrite filter_cons. cbn. apply elem_of_cons in Hin as [[= -> ->]|Hin].
  - destruct (decide (tnil t' = false)) as [Ht|Ht]; [cbn; by rewrite lookup_insert|]. rewrite not_elem_of_list_to_map_1.
    + destruct t' as [[]| | | |]; done.
    + intros H. apply Hk. apply elem_of_list_fmap in H as ([x y] & -> & H). apply elem_of_list_filter in H as [_ H]. apply elem_of_list_fmap. by exists (x, y).
  - assert (k' <> k) as Hne. { intros ->. apply Hk. apply elem_of_list_fmap. by exists (k, t). }
    destruct (decide (tnil t' = false)); [cbn; rewrite lookup_insert_ne by done|]; by apply IH.
Qed.
Fixpoint named_once (s : sch) : Prop :=
  match s with
  | Leaf _ _ _ => True
  | Rec cs => NoDup cs.*1 /\ (fix all (cs : list (string * sch)) : Prop := match cs with [] => True | (_, c) :: cs' => named_once c /\ all cs' end) cs
  | Lst c => named_once c
  end.
Lemma shape_all_keys W tid ps cs : shape_all W tid ps cs -> ps.*1 = cs.*1.
Proof. induction 1; [done|]. cbn. by f_equal. Qed.
Lemma shape_named W tid : (forall raw s, shape W tid raw s -> named_once s) /\ (forall ps cs, shape_all W tid ps cs ->
  (fix all (cs : list (string * sch)) : Prop := match cs with [] => True | (_, c) :: cs' => named_once c /\ all cs' end) cs).
Proof.
  apply shape_mutind; try done. intros raw nl ps cs _ _ _ _ Hn _ Hs IH. cbn. split; [|done]. by rewrite <- (shape_all_keys _ _ _ _ Hs).
Qed.
Lemma shaped_named W tid props items s : shaped W tid props items s -> named_once s.
Proof.
  destruct s as [| cs|c], props as [ps|], items as [it|]; try done; cbn.
  - intros (Hn & _ & Hs). split; [by rewrite <- (shape_all_keys _ _ _ _ Hs)|by eapply shape_named].
  - intros Hs. by eapply shape_named.
Qed.
Fixpoint relative_below (s : sch) : relative_only s -> relative_items s.
Proof.
  destruct s as [jt d ts|cs|c]; cbn; [done| |done]. induction cs as [|[k c] cs IH]; [done|]. intros [H1 H2]. split; [by apply relative_below|by apply IH].
Qed.
Definition proj_at W (c : sch) (root : tree) (v : option tree) : option tree := project W root c v v.
Lemma by_items_ext c f g : (forall root v, f root v = g root v) -> by_items c f -> by_items c g.
Proof.
  intros E. destruct c as [| cs|c]; [done| |].
  - cbn. induction cs as [|[k c] cs IH]; [done|]. intros [H1 H2]. split; [|by apply IH]. destruct c; [done| |]; destruct H1 as (h & Hh & H1); exists h; (split; [done|]); intros root v t; rewrite <- E; apply H1.
  - cbn. intros (h & Hh & H). exists h. split; [done|]. intros root l. rewrite <- E. apply H.
Qed.
Lemma project_member W root cs k c par v t : NoDup cs.*1 -> (k, c) ∈ cs -> project W root (Rec cs) par v = Some t ->
  project W root c v (v ≫= member k) = Some (result_at k t).
Proof.
  intros Hn Hin H. cbn [project] in H. set (f := fun kc : string * sch => match kc with (k, c) => pair k <$> project W root c v (v ≫= member k) end) in H.
  change (List.map f cs) with (f <$> cs) in H. destruct (all_of (f <$> cs)) as [r|] eqn:Ea; [|done]. injection H as <-.
  destruct (all_of_in f cs r (k, c) Ea Hin) as ([k' y] & Hf & Hy). cbn in Hf. destruct (project W root c v (v ≫= member k)) as [y'|]; [|done]. cbn in Hf. injection Hf as <- <-.
  f_equal. symmetry. apply result_of; [|done]. clear Hin Hy. revert r Ea. clear -Hn. intros r Ea. assert (E : r.*1 = cs.*1); [|by rewrite E]. clear Hn. revert r Ea.
  induction cs as [|[k0 c0] cs IH]; intros r Ea; [by injection Ea as <-|]. cbn in Ea. destruct (project W root c0 v (v ≫= member k0)); [|done]. cbn in Ea.
  destruct (all_of (f <$> cs)) as [r'|] eqn:E; [|done]. injection Ea as <-. cbn. f_equal. by apply IH.
Qed.
Fixpoint project_by_items W (c : sch) : relative_items c -> named_once c -> by_items c (proj_at W c).
Proof.
  destruct c as [jt d ts|cs|c]; intros Hr Hn; [done| |].
  - cbn in Hn. destruct Hn as [Hn Ha]. cbn [by_items]. set (f := proj_at W (Rec cs)).
    assert (Hf : forall k c, (k, c) ∈ cs -> forall root v t, f root v = Some t -> project W root c v (v ≫= member k) = Some (result_at k t)).
    { intros k c Hin root v t. by apply project_member. }
    clearbody f. cbn in Hr. clear Hn. induction cs as [|[k c] cs IH]; [done|]. destruct Hr as [Hc Hr], Ha as [Hc' Ha]. split; [|apply IH; [done|done|]; intros; eapply Hf; [by right|done]].
    pose proof (Hf k c (elem_of_list_here _ _)) as Hk. pose proof (project_by_items W c Hc Hc') as Hb. clear -Hk Hb.
    destruct c as [|cs'|c']; [done| |]; (eexists; split; [exact Hb|]; intros root v t Ht; rewrite <- (Hk root v t Ht); reflexivity).
  - cbn in Hr, Hn. cbn [by_items]. exists (proj_at W c (TS SNil)). split.
    + apply (by_items_ext c (proj_at W c)); [intros; unfold proj_at; by apply project_root|]. apply project_by_items; [by apply relative_below|done].
    + intros root l. unfold proj_at. rewrite project_array. do 2 f_equal. apply list_fmap_ext. intros ? x _. by apply project_root.
Qed.
Section items.
Context (W : oracles) (HW : jpath_parametric W) (E : env) (HE : unmarshals E).
Lemma all_items tid props items sc : shaped W tid props items sc -> relative_items sc ->
  exists f, by_items sc f /\ forall i s perm raw doc,
  state W E FJson tid props items i s -> orders perm -> e_json E raw = Some doc -> small doc ->
  outcome W (f doc (Some doc)) (transform_no_validation W E perm FJson i raw s).2.
Proof.
  intros Hs Hr. exists (proj_at W sc). split; [apply project_by_items; [done|by eapply shaped_named]|].
  intros i s perm raw doc Hst Ho Hj Hsm. exact (shaped_transform W HW E HE tid props items sc i s perm raw doc Hs Hst Ho Hj Hsm).
Qed.
End items.

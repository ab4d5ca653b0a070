From stdpp Require Import strings list gmap.
From Verif Require Import GoStr Val Conv Instr Heap InstL SpecPick.

Lemma leaf_array W h (g : gval val) : convert_leaf W (view h) "array" g = (g, false).
Proof. done. Qed.


Definition ends (h : heap) (l : list val) (x : val) : Prop :=
  x <> VS SNil /\ ((is_array x /\ items_of h x = l) \/ (~ is_array x /\ l = [x])).

Lemma deliver_convert W h k v r : delivers h k v r -> forall f, k < f ->
  exists g, convert_go W (view h) f "array" (GV v) = Some (g, false) /\
  match r with None => is_nil (view h) g = true | Some l => exists x, g = GV x /\ ends h l x end.
Proof.
  induction 1 as [|v Hn Ha|v Ha Hi|v Ha Hi|v Ha Hi|v x Ha Hi Hn Hx|v x Ha Hi Hx Hxi|k v x y l r Ha Hi Hx Hxi Hd IH]; intros [|f] Hf; try lia; cbn [convert_go].
  - eexists. split; [reflexivity|]. done.
  - assert (is_nil (view h) (GV v) = false) as -> by (destruct v as [[]| | | |]; done).
    exists (GV v). split.
    + destruct v as [sc|l0|a n|n|l0]; try done. destruct Ha. by exists a, n.
    + exists v. split; [done|]. split; [done|]. by right.
  - destruct Ha as (a & n & ->). cbn in Hi. cbn [is_nil gview view vw_map]. rewrite Hi. cbn. by eexists.
  - destruct Ha as (a & n & ->). cbn in Hi. unfold is_nil at 1. cbn [gview view vw_map].
    destruct (take n (harr h a)) as [|x [|y l]] eqn:E; cbn in Hi; try lia. cbn [fmap list_fmap].
    rewrite bool_decide_false by done. rewrite bool_decide_false by (intros Hd; by destruct Hd). cbn [orb]. rewrite leaf_array.
    eexists. split; [reflexivity|]. exists (VArr a n). split; [done|]. split; [done|]. left. split; [by exists a, n|]. cbn. by rewrite E.
  - destruct Ha as (a & n & ->). cbn in Hi. unfold is_nil at 1. cbn [gview view vw_map]. rewrite Hi. cbn. eexists. split; [reflexivity|]. done.
  - destruct Ha as (a & n & ->). cbn in Hi. unfold is_nil at 1. cbn [gview view vw_map]. rewrite Hi. cbn [fmap list_fmap].
    rewrite bool_decide_true by done. cbn [orb]. exists (GV x). split.
    + destruct x as [sc|l0|a' n'|n'|l0]; try done. destruct Hx. by exists a', n'.
    + exists x. split; [done|]. split; [done|]. by right.
  - destruct Ha as (a & n & ->). cbn in Hi. unfold is_nil at 1. cbn [gview view vw_map]. rewrite Hi. cbn [fmap list_fmap].
    rewrite bool_decide_true by done. cbn [orb]. destruct Hx as (a' & n' & ->). cbn in Hxi. cbn [gview view vw_map]. rewrite Hxi. cbn [fmap list_fmap].
    rewrite leaf_array. eexists. split; [reflexivity|]. eexists. split; [done|]. split; [done|]. left. split; [by do 2 eexists|]. done.
  - destruct Ha as (a & n & ->). cbn in Hi. unfold is_nil at 1. cbn [gview view vw_map]. rewrite Hi. cbn [fmap list_fmap].
    rewrite bool_decide_true by done. cbn [orb]. destruct Hx as (a' & n' & ->). cbn in Hxi. cbn [gview view vw_map]. rewrite Hxi. cbn [fmap list_fmap].
    apply IH. lia.
Qed.

Lemma array_delivers W path dflt t input m s ins v k r : ti_meth t = MFirst -> froms s !! ti_id t = Some [ins] -> i_ops ins = [] ->
  jget W (view (hp s)) (apply_mod m (i_jpath ins)) input = Some (GV v) -> delivers (hp s) k v r -> k < o_stack W ->
  match r with
  | Some l => exists s' sl, Heap.base_json W FJson path dflt (Some t) input m s = (s', Ok (sl, true)) /\ take sl.2 (harr (hp s') sl.1) = l
  | None => Heap.base_json W FJson path dflt (Some t) input m s = Heap.base_json W FJson path dflt None input m s
  end.
Proof.
  intros Hm Hf Ho Hj Hd Hk. destruct (deliver_convert W _ _ _ _ Hd _ Hk) as (g & Hg & Hr).
  assert (run_tis W FJson t input "array" m s = match r with Some _ => inject g s | None => (s, Ok (VS SNil)) end) as Hrun.
  { rewrite (run_tis_single _ _ _ _ _ _ _ ins) by done. cbn [instr_run]. unfold json_instr, convert. rewrite Hj, Hg, Ho. cbn [ops_run].
    destruct (is_nil (view (hp s)) (GV v)) eqn:Hv.
    - destruct v as [[]| | | |]; try done. inversion Hd; subst; try done. all: try (match goal with H : is_array _ |- _ => by destruct H as (? & ? & ?) end).
    - destruct r as [l|].
      + destruct Hr as (x & -> & Hx & _). assert (is_nil (view (hp s)) (GV x) = false) as Hnx by (destruct x as [[]| | | |]; done).
        rewrite Hnx. by rewrite Hnx.
      + by rewrite Hr. }
  destruct r as [l|].
  2: { unfold Heap.base_json, run_opt_tis. cbv beta iota delta [Heap.mbind]. rewrite Hrun. reflexivity. }
  unfold Heap.base_json, run_opt_tis. unfold Heap.mbind at 1. rewrite Hrun.
  destruct Hr as (x & -> & Hx & Hc). cbn [inject]. unfold mret at 1. assert (vnil x = false) as -> by (destruct x as [[]| | | |]; done). cbn [negb].
  destruct Hc as [[(a & n & ->) Hl]|[Hna ->]].
  - unfold Heap.mbind, as_slice, mret. do 2 eexists. split; [reflexivity|]. done.
  - unfold Heap.mbind, as_slice. destruct x as [sc|l0|a' n'|n'|l0]; try (by destruct Hna; do 2 eexists);
      unfold Heap.mbind, alloc, mret; eexists _, _; (split; [reflexivity|]); cbn; by rewrite lookup_insert.
Qed.


Lemma delivers_exists f : forall h v t, reify f h v = Some t -> exists k r, delivers h k v r /\ k < f.
Proof.
  induction f as [f IH] using lt_wf_ind. intros h v t Ht. destruct f as [|f]; [done|].
  destruct (decide (vnil v = true)) as [Hn|Hn].
  { destruct v as [[]| | | |]; try done. exists 0, None. split; [constructor|lia]. }
  destruct v as [sc|l|a n|n|l].
  1,2,4,5: exists 0; eexists; split; [apply delivers_value; [intros Hv; apply Hn; by rewrite Hv|intros (? & ? & ?); done]|lia].
  assert (is_array (VArr a n)) as Ha by (by exists a, n).
  destruct (take n (harr h a)) as [|x [|y l]] eqn:E.
  - exists 0, None. split; [by apply delivers_empty|lia].
  - destruct a as [a|]; [|by destruct n]. cbn [reify] in Ht. rewrite E in Ht. cbn in Ht.
    destruct (reify f h x) as [tx|] eqn:Hx; [|done].
    destruct (decide (vnil x = true)) as [Hnx|Hnx].
    { destruct x as [[]| | | |]; try done. exists 0, None. split; [by apply delivers_one_null|lia]. }
    destruct x as [sc|l|a' n'|n'|l].
    1,2,4,5: exists 0; eexists; split; [eapply delivers_one; [done|exact E|intros Hv; apply Hnx; by rewrite Hv|intros (? & ? & ?); done]|lia].
    assert (is_array (VArr a' n')) as Ha' by (by exists a', n').
    destruct (take n' (harr h a')) as [|y l] eqn:E'.
    + exists 0, (Some []). split; [by eapply delivers_one_empty|lia].
    + destruct f as [|f]; [done|]. destruct a' as [a'|]; [|by destruct n']. cbn [reify] in Hx. rewrite E' in Hx. cbn in Hx.
      destruct (reify f h y) as [ty|] eqn:Hy; [|done].
      destruct (IH f) with (h := h) (v := y) (t := ty) as (k & r & Hd & Hk); [lia|done|].
      exists (S k), r. split; [by eapply delivers_first|lia].
  - exists 0. eexists. split; [apply delivers_many; [done|]|lia]. cbn. rewrite E. cbn. lia.
Qed.

Lemma delivers_single h k v l : delivers h k v (Some l) -> forall x, l = [x] -> ~ is_array x.
Proof.
  intros H. remember (Some l) as r eqn:Hr. induction H; simplify_eq; intros z Hz; simplify_eq; try done; eauto.
  rewrite Hz in *. cbn in *. lia.
Qed.
Lemma delivers_self h k v r : delivers h k v r -> is_array v -> r = Some (items_of h v) ->
  2 <= length (items_of h v) \/ exists x, items_of h v = [x] /\ x <> VS SNil /\ ~ is_array x.
Proof.
  destruct 1 as [|v Hn Ha|v Ha Hi|v Ha Hi|v Ha Hi|v x Ha Hi Hn Hx|v x Ha Hi Hx Hxi|k v x y l r Ha Hi Hx Hxi Hd]; intros Hv Hr; try done.
  - by left.
  - right. eauto.
  - rewrite Hi in Hr. done.
  - rewrite Hi in Hr. subst r. by destruct (delivers_single _ _ _ _ Hd x eq_refl).
Qed.
Lemma base_json_own W path input m s s' sl : Heap.base_json W FJson path None None input m s <> (s', Ok (sl, true)).
Proof.
  unfold Heap.base_json, run_opt_tis, heap_get, Heap.mbind, mheap, mret. cbn [negb vnil].
  destruct (jget W (view (hp s)) path input) as [g|]; [|intros [=]].
  destruct (is_nil (view (hp s)) g); cbn [negb]; [intros [=]|].
  destruct (inject g s) as [s1 [v| |]]; [|intros [=]|intros [=]].
  destruct (as_slice v s1) as [s2 [sl2| |]]; intros [=].
Qed.
Lemma array_exact W path t input m s ins v f tr : ti_meth t = MFirst -> froms s !! ti_id t = Some [ins] -> i_ops ins = [] ->
  jget W (view (hp s)) (apply_mod m (i_jpath ins)) input = Some (GV v) -> is_array v -> reify f (hp s) v = Some tr -> f <= o_stack W ->
  (exists s' sl, Heap.base_json W FJson path None (Some t) input m s = (s', Ok (sl, true)) /\ take sl.2 (harr (hp s') sl.1) = items_of (hp s) v) <->
  2 <= length (items_of (hp s) v) \/ exists x, items_of (hp s) v = [x] /\ x <> VS SNil /\ ~ is_array x.
Proof.
  intros Hm Hf Ho Hj Ha Ht Hs. destruct (delivers_exists _ _ _ _ Ht) as (k & r & Hd & Hk).
  assert (forall k r, delivers (hp s) k v r -> k < o_stack W -> match r with
    | Some l => exists s' sl, Heap.base_json W FJson path None (Some t) input m s = (s', Ok (sl, true)) /\ take sl.2 (harr (hp s') sl.1) = l
    | None => Heap.base_json W FJson path None (Some t) input m s = Heap.base_json W FJson path None None input m s
    end) as Hall by (intros k0 r0 Hd0 Hk0; by eapply array_delivers).
  split.
  - intros (s' & sl & Hb & Hl). pose proof (Hall _ _ Hd ltac:(lia)) as Hr. destruct r as [l|].
    + destruct Hr as (s2 & sl2 & Hb2 & Hl2). rewrite Hb in Hb2. simplify_eq. eapply delivers_self; [exact Hd|done|]. f_equal. congruence.
    + rewrite Hr in Hb. by destruct (base_json_own _ _ _ _ _ _ _ Hb).
  - intros [Hc|(x & Hi & Hx & Hnx)].
    + apply (Hall 0 (Some _) (delivers_many _ _ Ha Hc)). lia.
    + rewrite Hi. apply (Hall 0 (Some _) (delivers_one _ _ _ Ha Hi Hx Hnx)). lia.
Qed.

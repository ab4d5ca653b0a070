(** Lemmas about instructions and methods. *)
From stdpp Require Import strings list gmap.
From Coq Require Import ZArith Lia.
From Verif Require Import GoStr GoStrL Val Conv Instr.

Section methods.
Context {V : Type} (view : V -> vw V).
Notation G := (gval V).

Lemma is_nil_spec (g : G) : is_nil view g = true <-> gview view g = WS SNil.
Proof. unfold is_nil. destruct (gview view g) as [[]| | | |]; split; intros; done. Qed.
Lemma is_nil_false (g : G) : is_nil view g = false <-> gview view g <> WS SNil.
Proof. rewrite <- is_nil_spec. by destruct (is_nil view g). Qed.

Lemma run_first_app step pre i post :
  Forall (fun j => exists g, step j = Ok g /\ is_nil view g = true) pre ->
  run_first view step (pre ++ i :: post) =
  rbind (step i) (fun value => if is_nil view value then run_first view step post else Ok value).
Proof.
  induction 1 as [|j pre [g [Hj Hg]] _ IH]; [done|].
  cbn [app run_first]. rewrite Hj. cbn. by rewrite Hg.
Qed.
Lemma run_first_none step from :
  Forall (fun j => exists g, step j = Ok g /\ is_nil view g = true) from ->
  run_first view step from = Ok (GS SNil).
Proof.
  induction 1 as [|j pre [g [Hj Hg]] _ IH]; [done|].
  cbn [run_first]. rewrite Hj. cbn. by rewrite Hg.
Qed.
Lemma run_first_inv step from r :
  run_first view step from = r ->
  (Forall (fun j => exists g, step j = Ok g /\ is_nil view g = true) from /\ r = Ok (GS SNil)) \/
  (exists pre i post, from = pre ++ i :: post /\
     Forall (fun j => exists g, step j = Ok g /\ is_nil view g = true) pre /\
     step i = r /\ (forall g, r = Ok g -> is_nil view g = false)).
Proof.
  induction from as [|i from IH]; cbn [run_first].
  - intros <-. by left.
  - destruct (step i) as [g| |] eqn:Hi; cbn [rbind].
    + destruct (is_nil view g) eqn:Hg.
      * intros H. destruct (IH H) as [[HF ->]|(pre & j & post & -> & HF & Hj & Hr)].
        -- left. split; [|done]. constructor; [|done]. eauto.
        -- right. exists (i :: pre), j, post. split; [done|]. split; [|done].
           constructor; [|done]. eauto.
      * intros <-. right. exists [], i, from. split; [done|]. split; [constructor|].
        split; [done|]. by intros g' [= <-].
    + intros <-. right. exists [], i, from. split; [done|]. split; [constructor|done].
    + intros <-. right. exists [], i, from. split; [done|]. split; [constructor|done].
Qed.

(** concatenate *)
Definition nonempty (s : string) : bool := bool_decide (s <> "").
Definition nonnull (g : G) : bool := negb (is_nil view g).

Lemma concat_nil_l b d : is_nil view b = false -> concat view (GS SNil) b d = Ok b.
Proof. intros H. unfold concat. change (is_nil view (GS SNil)) with true. by rewrite H. Qed.
Lemma concat_nil_r a d : is_nil view a = false -> concat view a (GS SNil) d = Ok a.
Proof. intros H. unfold concat. change (is_nil view (GS SNil)) with true. by rewrite H. Qed.
Definition joined (d : string) (l : list string) : string := join d (filter (fun s => s <> "") l).
Lemma joined_one d x : joined d [x] = x.
Proof. unfold joined. rewrite filter_cons. destruct (decide (x <> "")) as [|H]; [done|]. simpl.
  symmetry. destruct (decide (x = "")); [done|]. by destruct H. Qed.
Lemma joined_snoc d l y : joined d (l ++ [y]) =
  (if bool_decide (joined d l <> "") && bool_decide (y <> "") then joined d l +:+ d +:+ y
   else joined d l +:+ y).
Proof.
  unfold joined. rewrite filter_app, (filter_cons _ y []), filter_nil.
  destruct (decide (y = "")) as [->|Hy].
  - rewrite decide_False by (intros H; by apply H).
    rewrite (bool_decide_false ("" <> "")) by (intros H; by apply H).
    rewrite andb_false_r. by rewrite app_nil_r, sapp_nil_r.
  - rewrite decide_True by done. rewrite (bool_decide_true (y <> "")) by done. rewrite andb_true_r.
    destruct (filter (fun s => s <> "") l) as [|x l'] eqn:E.
    + cbn. done.
    + rewrite bool_decide_true.
      * rewrite join_app by done. done.
      * assert (x <> "") as Hx.
        { assert (x ∈ filter (fun s => s <> "") l) as Hin by (rewrite E; left).
          by apply elem_of_list_filter in Hin as [? _]. }
        destruct l'; [done|]. rewrite join_cons by done. by destruct x.
Qed.
Lemma concat_str a b x y d : gview view a = WS (SStr x) -> gview view b = WS (SStr y) ->
  concat view a b d =
  Ok (GS (SStr (if bool_decide (x <> "") && bool_decide (y <> "") then x +:+ d +:+ y else x +:+ y))).
Proof.
  intros Ha Hb. unfold concat. unfold is_nil. rewrite Ha, Hb.
  destruct (decide (d = "")) as [->|Hd].
  - rewrite (bool_decide_false ("" <> "")) by (intros H; by apply H). cbn [andb].
    rewrite sapp_nil_l. by destruct (_ && _).
  - rewrite (bool_decide_true (d <> "")) by done. cbn [andb]. by destruct (_ && _).
Qed.
(** the concatenate loop on the values the entries yield *)
Fixpoint cfold (d : string) (acc : G) (gs : list G) : res G :=
  match gs with
  | [] => Ok acc
  | g :: gs' => rbind (concat view acc g d) (fun r => cfold d r gs')
  end.
Lemma run_concat_cfold step d from gs acc :
  Forall2 (fun i g => step i = Ok g) from gs ->
  run_concat view step d acc from = cfold d acc gs.
Proof.
  intros HF. revert acc. induction HF as [|i g from gs Hi HF IH]; intros acc; [done|].
  cbn [run_concat cfold]. rewrite Hi. cbn [rbind]. destruct (concat view acc g d); cbn [rbind]; auto.
Qed.
Lemma cfold_filter d acc gs : (acc = GS SNil \/ is_nil view acc = false) ->
  cfold d acc gs = cfold d acc (filter (fun g => is_nil view g = false) gs).
Proof.
  revert acc. induction gs as [|g gs IH]; intros acc Ha; [done|].
  rewrite filter_cons. destruct (decide (is_nil view g = false)) as [Hg|Hg].
  - cbn [cfold]. destruct (concat view acc g d) as [r| |] eqn:E; cbn [rbind]; [|done..].
    apply IH. right.
    unfold concat in E. rewrite Hg in E. destruct (is_nil view acc) eqn:Hacc.
    + injection E as <-. done.
    + destruct (gview view acc) as [[]| | | |]; try discriminate E.
      destruct (gview view g) as [[]| | | |]; try discriminate E.
      destruct (_ && _ && _); injection E as <-; done.
  - apply not_false_is_true in Hg as Hg'. cbn [cfold].
    unfold concat. rewrite Hg'. destruct Ha as [->|Ha].
    + change (is_nil view (GS SNil)) with true. cbn [rbind]. apply IH. by left.
    + rewrite Ha. cbn [rbind]. apply IH. by right.
Qed.
Lemma cfold_strs d acc l gs strs :
  gview view acc = WS (SStr (joined d l)) ->
  Forall2 (fun g s => gview view g = WS (SStr s)) gs strs ->
  exists g, cfold d acc gs = Ok g /\ gview view g = WS (SStr (joined d (l ++ strs))).
Proof.
  intros Hacc HF. revert acc l Hacc. induction HF as [|g s gs strs Hg HF IH]; intros acc l Hacc.
  - exists acc. cbn. by rewrite app_nil_r.
  - cbn [cfold]. rewrite (concat_str _ _ _ _ _ Hacc Hg). cbn [rbind]. rewrite <- joined_snoc.
    destruct (IH (GS (SStr (joined d (l ++ [s])))) (l ++ [s]) eq_refl) as (g' & Hr & Hv).
    exists g'. split; [done|]. rewrite Hv. by rewrite <- app_assoc.
Qed.
Definition is_str (g : G) : Prop := exists s, gview view g = WS (SStr s).
Lemma cfold_bad d acc gs :
  is_nil view acc = false -> Forall (fun g => is_nil view g = false) gs -> gs <> [] ->
  ~ (is_str acc /\ Forall is_str gs) -> cfold d acc gs = Err.
Proof.
  revert acc. induction gs as [|g gs IH]; intros acc Ha HF Hne Hbad; [done|].
  apply Forall_cons in HF as [Hg HF]. cbn [cfold].
  unfold concat. rewrite Ha, Hg.
  destruct (gview view acc) as [[]| | | |] eqn:Ea; try done.
  destruct (gview view g) as [[]| | | |] eqn:Eg; try done.
  assert (forall r, is_nil view (GS (SStr r)) = false) as Hr by done.
  assert (~ Forall is_str gs) as Hgs.
  { intros H. apply Hbad. split; [eexists; done|]. constructor; [eexists; done|done]. }
  assert (gs <> []) as Hgs2 by (intros ->; apply Hgs; constructor).
  destruct (_ && _ && _); cbn [rbind]; apply IH; try done; intros [_ ?]; done.
Qed.
End methods.

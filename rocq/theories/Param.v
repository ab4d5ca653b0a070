(** The evaluation of instructions sees values only through their view: it maps related inputs to
    related outputs. *)
From stdpp Require Import strings list gmap.
From Coq Require Import ZArith Lia.
From Verif Require Import GoStr GoStrL Val Conv Instr.

Inductive vrel {A B} (R : A -> B -> Prop) : vw A -> vw B -> Prop :=
| vrel_s s : vrel R (WS s) (WS s)
| vrel_arr l1 l2 : Forall2 R l1 l2 -> vrel R (WArr l1) (WArr l2)
| vrel_map m1 m2 : (forall k, option_Forall2 R (m1 !! k) (m2 !! k)) -> vrel R (WMap m1) (WMap m2)
| vrel_node n : vrel R (WNode n) (WNode n)
| vrel_nodes l : vrel R (WNodes l) (WNodes l).
Inductive grel {A B} (R : A -> B -> Prop) : gval A -> gval B -> Prop :=
| grel_v a b : R a b -> grel R (GV a) (GV b)
| grel_s s : grel R (GS s) (GS s)
| grel_l l1 l2 : Forall2 (grel R) l1 l2 -> grel R (GL l1) (GL l2)
| grel_n l : grel R (GN l) (GN l).
Inductive rrel {A B} (R : A -> B -> Prop) : res A -> res B -> Prop :=
| rrel_ok a b : R a b -> rrel R (Ok a) (Ok b)
| rrel_err : rrel R Err Err
| rrel_panic : rrel R Panic Panic.

(** what is assumed of the jsonpath library: it sees values only through their view *)
Definition jpath_parametric (W : oracles) : Prop :=
  forall A B (R : A -> B -> Prop) (va : A -> vw A) (vb : B -> vw B),
    (forall a b, R a b -> vrel R (va a) (vb b)) ->
    forall p a b, R a b -> option_Forall2 (grel R) (o_jpath W A va p a) (o_jpath W B vb p b).

Lemma gval_ind' {V} (P : gval V -> Prop) :
  (forall v, P (GV v)) -> (forall s, P (GS s)) -> (forall l, Forall P l -> P (GL l)) ->
  (forall l, P (GN l)) -> forall g, P g.
Proof.
  intros HV HS HL HN. fix IH 1. intros [v|s|l|l]; [apply HV|apply HS| |apply HN].
  apply HL. induction l as [|g l IHl]; constructor; [apply IH|apply IHl].
Qed.

Lemma rrel_bind {A B C D} (R : A -> B -> Prop) (S : C -> D -> Prop) a b (k : A -> res C) (k' : B -> res D) :
  rrel R a b -> (forall x y, R x y -> rrel S (k x) (k' y)) -> rrel S (rbind a k) (rbind b k').
Proof. intros [x y H| |] Hk; cbn; [by apply Hk|constructor|constructor]. Qed.

Lemma gjoin_rel {A B} (R : A -> B -> Prop) g h : grel (grel R) g h -> grel R (gjoin g) (gjoin h).
Proof.
  revert h. induction g as [v|s|l IH|l] using gval_ind'; intros h Hr; inversion Hr; subst; cbn; try done.
  - constructor.
  - constructor. clear Hr. rename H0 into HF.
    revert IH. induction HF as [|x y l1 l2' Hxy HF IHF]; intros IH; constructor.
    + inversion IH; subst. eauto.
    + apply IHF. by inversion IH.
  - constructor.
Qed.

Section param.
Context (W : oracles).
Context {A B : Type} (R : A -> B -> Prop) (va : A -> vw A) (vb : B -> vw B).
Context (Hv : forall a b, R a b -> vrel R (va a) (vb b)).

Lemma gview_rel g h : grel R g h -> vrel (grel R) (gview va g) (gview vb h).
Proof.
  intros [a b Hab|s|l1 l2 HF|l]; cbn; try by constructor.
  destruct (Hv a b Hab) as [s|l1 l2 HF|m1 m2 Hm|n|l]; cbn; constructor.
  - apply Forall2_fmap. eapply Forall2_impl; [exact HF|]. intros. by constructor.
  - intros k. rewrite !lookup_fmap. destruct (Hm k) as [x y Hxy|]; cbn; constructor. by constructor.
Qed.
Lemma select_rel k a b : R a b -> option_Forall2 R (select va k a) (select vb k b).
Proof.
  intros Hab. unfold select. destruct (Hv a b Hab) as [s|l1 l2 HF|m1 m2 Hm|n|l]; try constructor.
  - destruct (atoi k) as [z|]; cbn; [|constructor].
    destruct (0 <=? z)%Z; [|constructor].
    apply option_Forall2_forall || idtac.
    destruct (l1 !! Z.to_nat z) eqn:E1.
    + destruct (Forall2_lookup_l _ _ _ _ _ HF E1) as (y & -> & Hy). by constructor.
    + apply lookup_ge_None_1 in E1. rewrite (Forall2_length _ _ _ HF) in E1.
      rewrite lookup_ge_None_2 by done. constructor.
  - apply Hm.
Qed.
Lemma select_path_rel ks a b : R a b -> option_Forall2 R (select_path va ks a) (select_path vb ks b).
Proof.
  revert a b. induction ks as [|k ks IH]; intros a b Hab; cbn; [by constructor|].
  destruct (select_rel k a b Hab) as [x y Hxy|]; cbn; [by apply IH|constructor].
Qed.
Lemma is_nil_rel g h : grel R g h -> is_nil va g = is_nil vb h.
Proof. intros Hgh. unfold is_nil. by destruct (gview_rel g h Hgh). Qed.
End param.

Lemma jget_rel W {A B} (R : A -> B -> Prop) va vb p a b : jpath_parametric W ->
  (forall a b, R a b -> vrel R (va a) (vb b)) -> R a b ->
  option_Forall2 (grel R) (jget W va p a) (jget W vb p b).
Proof.
  intros HW Hv Hab. unfold jget. destruct (plain_path p) as [ks|].
  - destruct (select_path_rel R va vb Hv ks a b Hab); cbn; constructor. by constructor.
  - by apply HW.
Qed.

Section param2.
Context (W : oracles) (HW : jpath_parametric W).
Context {A B : Type} (R : A -> B -> Prop) (va : A -> vw A) (vb : B -> vw B).
Context (Hv : forall a b, R a b -> vrel R (va a) (vb b)).
Notation GR := (grel R).

Lemma jget_g_rel p g h : GR g h -> option_Forall2 GR (jget_g W va p g) (jget_g W vb p h).
Proof.
  intros Hgh. unfold jget_g.
  destruct (jget_rel W GR (gview va) (gview vb) p g h HW (gview_rel R va vb Hv) Hgh) as [x y Hxy|];
    cbn; constructor.
  by apply gjoin_rel.
Qed.

Ltac gv H := pose proof (gview_rel R va vb Hv _ _ H) as Hgv.
Ltac kind :=
  match goal with
  | Hgv : vrel _ ?x ?y |- _ => inversion Hgv as [s Es1 Es2|l1 l2 HF Es1 Es2|m1 m2 Hm Es1 Es2|n Es1 Es2|l Es1 Es2]
  end.

Lemma concat_rel a b a' b' d : GR a a' -> GR b b' -> rrel GR (concat va a b d) (concat vb a' b' d).
Proof.
  intros Ha Hb. unfold concat.
  rewrite (is_nil_rel R va vb Hv _ _ Ha), (is_nil_rel R va vb Hv _ _ Hb).
  destruct (is_nil vb a'), (is_nil vb b').
  - constructor. constructor.
  - by constructor.
  - by constructor.
  - pose proof (gview_rel R va vb Hv _ _ Ha) as H1. pose proof (gview_rel R va vb Hv _ _ Hb) as H2.
    inversion H1 as [s1|l1 l2 ?|m1 m2 ?|n1|k1]; try constructor.
    destruct s1; try constructor.
    inversion H2 as [s2|l3 l4 ?|m3 m4 ?|n2|k2]; try constructor.
    destruct s2; try constructor.
    case_match; by repeat constructor.
Qed.

Definition prel (x : gval A * bool) (y : gval B * bool) : Prop := GR x.1 y.1 /\ x.2 = y.2.
Lemma prel_intro g h e : GR g h -> prel (g, e) (h, e).
Proof. done. Qed.

Lemma convert_leaf_rel jt g h : GR g h -> prel (convert_leaf W va jt g) (convert_leaf W vb jt h).
Proof.
  intros Hgh. gv Hgh. unfold convert_leaf.
  repeat case_decide.
  - unfold convert_boolean. kind; try by (apply prel_intro; constructor).
    destruct s; repeat case_decide; repeat case_match; apply prel_intro; try constructor; done.
  - unfold convert_number. kind; try by (apply prel_intro; constructor).
    destruct s; repeat case_decide; repeat case_match; apply prel_intro; try constructor; done.
  - unfold convert_string. kind; try by (apply prel_intro; constructor).
    destruct s; repeat case_decide; repeat case_match; apply prel_intro; try constructor; done.
  - unfold convert_datetime. kind; try by (apply prel_intro; constructor).
    destruct s; repeat case_decide; repeat case_match; apply prel_intro; try constructor; done.
  - by apply prel_intro.
Qed.
Lemma convert_go_rel fuel jt g h : GR g h ->
  option_Forall2 prel (convert_go W va fuel jt g) (convert_go W vb fuel jt h).
Proof.
  revert g h. induction fuel as [|fuel IH]; intros g h Hgh; cbn [convert_go]; [constructor|].
  rewrite (is_nil_rel R va vb Hv _ _ Hgh). destruct (is_nil vb h).
  { constructor. apply prel_intro. constructor. }
  gv Hgh. kind; try (constructor; by apply convert_leaf_rel).
  destruct HF as [|x y l1 l2 Hxy HF]; [constructor; apply prel_intro; constructor|].
  replace (bool_decide (l1 = [])) with (bool_decide (l2 = []))
    by (apply bool_decide_ext; destruct HF; split; intros; done).
  destruct (bool_decide (l2 = []) || bool_decide (jt <> "array")).
  - pose proof (gview_rel R va vb Hv _ _ Hxy) as Hgv'.
    inversion Hgv' as [s|k1 k2 HF'|m1 m2 Hm|n|l]; try (constructor; by apply convert_leaf_rel).
    destruct HF'; [constructor; by apply convert_leaf_rel|]. by apply IH.
  - constructor; by apply convert_leaf_rel.
Qed.
Lemma convert_rel jt g h : GR g h ->
  option_Forall2 prel (convert W va jt g) (convert W vb jt h).
Proof. apply convert_go_rel. Qed.

Lemma max_loop_rel by_arg i l1 l2 lg li : Forall2 GR l1 l2 ->
  max_loop W va by_arg i l1 lg li = max_loop W vb by_arg i l2 lg li.
Proof.
  intros HF. revert i lg li. induction HF as [|x y l1 l2 Hxy HF IH]; intros i lg li; cbn [max_loop]; [done|].
  destruct (jget_g_rel by_arg x y Hxy) as [u v Huv|]; [|done].
  pose proof (gview_rel R va vb Hv _ _ Huv) as Hgv. inversion Hgv as [s Es1 Es2|k1 k2 HF2 Es1 Es2|m1 m2 Hm Es1 Es2|n Es1 Es2|l Es1 Es2]; try done.
  destruct s; try done; by case_match.
Qed.
Lemma op_run_rel o g h : GR g h -> rrel GR (op_run W va o g) (op_run W vb o h).
Proof.
  intros Hgh. pose proof (gview_rel R va vb Hv _ _ Hgh) as Hgv.
  destruct o; cbn [op_run].
  - unfold op_duration.
    assert (Hd : forall s, rrel GR (duration_str s) (duration_str s)).
    { intros s. unfold duration_str. repeat case_match; repeat constructor. }
    assert (Hs : forall a b, GR a b ->
      rrel GR match gview va a with WS SNil => Ok (GS (SInt 0)) | WS (SStr s) => duration_str s | _ => Err end
              match gview vb b with WS SNil => Ok (GS (SInt 0)) | WS (SStr s) => duration_str s | _ => Err end).
    { intros a b Hab. pose proof (gview_rel R va vb Hv _ _ Hab) as Hgv'.
      inversion Hgv' as [s|k1 k2 HF'|m1 m2 Hm|n|l]; try constructor.
      destruct s; try constructor; [constructor|apply Hd]. }
    apply Hs. kind; try done.
    destruct HF as [|x y l3 l4 Hxy HF]; [done|]. by destruct HF.
  - unfold op_change_case. kind; try constructor. destruct s; try constructor.
    repeat case_decide; repeat constructor.
  - unfold op_value_exists. kind; try constructor; [destruct s; repeat constructor|constructor].
  - unfold op_inverse. kind; try constructor. destruct s; repeat constructor.
  - unfold op_max. kind; try constructor.
    rewrite (max_loop_rel _ _ _ _ _ _ HF).
    destruct (max_loop W vb _ 0 l2 f_zero 0) as [[lg li]| |]; try constructor.
    destruct (l1 !! li) as [x|] eqn:E1.
    + destruct (Forall2_lookup_l _ _ _ _ _ HF E1) as (y & -> & Hxy).
      destruct (jget_g_rel (replace1 (arg args "return") "@" "$") x y Hxy); by constructor.
    + apply lookup_ge_None_1 in E1. rewrite (Forall2_length _ _ _ HF) in E1.
      rewrite lookup_ge_None_2 by done. constructor.
  - unfold op_replace. kind; try constructor. destruct s; repeat constructor.
  - unfold op_split. kind; try constructor. destruct s; try constructor.
    case_decide; constructor; constructor; [constructor|].
    apply Forall2_fmap. apply Forall_Forall2_diag. apply Forall_forall. intros; constructor.
  - unfold op_time_parse. kind; try constructor. destruct s; try constructor.
    case_match; repeat constructor.
  - unfold op_current_time. repeat constructor.
  - unfold op_to_camel. kind; try constructor. destruct s; repeat constructor.
  - unfold op_remove_html. kind; try constructor. destruct s; repeat constructor.
  - unfold op_to_float. kind; try constructor. destruct s; try constructor; try case_match; repeat constructor.
  - unfold op_to_int64. kind; try constructor. destruct s; try constructor; try case_match; repeat constructor.
  - unfold op_to_bool. kind; try constructor.
    + destruct s; try constructor; try case_match; repeat constructor.
    + replace (bool_decide (l1 <> [])) with (bool_decide (l2 <> [])); [constructor|].
      apply bool_decide_ext. destruct HF; split; intros; done.
Qed.
Lemma ops_run_rel ops g h : GR g h -> rrel GR (ops_run W va ops g) (ops_run W vb ops h).
Proof.
  revert g h. induction ops as [|o ops IH]; intros g h Hgh; cbn [ops_run]; [by constructor|].
  eapply rrel_bind; [by apply op_run_rel|]. apply IH.
Qed.

Lemma json_instr_rel ins a b ft m : R a b ->
  rrel GR (json_instr W va ins a ft m) (json_instr W vb ins b ft m).
Proof.
  intros Hab. unfold json_instr.
  destruct (jget_rel W R va vb (apply_mod m (i_jpath ins)) a b HW Hv Hab) as [g h Hgh|]; [|repeat constructor].
  rewrite (is_nil_rel R va vb Hv _ _ Hgh). destruct (is_nil vb h); [repeat constructor|].
  destruct (convert_rel ft g h Hgh) as [[v e] [v' e'] [Hv' He]|]; [|constructor].
  cbn in Hv', He. subst e'.
  assert (Hr : GR (if e then g else v) (if e then h else v')) by (by destruct e).
  rewrite (is_nil_rel R va vb Hv _ _ Hr).
  destruct (is_nil vb (if e then h else v')); [repeat constructor|]. by apply ops_run_rel.
Qed.
Lemma xml_instr_rel ins a b ft m : R a b ->
  rrel GR (xml_instr W va ins a ft m) (xml_instr W vb ins b ft m).
Proof.
  intros Hab. unfold xml_instr. destruct (Hv a b Hab) as [s|l1 l2 HF|m1 m2 Hm|n|l]; try constructor.
  destruct (o_xfind W n _) as [[|n0 ns]|]; [repeat constructor| |constructor].
  destruct (o_xfind W n (apply_mod m (i_xpath ins) +:+ "[*]")) as [wc|],
    (o_xfind W n (apply_mod m (i_xpath ins) +:+ "[not(*)]")) as [nc|]; try constructor.
  assert (Hc : option_Forall2 prel (convert W va ft (GS (SStr (o_text W n0))))
                                   (convert W vb ft (GS (SStr (o_text W n0)))))
    by (apply convert_rel; constructor).
  match goal with |- rrel _ (match ?x with _ => _ end) (match ?y with _ => _ end) =>
    assert (Hx : option_Forall2 GR x y) end.
  { destruct (bool_decide (wc = []) && bool_decide (length nc = 1)).
    - destruct Hc as [x y [Hxy _]|]; constructor; done.
    - repeat case_decide; [repeat constructor| repeat constructor|].
      destruct Hc as [[x e] [y e'] [Hxy He]|]; constructor; cbn in *; subst. by destruct e'; [constructor|]. }
  destruct Hx as [x y Hxy|]; [|constructor].
  rewrite (is_nil_rel R va vb Hv _ _ Hxy). case_match; [repeat constructor|]. by apply ops_run_rel.
Qed.
Lemma instr_run_rel f ins a b ft m : R a b ->
  rrel GR (instr_run W va f ins a ft m) (instr_run W vb f ins b ft m).
Proof. destruct f; [apply json_instr_rel|apply xml_instr_rel]. Qed.

Lemma run_first_rel st1 st2 from : (forall i, rrel GR (st1 i) (st2 i)) ->
  rrel GR (run_first va st1 from) (run_first vb st2 from).
Proof.
  intros Hs. induction from as [|i from IH]; cbn [run_first]; [repeat constructor|].
  eapply rrel_bind; [apply Hs|]. intros x y Hxy. rewrite (is_nil_rel R va vb Hv _ _ Hxy).
  case_match; [done|]. by constructor.
Qed.
Lemma run_concat_rel st1 st2 d from r1 r2 : (forall i, rrel GR (st1 i) (st2 i)) -> GR r1 r2 ->
  rrel GR (run_concat va st1 d r1 from) (run_concat vb st2 d r2 from).
Proof.
  intros Hs. revert r1 r2. induction from as [|i from IH]; intros r1 r2 Hr; cbn [run_concat]; [by constructor|].
  eapply rrel_bind; [apply Hs|]. intros x y Hxy.
  eapply rrel_bind; [by apply concat_rel|]. apply IH.
Qed.
Lemma tis_run_rel f t t' from a b ft m : R a b -> ti_meth t = ti_meth t' -> ti_delim t = ti_delim t' ->
  rrel GR (tis_run W va f t from a ft m).1 (tis_run W vb f t' from b ft m).1.
Proof.
  intros Hab Hm Hd. unfold tis_run. cbn. rewrite <- Hm, <- Hd.
  destruct (ti_meth t).
  - apply run_first_rel. intros i. by apply instr_run_rel.
  - apply run_first_rel. intros i. by apply instr_run_rel.
  - apply run_concat_rel; [|constructor]. intros i. by apply instr_run_rel.
Qed.
End param2.

(** Lemmas about the evaluation of single instances: scalars, XML entries and objects, item loops. *)
From stdpp Require Import strings list gmap.
From Coq Require Import ZArith.
From Verif Require Import GoStr Val Conv Instr Heap Schema Build Api SpecPath Den SpecSchema SpecProj SpecRun SpecTrans.
From Verif Require Import InstrL ConvL ProjL.

Section scal.
Context (W : oracles) (perm : nat -> nat -> list nat).

Lemma scal_fail f q jt d ts input m s s1 :
  (run_opt_tis W f ts input jt m s = (s1, Err) -> exec W perm f (IScal q jt d ts) input m s = (s1, Err)) /\
  (run_opt_tis W f ts input jt m s = (s1, Panic) -> exec W perm f (IScal q jt d ts) input m s = (s1, Panic)).
Proof.
  split; intros H; destruct f; cbn [exec]; unfold scal_json, scal_xml, Heap.mbind; by rewrite H.
Qed.
Lemma scal_transformed f q jt d ts input m s s1 v : run_opt_tis W f ts input jt m s = (s1, Ok v) -> v <> VS SNil ->
  exec W perm f (IScal q jt d ts) input m s = (s1, Ok v).
Proof.
  intros H Hv. assert (vnil v = false) as Hn by (destruct v as [[]| | | |]; done).
  destruct f; cbn [exec]; unfold scal_json, scal_xml, Heap.mbind; rewrite H, Hn; done.
Qed.
Lemma scal_xml_default q jt d ts input m s s1 : run_opt_tis W FXml ts input jt m s = (s1, Ok (VS SNil)) ->
  exec W perm FXml (IScal q jt d ts) input m s = (s1, Ok d).
Proof. intros H. cbn [exec]. unfold scal_xml, Heap.mbind. by rewrite H. Qed.
Lemma scal_json_absent q jt d ts input m s s1 : run_opt_tis W FJson ts input jt m s = (s1, Ok (VS SNil)) ->
  jget W (view (hp s1)) (apply_mod m q) input = None ->
  exec W perm FJson (IScal q jt d ts) input m s = (s1, Ok d).
Proof.
  intros H Hj. cbn [exec]. unfold scal_json, Heap.mbind at 1. rewrite H. cbn [vnil negb].
  unfold heap_get, Heap.mbind, mheap, mret. by rewrite Hj.
Qed.
Lemma scal_json_present q jt d ts input m s s1 g nv e : run_opt_tis W FJson ts input jt m s = (s1, Ok (VS SNil)) ->
  jget W (view (hp s1)) (apply_mod m q) input = Some g -> convert W (view (hp s1)) jt g = Some (nv, e) ->
  exec W perm FJson (IScal q jt d ts) input m s =
    if is_nil (view (hp s1)) nv then (s1, Ok d) else if e then (s1, Err) else inject nv s1.
Proof.
  intros H Hj Hc. cbn [exec]. unfold scal_json, Heap.mbind at 1. rewrite H. cbn [vnil negb].
  unfold heap_get, Heap.mbind, mheap, mret. rewrite Hj, Hc.
  destruct (is_nil _ nv); [done|]. by destruct e.
Qed.

(** the only non-null result of a failed conversion *)
Lemma convert_error {V} (view : V -> vw V) n jt g nv : convert_go W view n jt g = Some (nv, true) ->
  is_nil view nv = true \/ (jt = "boolean" /\ nv = GS (SBool false)).
Proof.
  revert g. induction n as [|n IH]; intros g; [done|]. cbn [convert_go].
  assert (forall x, Some (convert_leaf W view jt x) = Some (nv, true) ->
    is_nil view nv = true \/ (jt = "boolean" /\ nv = GS (SBool false))) as Hl.
  { intros x [= Hx]. unfold convert_leaf in Hx.
    destruct (decide (jt = "boolean")) as [->|].
    { unfold convert_boolean in Hx. 
      repeat first [case_match|case_decide]; simplify_eq; auto. }
    destruct (decide _). { unfold convert_number in Hx. repeat first [case_match|case_decide]; simplify_eq; auto. }
    destruct (decide _). { unfold convert_string in Hx. repeat first [case_match|case_decide]; simplify_eq; auto. }
    destruct (decide _). { unfold convert_datetime in Hx. repeat first [case_match|case_decide]; simplify_eq; auto. }
    done. }
  destruct (is_nil view g); [done|].
  destruct (gview view g); try exact (Hl g).
  destruct l as [|x l']; [done|].
  destruct (_ || _); [|exact (Hl g)].
  destruct (gview view x) as [|[|y ?]| | |]; try exact (Hl x). apply IH.
Qed.
Lemma scal_conversion_failed q jt d ts input m s s1 g nv : run_opt_tis W FJson ts input jt m s = (s1, Ok (VS SNil)) ->
  jget W (view (hp s1)) (apply_mod m q) input = Some g -> convert W (view (hp s1)) jt g = Some (nv, true) ->
  exec W perm FJson (IScal q jt d ts) input m s = (s1, Ok d) \/
  (jt = "boolean" /\ nv = GS (SBool false) /\ exec W perm FJson (IScal q jt d ts) input m s = (s1, Err)).
Proof.
  intros H Hj Hc. rewrite (scal_json_present _ _ _ _ _ _ _ _ _ _ _ H Hj Hc).
  destruct (convert_error _ _ _ _ _ Hc) as [->|[-> ->]]; [by left|]. right. done.
Qed.
End scal.

(** ** XML entries *)
Section xml.
Context (W : oracles).
Lemma xml_several {V} (view : V -> vw V) ins input ft m n n0 ns wc nc :
  view input = WNode n -> o_xfind W n (apply_mod m (i_xpath ins)) = Some (n0 :: ns) ->
  o_xfind W n (apply_mod m (i_xpath ins) +:+ "[*]") = Some wc ->
  o_xfind W n (apply_mod m (i_xpath ins) +:+ "[not(*)]") = Some nc ->
  ~ (wc = [] /\ length nc = 1) ->
  (ft = "string" ->
     xml_instr W view ins input ft m = ops_run W view (i_ops ins) (GS (SStr (join " " (o_text W <$> n0 :: ns))))) /\
  (ft = "array" \/ ft = "object" -> xml_instr W view ins input ft m = ops_run W view (i_ops ins) (GN (n0 :: ns))).
Proof.
  intros Hv Hx Hw Hn Hs. unfold xml_instr. rewrite Hv, Hx, Hw, Hn.
  assert (bool_decide (wc = []) && bool_decide (length nc = 1) = false) as ->.
  { apply andb_false_iff. rewrite !bool_decide_eq_false. destruct (decide (wc = [])); [right|by left]. naive_solver. }
  split.
  - intros ->. done.
  - intros Hft. rewrite decide_True by done. done.
Qed.
Lemma xml_none {V} (view : V -> vw V) ins input ft m n :
  view input = WNode n -> o_xfind W n (apply_mod m (i_xpath ins)) = Some [] ->
  xml_instr W view ins input ft m = Ok (GS SNil).
Proof. intros Hv Hx. unfold xml_instr. by rewrite Hv, Hx. Qed.
Lemma xml_other {V} (view : V -> vw V) ins input ft m n n0 ns wc nc v e :
  view input = WNode n -> o_xfind W n (apply_mod m (i_xpath ins)) = Some (n0 :: ns) ->
  o_xfind W n (apply_mod m (i_xpath ins) +:+ "[*]") = Some wc ->
  o_xfind W n (apply_mod m (i_xpath ins) +:+ "[not(*)]") = Some nc ->
  ~ (wc = [] /\ length nc = 1) -> ft <> "string" -> ft <> "array" -> ft <> "object" ->
  convert W view ft (GS (SStr (o_text W n0))) = Some (v, e) ->
  xml_instr W view ins input ft m =
    if e then ops_run W view (i_ops ins) (GN (n0 :: ns))
    else if is_nil view v then Ok (GS SNil) else ops_run W view (i_ops ins) v.
Proof.
  intros Hv Hx Hw Hn Hs H1 H2 H3 Hc. unfold xml_instr. rewrite Hv, Hx, Hw, Hn.
  assert (bool_decide (wc = []) && bool_decide (length nc = 1) = false) as ->.
  { apply andb_false_iff. rewrite !bool_decide_eq_false. destruct (decide (wc = [])); [right|by left]. naive_solver. }
  rewrite decide_False by naive_solver. rewrite decide_False by done. rewrite Hc. cbn.
  by destruct e.
Qed.
(** a single element without child elements *)
Lemma xml_single {V} (view : V -> vw V) ins input ft m n n0 ns n1 v e :
  view input = WNode n -> o_xfind W n (apply_mod m (i_xpath ins)) = Some (n0 :: ns) ->
  o_xfind W n (apply_mod m (i_xpath ins) +:+ "[*]") = Some [] ->
  o_xfind W n (apply_mod m (i_xpath ins) +:+ "[not(*)]") = Some [n1] ->
  convert W view ft (GS (SStr (o_text W n0))) = Some (v, e) ->
  xml_instr W view ins input ft m = if is_nil view v then Ok (GS SNil) else ops_run W view (i_ops ins) v.
Proof.
  intros Hv Hx Hw Hn Hc. unfold xml_instr. rewrite Hv, Hx, Hw, Hn. cbn. by rewrite Hc.
Qed.
End xml.

(** ** XML objects *)
Section xobj.
Context (W : oracles) (perm : nat -> nat -> list nat).
Lemma xobj_cases q d t cs input m s s1 v : run_tis W FXml t input "object" m s = (s1, Ok v) ->
  (v = VS SNil -> exec W perm FXml (IObj q d (Some t) cs) input m s =
     (s1, Ok (match d with Some l => VMap l | None => VS SNil end))) /\
  (v = VS (SStr "") -> exec W perm FXml (IObj q d (Some t) cs) input m s = (s1, Ok (VS SNil))) /\
  (forall n, v = VNode n \/ (exists l, v = VNodes (n :: l)) ->
     exec W perm FXml (IObj q d (Some t) cs) input m s = exec W perm FXml (IObj q d None cs) (VNode n) m s1) /\
  (forall sc, v = VS sc -> sc <> SNil -> sc <> SStr "" -> exec W perm FXml (IObj q d (Some t) cs) input m s = (s1, Err)) /\
  (forall l, v = VMap l -> exec W perm FXml (IObj q d (Some t) cs) input m s = (s1, Err)) /\
  (forall l k, v = VArr l k -> exec W perm FXml (IObj q d (Some t) cs) input m s = (s1, Err)).
Proof.
  intros H. repeat split.
  - intros ->. cbn [exec]. unfold obj_xml, Heap.mbind at 1. rewrite H. by destruct d.
  - intros ->. cbn [exec]. unfold obj_xml, Heap.mbind at 1. rewrite H. done.
  - intros n Hn. cbn [exec]. unfold obj_xml at 1. unfold Heap.mbind at 1. rewrite H.
    by destruct Hn as [->|[l ->]].
  - intros sc -> H1 H2. cbn [exec]. unfold obj_xml, Heap.mbind at 1. rewrite H.
    destruct sc as [| | | | |[]|]; done.
  - intros l ->. cbn [exec]. unfold obj_xml, Heap.mbind at 1. by rewrite H.
  - intros l k ->. cbn [exec]. unfold obj_xml, Heap.mbind at 1. by rewrite H.
Qed.
End xobj.

(** ** Item loops *)
Lemma items_ok k : forall i item s s' l, items k i item s = (s', Ok l) <->
  exists vs, length vs = k /\ item_runs item i vs s s' /\ l = filter (fun v => vnil v = false) vs.
Proof.
  induction k as [|k IH]; intros i item s s' l; cbn [items].
  - split.
    + intros [= <- <-]. exists []. split_and!; [done|constructor|done].
    + intros ([|v vs] & Hl & Hr & ->); [|done]. by inversion Hr.
  - unfold Heap.mbind, mret. split.
    + destruct (item i s) as [s1 [v| |]] eqn:Hi; try done.
      destruct (items k (S i) item s1) as [s2 [l2| |]] eqn:Hr; try done.
      intros [= <- <-]. apply IH in Hr as (vs & Hl & Hr & ->).
      exists (v :: vs). split_and!; [cbn; by rewrite Hl|by econstructor|].
      rewrite filter_cons. destruct (decide (vnil v = false)) as [->|n%not_false_iff_true]; [done|]. by rewrite n.
    + intros ([|v vs] & Hl & Hr & ->); [done|]. injection Hl as Hl.
      inversion Hr as [|? ? ? ? s1 ? Hi Hr']; subst. rewrite Hi.
      rewrite (proj2 (IH (S i) item s1 s' _)) by eauto.
      rewrite filter_cons. destruct (decide (vnil v = false)) as [->|n%not_false_iff_true]; [done|]. by rewrite n.
Qed.
Lemma items_err k : forall i item s s', items k i item s = (s', Err) <->
  exists vs s1, length vs < k /\ item_runs item i vs s s1 /\ item (i + length vs) s1 = (s', Err).
Proof.
  induction k as [|k IH]; intros i item s s'; cbn [items].
  - split; [done|]. intros (vs & s1 & Hl & _). lia.
  - unfold Heap.mbind, mret. split.
    + destruct (item i s) as [s1 [v| |]] eqn:Hi; try done.
      * destruct (items k (S i) item s1) as [s2 [l2| |]] eqn:Hr; try done.
        intros [= <-]. apply IH in Hr as (vs & s3 & Hl & Hr & He).
        exists (v :: vs), s3. split_and!; [cbn; lia|by econstructor|]. cbn [length]. by rewrite Nat.add_succ_r.
      * intros [= <-]. exists [], s. split_and!; [cbn; lia|constructor|]. cbn [length]. by rewrite Nat.add_0_r.
    + intros ([|v vs] & s1 & Hl & Hr & He).
      * inversion Hr; subst. cbn [length] in He. rewrite Nat.add_0_r in He. by rewrite He.
      * cbn [length] in Hl, He. inversion Hr as [|? ? ? ? s2 ? Hi Hr']; subst. rewrite Hi.
        rewrite (proj2 (IH (S i) item s2 s')); [done|].
        exists vs, s1. split_and!; [lia|done|]. by rewrite Nat.add_succ_r in He.
Qed.

(** ** Arrays of the input (no transform, no default) *)
Lemma arr_json_items W perm q c input m s l n :
  jget W (view (hp s)) (apply_mod m q) input = Some (GV (VArr l n)) ->
  exec W perm FJson (IArr q None None (Some c)) input m s =
  Heap.mbind (items n 0 (fun i => exec W perm FJson c input (item_mod m q i))) (new_array n) s.
Proof.
  intros H. cbn [exec]. unfold arr_json, Heap.base_json, run_opt_tis, heap_get, Heap.mbind, mheap, mret. cbn [vnil negb].
  rewrite H. cbn. done.
Qed.
Lemma arr_json_none W perm q c input m s :
  jget W (view (hp s)) (apply_mod m q) input = None \/ jget W (view (hp s)) (apply_mod m q) input = Some (GV (VS SNil)) ->
  exec W perm FJson (IArr q None None (Some c)) input m s = (s, Ok (VS SNil)).
Proof.
  intros H. cbn [exec]. unfold arr_json, Heap.base_json, run_opt_tis, heap_get, Heap.mbind, mheap, mret. cbn [vnil negb].
  destruct H as [-> | ->]; done.
Qed.
Lemma new_array_ok n vs s : exists s' v, new_array n vs s = (s', Ok v) /\
  ((vs = [] /\ v = VS SNil /\ s' = s) \/
   (vs <> [] /\ exists a, v = VArr (Some a) (length vs) /\ take (length vs) (harr (hp s') (Some a)) = vs)).
Proof.
  destruct vs as [|x vs]; cbn [new_array].
  - exists s, (VS SNil). split; [done|]. by left.
  - unfold Heap.mbind, alloc, mret. eexists _, _. split; [reflexivity|]. right. split; [done|]. eexists. split; [reflexivity|].
    unfold harr. cbn [hp]. rewrite lookup_insert. apply take_app.
Qed.
Lemma arr_json_ok W perm q c input m s l n s' v :
  jget W (view (hp s)) (apply_mod m q) input = Some (GV (VArr l n)) ->
  exec W perm FJson (IArr q None None (Some c)) input m s = (s', Ok v) ->
  exists vs s1, length vs = n /\ item_runs (fun i => exec W perm FJson c input (item_mod m q i)) 0 vs s s1 /\
    let out := filter (fun v => vnil v = false) vs in
    (out = [] /\ v = VS SNil \/
     out <> [] /\ exists a, v = VArr (Some a) (length out) /\ take (length out) (harr (hp s') (Some a)) = out).
Proof.
  intros Hj. rewrite (arr_json_items _ _ _ _ _ _ _ _ _ Hj). unfold Heap.mbind.
  destruct (items _ _ _ _) as [s1 [vs| |]] eqn:Hi; try done.
  apply items_ok in Hi as (vs' & Hl & Hr & ->). intros Hn. exists vs', s1. split; [done|]. split; [done|].
  destruct (new_array_ok n (filter (fun v => vnil v = false) vs') s1) as (s2 & v2 & He & Hc). rewrite Hn in He.
  injection He as <- <-. cbn zeta. destruct Hc as [(H1 & H2 & _)|[H1 H2]]; [left|right]; done.
Qed.
Lemma arr_json_all_ok W perm q c input m s l n vs s1 :
  jget W (view (hp s)) (apply_mod m q) input = Some (GV (VArr l n)) -> length vs = n ->
  item_runs (fun i => exec W perm FJson c input (item_mod m q i)) 0 vs s s1 ->
  exists s' v, exec W perm FJson (IArr q None None (Some c)) input m s = (s', Ok v).
Proof.
  intros Hj Hl Hr. rewrite (arr_json_items _ _ _ _ _ _ _ _ _ Hj). unfold Heap.mbind.
  rewrite (proj2 (items_ok n 0 _ s s1 _)) by eauto.
  destruct (new_array_ok n (filter (fun v => vnil v = false) vs) s1) as (s2 & v2 & He & _). eauto.
Qed.
Lemma arr_json_err W perm q c input m s l n s' :
  jget W (view (hp s)) (apply_mod m q) input = Some (GV (VArr l n)) ->
  exec W perm FJson (IArr q None None (Some c)) input m s = (s', Err) <->
  exists vs s1, length vs < n /\ item_runs (fun i => exec W perm FJson c input (item_mod m q i)) 0 vs s s1 /\
    exec W perm FJson c input (item_mod m q (length vs)) s1 = (s', Err).
Proof.
  intros Hj. rewrite (arr_json_items _ _ _ _ _ _ _ _ _ Hj). rewrite <- (items_err n 0 (fun i => exec W perm FJson c input (item_mod m q i))).
  unfold Heap.mbind. destruct (items _ _ _ _) as [s1 [vs| |]]; [|split; intros [= <-]; done|done].
  destruct (new_array_ok n vs s1) as (s2 & v2 & -> & _). done.
Qed.

(** ** the transform of an XML object with one entry *)
Lemma run_tis_single W f t input ft m s ins : ti_meth t = MFirst -> froms s !! ti_id t = Some [ins] ->
  run_tis W f t input ft m s =
  match instr_run W (view (hp s)) f ins input ft m with
  | Ok g => if is_nil (view (hp s)) g then (s, Ok (VS SNil)) else inject g s
  | Err => (s, Err)
  | Panic => (s, Panic)
  end.
Proof.
  intros Hm Hf. unfold run_tis, tis_run. rewrite Hm, Hf. change (default [] (Some [ins])) with [ins]. cbn [run_first rbind].
  rewrite (insert_id (froms s)) by done. destruct s as [h nx fr tk]. cbn [hp nxt froms tick].
  destruct (instr_run W (view h) f ins input ft m) as [g| |]; [|done|done]. cbn [rbind].
  by destruct (is_nil (view h) g).
Qed.
Section xobj2.
Context (W : oracles) (perm : nat -> nat -> list nat).
Context (q : string) (d : option nat) (cs : list (string * itr)) (m : modifier) (s : st) (n : nat).
Context (t : tis) (ins : instr) (Hm : ti_meth t = MFirst) (Hf : froms s !! ti_id t = Some [ins]) (Ho : i_ops ins = []).
Notation path := (apply_mod m (i_xpath ins)).
Notation result := (exec W perm FXml (IObj q d (Some t) cs) (VNode n) m s).
Lemma xobj_none : o_xfind W n path = Some [] -> result = (s, Ok (match d with Some l => VMap l | None => VS SNil end)).
Proof.
  intros Hx. eapply xobj_cases; [|reflexivity]. rewrite (run_tis_single _ _ _ _ _ _ _ ins) by done.
  cbn [instr_run]. rewrite (xml_none W (view (hp s)) ins (VNode n) "object" m n) by done. done.
Qed.
Lemma xobj_nodes n0 ns wc nc : o_xfind W n path = Some (n0 :: ns) ->
  o_xfind W n (path +:+ "[*]") = Some wc -> o_xfind W n (path +:+ "[not(*)]") = Some nc -> ~ (wc = [] /\ length nc = 1) ->
  result = exec W perm FXml (IObj q d None cs) (VNode n0) m s.
Proof.
  intros Hx Hw Hn Hs. eapply (xobj_cases W perm); [|right; eexists; reflexivity]. rewrite (run_tis_single _ _ _ _ _ _ _ ins) by done.
  cbn [instr_run]. rewrite (proj2 (xml_several W (view (hp s)) ins (VNode n) "object" m n n0 ns wc nc eq_refl Hx Hw Hn Hs)) by (by right).
  by rewrite Ho.
Qed.
Lemma xobj_leaf n0 ns n1 : 0 < o_stack W -> o_xfind W n path = Some (n0 :: ns) ->
  o_xfind W n (path +:+ "[*]") = Some [] -> o_xfind W n (path +:+ "[not(*)]") = Some [n1] ->
  result = (s, if decide (o_text W n0 = "") then Ok (VS SNil) else Err).
Proof.
  intros Hst Hx Hw Hn.
  assert (run_tis W FXml t (VNode n) "object" m s = (s, Ok (VS (SStr (o_text W n0))))) as Hr.
  { rewrite (run_tis_single _ _ _ _ _ _ _ ins) by done. cbn [instr_run].
    rewrite (xml_single W (view (hp s)) ins (VNode n) "object" m n n0 ns n1 (GS (SStr (o_text W n0))) false); try done.
    - by rewrite Ho.
    - unfold convert. destruct (o_stack W); [lia|]. done. }
  case_decide as Ht.
  - rewrite Ht in Hr. by apply (xobj_cases W perm q d t cs _ _ _ _ _ Hr).
  - destruct (xobj_cases W perm q d t cs _ _ _ _ _ Hr) as (_ & _ & _ & H & _). apply (H _ eq_refl); [done|congruence].
Qed.
End xobj2.

(** ** array transforms *)
Lemma array_selected W path dflt t input m s ins a n l : ti_meth t = MFirst -> froms s !! ti_id t = Some [ins] -> i_ops ins = [] ->
  0 < o_stack W -> jget W (view (hp s)) (apply_mod m (i_jpath ins)) input = Some (GV (VArr a n)) ->
  l = take n (harr (hp s) a) -> (2 <= length l \/ exists x, l = [x] /\ x <> VS SNil /\ forall a' n', x <> VArr a' n') ->
  exists s' sl, Heap.base_json W FJson path dflt (Some t) input m s = (s', Ok (sl, true)) /\ take sl.2 (harr (hp s') sl.1) = l.
Proof.
  intros Hm Hf Ho Hst Hj Hl Hc. unfold Heap.base_json, run_opt_tis. unfold Heap.mbind at 1.
  rewrite (run_tis_single _ _ _ _ _ _ _ ins) by done. cbn [instr_run]. unfold json_instr. rewrite Hj.
  assert (is_nil (view (hp s)) (GV (VArr a n)) = false) as -> by done. rewrite Ho. cbn [ops_run].
  unfold convert. destruct (o_stack W) as [|fuel]; [lia|]. cbn [convert_go].
  assert (is_nil (view (hp s)) (GV (VArr a n)) = false) as -> by done.
  cbn [gview view vw_map]. rewrite <- Hl.
  destruct Hc as [Hc|(x & Hx & Hnn & Hna)].
  - destruct l as [|x [|y l']]; cbn in Hc; try lia. cbn [fmap list_fmap].
    assert (bool_decide (GV y :: ((fun v => GV v) <$> l') = []) || bool_decide ("array" <> "array") = false) as Hb.
    { apply orb_false_iff. split; apply bool_decide_eq_false; [done|]. by intros []. }
    change (GV <$> l') with ((fun v => GV v) <$> l'). rewrite Hb. cbn.
    unfold mret. eexists _, _. split; [reflexivity|]. cbn. by rewrite Hl.
  - rewrite Hx in Hl |- *. cbn [fmap list_fmap]. rewrite bool_decide_true by done. cbn [orb].
    assert (match gview (view (hp s)) (GV x) with WArr (y :: _) => convert_go W (view (hp s)) fuel "array" y
            | _ => Some (convert_leaf W (view (hp s)) "array" (GV x)) end = Some (GV x, false)) as ->.
    { destruct x as [sc|l0|a' n'|k|ks]; try done. by destruct (Hna a' n'). }
    cbn [ops_run]. assert (is_nil (view (hp s)) (GV x) = false) as Hnx by (destruct x as [[]| | | |]; done).
    rewrite !Hnx. cbn [inject]. unfold mret at 1. assert (vnil x = false) as -> by (destruct x as [[]| | | |]; done). cbn [negb].
    unfold Heap.mbind. unfold as_slice. destruct x as [sc|l0|a' n'|k|ks]; try (by destruct (Hna a' n'));
      unfold Heap.mbind, alloc, mret; eexists _, _; (split; [reflexivity|]); cbn; by rewrite lookup_insert.
Qed.

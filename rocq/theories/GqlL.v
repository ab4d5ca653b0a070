(** GraphQL fields and types: adding them, and their text. *)
From stdpp Require Import strings list gmap.
From Coq Require Import Ascii ZArith Lia.
From Verif Require Import GoStr GoStrL Val Conv Schema Inst Load SpecPath PathL SpecWalk WalkL SpecLoad FlatL SpecGen SpecGql Gen Avro Gql GenL SortL GenP GenM KeyedL.

Scheme qholds_ind2 := Minimality for qholds Sort Prop
  with qdeclares_ind2 := Minimality for qdeclares Sort Prop
  with qdeclares_all_ind2 := Minimality for qdeclares_all Sort Prop.
Combined Scheme qdeclares_mutind from qholds_ind2, qdeclares_ind2, qdeclares_all_ind2.

Section gql.
Context (W : oracles) (o_quote o_trim : string -> string) (A : gargs) (root_name : string).
Notation rename := (a_fieldNames (ga A)).
Notation title := (exported W).
Notation pointers := (a_pointers (ga A)).
Notation quote := (q o_quote).
Notation trim := (trim_space o_trim).

(** ** the walk *)
Definition no_props (i : instance) : bool := bool_decide (default [] (n_props i) = []).
Definition qmk (tp : bool) (s : qobj) (n Q : string) (i : instance) : qobj :=
  new_obj (if dead s || no_props i then "ignored" else "type") Q (type_name W A tp s n) (n_desc i) (n_gargs i) (n_target i) (n_required i).
Definition type_list (tp : bool) (s : qobj) (n : string) (i : instance) : list string :=
  if no_props i then ["Any"] else if has_type "null" i then [type_name W A tp s n; "null"] else [type_name W A tp s n].
Definition as_object (i : instance) (Q : string) : instance :=
  Inst false [] [] (n_desc i) None false "" "" (n_gargs i) None [] None "" [] "" (n_target i) (Some [Q]).
Definition qfld (tp : bool) (s : qobj) (n Q : string) (i : instance) : res qobj :=
  rbind (if has_type "object" i then q_leaf W A (o_field s) n (Some (type_list tp s n i)) (as_object i Q) else q_leaf W A (o_field s) n None i)
    (fun f => Ok (with_field s f)).
Notation K0 := (title root_name).
Notation visit := (visit title K0 qmk qfld).
Definition to_qfile (st : @state qobj) : qfile := QFile st.1 st.2.
Lemma q_visit_eq p i (st : @state qobj) : a_noNested (ga A) = true -> q_name (o_info st.1) = root_name ->
  q_walk W A p i (to_qfile st) = let (st', e) := visit p i st in (to_qfile st', e).
Proof.
  intros Hn Hr. destruct st as [r n]. cbn [fst] in Hr. unfold q_walk, KeyedL.visit, step. rewrite Hn. cbn [negb to_qfile qf_root qf_nested fst snd]. rewrite Hr.
  destruct (List.rev (split_json_path p)) as [|name ?]; [done|]. unfold cur, top, key, qfld. cbn [fst snd q_add].
  set (P := join "" (removelast _)). set (Q := join "" (_ :: _)). unfold upd. cbn [fst snd].
  destruct (assocd P n) as [s|] eqn:EP; cbn [default from_option id];
    destruct (has_type "object" i) eqn:Ho.
  all: unfold type_list, no_props, qmk.
  1: destruct (q_leaf W A (o_field s) name _ _) as [f| |] eqn:E; unfold as_object; rewrite ?E; cbn [rbind]; done.
  1: destruct (q_leaf W A (o_field s) name _ _) as [f| |] eqn:E; rewrite ?E; cbn [rbind]; done.
  1: destruct (q_leaf W A (o_field r) name _ _) as [f| |] eqn:E; unfold as_object; rewrite ?E; cbn [rbind]; done.
  1: destruct (q_leaf W A (o_field r) name _ _) as [f| |] eqn:E; rewrite ?E; cbn [rbind]; done.
Qed.
Lemma put_field_name k f gen g : put_field k f gen = Ok g -> q_name (q_info g) = q_name (q_info gen).
Proof. unfold put_field. destruct (q_made _); [|done]. by intros [= <-]. Qed.
Lemma put_req_name k gen g : put_req k gen = Ok g -> q_name (q_info g) = q_name (q_info gen).
Proof. unfold put_req. destruct (q_req _); [|done]. by intros [= <-]. Qed.
Lemma q_leaf_name gen k gty i g : q_leaf W A gen k gty i = Ok g -> q_name (q_info g) = q_name (q_info gen).
Proof.
  unfold q_leaf. destruct (single_type _ _) as [ty| |]; [|done..]. cbn [rbind].
  destruct (match assocd k (q_fields gen) with None => _ | Some e => _ end) as [f| |]; [|done..]. cbn [rbind]. cbn zeta.
  set (f' := if has_type _ _ && _ then _ else _). destruct (decide (q_type (q_info f') = "array")).
  - destruct (put_field _ _ gen) as [g1| |] eqn:E1; [|done..]. cbn [rbind]. destruct (put_req _ g1) as [g2| |] eqn:E2; [|done..]. cbn [rbind].
    intros ->%put_field_name. rewrite (put_req_name _ _ _ E2). by apply put_field_name in E1.
  - destruct (decide (q_type (q_info f') = "object")); apply put_field_name.
Qed.
Lemma qfld_name tp s n Q i s' : q_name (o_info s) = root_name -> qfld tp s n Q i = Ok s' -> q_name (o_info s') = root_name.
Proof.
  intros H. unfold qfld. destruct (has_type "object" i).
  - destruct (q_leaf _ _ _ _ _ _) as [f| |] eqn:E; [|done..]. intros [= <-]. apply q_leaf_name in E. unfold o_info in *. cbn. congruence.
  - destruct (q_leaf _ _ _ _ _ _) as [f| |] eqn:E; [|done..]. intros [= <-]. apply q_leaf_name in E. unfold o_info in *. cbn. congruence.
Qed.

(** ** adding a field *)
Definition ready (s : qobj) : Prop := q_made (o_info s) = true /\ is_Some (q_req (o_info s)).
Definition setk (s : qobj) (k : string) (f : qfield) : qobj :=
  with_field s (QField (set_order (q_order (o_info s) ++ [k]) (o_info s)) (put k f (q_fields (o_field s)))).
Definition qplain (arr : bool) (k ty desc name : string) (args : list string) (target : string) (null : bool) : qfield :=
  QField (QInfo args arr false desc [] false k ty name null "" target None) [].
Definition qstart (arr : bool) (s : qobj) (k : string) (i : instance) (desc name : string) (args : list string) (target : string) (null : bool) : Prop :=
  if arr then assocd k (q_fields (o_field s)) = Some (qplain true k "" desc name args target false) /\ null = false
  else assocd k (q_fields (o_field s)) = None /\ desc = n_desc i /\ name = go_name title rename k /\ args = n_gargs i /\ target = n_target i /\ null = nullable i.
(** the target of a list of values with a target *)
Definition list_target (arr : bool) (target : string) (req : bool) (i : instance) : string :=
  if arr && bool_decide (target = "") && bool_decide (n_target i <> "") then "[" +:+ n_target i +:+ "]" +:+ (if pointers && negb req then "" else "!") else target.
Definition is_date (i : instance) : bool := has_type "string" i && bool_decide (n_format i = "date-time").
Lemma put_field_ok s k f : q_made (o_info s) = true -> put_field k f (o_field s) = Ok (o_field (setk s k f)).
Proof. intros H. unfold put_field. unfold o_info in H. by rewrite H. Qed.
Lemma q_leaf_value s k gty i t arr desc name args target null : ready s -> qstart arr s k i desc name args target null -> (arr = false -> has_type "null" i = nullable i) ->
  single_type (default (types_of i) gty) "" = Ok t -> t <> "array" -> t <> "object" -> t <> "" ->
  q_leaf W A (o_field s) k gty i = Ok (o_field (setk s k (qplain arr k (if is_date i then "date-time" else t) desc name args
    (list_target arr target (is_req (q_req (o_info s)) k) i) (null || is_date i)))).
Proof.
  intros [Hm _] Hst _ Hs Hta Hto Hte. unfold q_leaf. rewrite Hs. cbn [rbind].
  assert (Hf : match assocd k (q_fields (o_field s)) with
    | None => Ok (QField (new_field i k (title (default k (rename k))) t) [])
    | Some e => rbind (again pointers (o_field s) i t (q_info e)) (fun f => Ok (QField f (q_fields e))) end =
    Ok (qplain arr k t desc name args (list_target arr target (is_req (q_req (o_info s)) k) i) null)).
  { destruct arr.
    - destruct Hst as [-> ->]. unfold again. cbn [q_info qplain q_array q_type q_fields]. rewrite decide_True by done. unfold list_target. cbn [andb].
      cbn [set_type q_target q_null orb q_json]. fold (o_info s).
      destruct (bool_decide (target = "") && bool_decide (n_target i <> "")) eqn:E; [|done]. cbn [rbind]. unfold set_target, qplain. cbn [q_args q_array q_anull q_desc q_order q_made q_json q_type q_name q_null q_impl q_req set_type]. by destruct (pointers && negb (is_req (q_req (o_info s)) k)).
    - destruct Hst as (-> & -> & -> & -> & -> & ->). done. }
  rewrite Hf. cbn [rbind]. cbn zeta. clear Hf. fold (is_date i).
  destruct (is_date i).
  - cbn [on_info qplain q_info set_type set_null q_type]. rewrite (decide_False (P := "date-time" = "array")) by done. rewrite (decide_False (P := "date-time" = "object")) by done.
    rewrite put_field_ok by done. rewrite orb_true_r. done.
  - cbn [qplain q_info q_type]. rewrite (decide_False (P := t = "array")) by done. rewrite (decide_False (P := t = "object")) by done. rewrite put_field_ok by done. by rewrite orb_false_r.
Qed.
(** an array *)
Definition total_entry (i : instance) (k : string) : string * qfield :=
  ("total" +:+ go_name title rename k,
   total_field (title ("total" +:+ go_name title rename k)) ("total" +:+ go_name title rename k) (total_desc (default k (rename k)) (n_desc i))).
Definition arr_field (i : instance) (k : string) : qfield := qplain true k "" (n_desc i) (go_name title rename k) (n_gargs i) (n_target i) false.
Definition setr (s : qobj) (k : string) : qobj := with_field s (on_info (set_req (Some (k :: default [] (q_req (o_info s))))) (o_field s)).
Lemma q_leaf_array s k i : ready s -> assocd k (q_fields (o_field s)) = None -> one_type i "array" ->
  q_leaf W A (o_field s) k None i = Ok (o_field (setk (setr (setk s (total_entry i k).1 (total_entry i k).2) (total_entry i k).1) k (arr_field i k))).
Proof.
  intros [Hm [r Hr]] Hn Ht. unfold q_leaf. cbn [default]. rewrite (single_one _ _ Ht). cbn [rbind]. rewrite Hn. cbn [rbind].
  rewrite (one_type_has i _ _ Ht) by done. rewrite (bool_decide_eq_false_2 ("string" = "array")) by done. cbn [andb].
  cbn [q_info new_field q_type]. rewrite decide_True by done. cbn zeta. cbn [on_info q_info set_type set_null set_array set_anull q_name q_desc q_null new_field].
  change (title (default k (rename k))) with (go_name title rename k).
  rewrite put_field_ok by done. cbn [rbind]. unfold put_req.
  assert (Hq : q_req (q_info (o_field (setk s (total_entry i k).1 (total_entry i k).2))) = Some r) by exact Hr.
  change (total_field _ _ _) with (total_entry i k).2. change ("total" +:+ go_name title rename k) with (total_entry i k).1. rewrite Hq. cbn [rbind].
  assert (Hs : on_info (set_req (Some ((total_entry i k).1 :: r))) (o_field (setk s (total_entry i k).1 (total_entry i k).2)) =
    o_field (setr (setk s (total_entry i k).1 (total_entry i k).2) (total_entry i k).1)). { unfold setr. by rewrite (Hq : q_req (o_info _) = _). }
  rewrite Hs. rewrite put_field_ok by exact Hm. done.
Qed.
(** ** text *)
Lemma comment_eq prefix desc : desc <> "" -> q_comment prefix desc = description_text prefix desc.
Proof.
  intros H. unfold q_comment, description_text. change nl with newline. rewrite (decide_False (P := desc = "")) by done.
  destruct (split desc newline) as [|x [|y l]] eqn:E; [by apply split_ne in E| |].
  - rewrite decide_True by done. done.
  - by rewrite decide_False by done.
Qed.
Lemma split_go_hd c s cur : exists u, hd "" (split_go (chr c) s 0 cur) = cur +:+ u.
Proof.
  revert cur. induction s as [|a s IH]; intros cur; [exists ""; cbn; by rewrite sapp_nil_r|]. cbn [split_go]. rewrite has_prefix_chr. destruct (bool_decide (c = a)).
  - exists "". cbn. by rewrite sapp_nil_r.
  - destruct (IH (cur +:+ String a "")) as [u ->]. exists (String a u). by rewrite <- app_assoc_s.
Qed.
Lemma split_go_free c p t cur : free_of c p = true -> split_go (chr c) (p +:+ t) 0 cur = split_go (chr c) t 0 (cur +:+ p).
Proof.
  revert cur. induction p as [|a p IH]; intros cur H; [by rewrite sapp_nil_l, sapp_nil_r|]. cbn [free_of] in H. apply andb_true_iff in H as [H1 H2].
  rewrite sapp_cons. cbn [split_go]. rewrite has_prefix_chr, bool_decide_eq_false_2.
  2:{ intros ->. by rewrite bool_decide_true in H1. }
  rewrite IH by done. by rewrite <- app_assoc_s.
Qed.
Lemma free_prefix c p t : free_of c p = true -> exists u, hd "" (split (p +:+ t) (chr c)) = p +:+ u.
Proof. intros Hp. unfold split. rewrite decide_False by done. rewrite split_go_free by done. rewrite sapp_nil_l. apply split_go_hd. Qed.
Lemma deprecated_eq desc : q_deprecated o_quote o_trim desc =
  (match deprecation trim desc with Some (_, rest) => rest | None => desc end,
   match deprecation trim desc with Some (reason, _) => " @deprecated(reason: " +:+ quote reason +:+ ")" | None => "" end).
Proof.
  unfold q_deprecated, deprecation. destruct (has_prefix "DEPRECATED:" desc) eqn:E; [|done]. change nl with newline. cbn zeta. do 5 f_equal.
  apply has_prefix_spec in E as [t ->]. change newline with (chr "010"%char). destruct (free_prefix "010"%char "DEPRECATED:" t) as [u ->]; [done|].
  unfold trim_prefix. assert (has_prefix "DEPRECATED:" ("DEPRECATED:" +:+ u) = true) as -> by (apply has_prefix_spec; by exists u). done.
Qed.
(** what a field is written as *)
Definition qgood (f : qfield) (d : qdecl) : Prop :=
  q_json (q_info f) = qd_json d /\ q_name (q_info f) = qd_go d /\ bool_decide (q_type (q_info f) <> "graphql-hydration") = negb (is_virtual d) /\
  forall req, q_write o_quote o_trim pointers "  " req f = show_field quote trim req d.
Lemma qgood_of f d : q_json (q_info f) = qd_json d -> q_name (q_info f) = qd_go d -> q_desc (q_info f) = qd_desc d ->
  bool_decide (q_type (q_info f) <> "graphql-hydration") = negb (is_virtual d) -> q_type (q_info f) <> "object" ->
  (forall req, q_type_text pointers req (q_info f) = (args_text d, qtype_text req (qd_type d) +:+ (if is_list (qd_type d) then " @goField(forceResolver: true)" else ""))) ->
  qgood f d.
Proof.
  intros Hj Hn Hd Hv Ho Ht. split_and!; [done..|]. intros req. destruct f as [i fs]. cbn [q_info] in *. cbn [q_write q_info]. rewrite Hd, deprecated_eq, Ht.
  rewrite (decide_True (P := q_type i <> "object")) by done. unfold show_field. rewrite Hj. set (dd := match deprecation trim (qd_desc d) with Some (_, rest) => rest | None => qd_desc d end).
  assert (Hc : (if decide (dd = "") then "" else q_comment "  " dd) = description_text "  " dd).
  { destruct (decide (dd = "")) as [E|E]; [|by apply comment_eq]. unfold description_text. by rewrite decide_True. }
  rewrite Hc. change nl with newline. by rewrite !app_assoc_s.
Qed.
Definition lst (arr : bool) (t : qtype) : qtype := if arr then QList t (if_pointers pointers) else t.
Lemma named_text arr k ty desc name args target null n reg nn : ty <> "graphql-hydration" ->
  (if decide (target <> "") then (target, false) else match q_scalar ty with Some t => (t, true) | None => (ty, false) end) = (n, reg) ->
  (forall req, (if bool_decide (n <> "DateTime") && ((reg && negb null) || req || negb pointers) && bool_decide (ty <> "Any") then n +:+ "!" else n) = n +:+ mark nn req) ->
  ty <> "object" ->
  qgood (qplain arr k ty desc name args target null) (QDecl desc name k args (lst arr (QName n nn))).
Proof.
  intros Hh Hn Hm Ho. apply qgood_of; [done..| | |]; cbn [qplain q_info q_type].
  - rewrite bool_decide_eq_true_2 by done. by destruct arr.
  - done.
  - intros req. unfold q_type_text. cbn [q_type q_target q_array q_anull q_null qplain q_info]. rewrite (decide_False (P := ty = "graphql-hydration")) by done.
    rewrite Hn. cbn zeta. rewrite Hm. destruct arr; cbn [lst qd_type args_text is_list qtype_text].
    + f_equal. cbn [orb]. unfold if_pointers. destruct pointers, req; cbn [negb andb mark]; by rewrite <- ?app_assoc_s, ?sapp_nil_r.
    + by rewrite sapp_nil_r.
Qed.
Lemma if_false b (n : string) : (if false && b then n +:+ "!" else n) = n +:+ "".
Proof. by rewrite sapp_nil_r. Qed.
Lemma target_text arr k ty desc name args target null : ty <> "graphql-hydration" -> ty <> "object" -> target <> "" ->
  (ty <> "Any" -> qgood (qplain arr k ty desc name args target null) (QDecl desc name k args (lst arr (named_type pointers target)))) /\
  (ty = "Any" -> qgood (qplain arr k ty desc name args target null) (QDecl desc name k args (lst arr (QName target NNever)))).
Proof.
  intros Hh Ho Ht. split; intros HA.
  - unfold named_type. eapply (named_text _ _ _ _ _ _ _ _ _ false); [done|by rewrite decide_True| |done]. intros req. cbn [andb orb].
    rewrite (bool_decide_eq_true_2 (ty <> "Any")) by done. rewrite andb_true_r. destruct (decide (target = "DateTime")) as [->|E].
    + rewrite bool_decide_eq_false_2 by (by intros H; apply H). cbn. by rewrite sapp_nil_r.
    + rewrite bool_decide_eq_true_2 by done. unfold if_pointers. destruct pointers, req; cbn; by rewrite ?sapp_nil_r.
  - subst. eapply (named_text _ _ _ _ _ _ _ _ _ false); [done|by rewrite decide_True| |done]. intros req.
    rewrite (bool_decide_eq_false_2 ("Any" <> "Any")) by (by intros H; apply H). rewrite andb_false_r. cbn. by rewrite sapp_nil_r.
Qed.
Lemma scalar_text arr k t date desc name args target null b : scalar_name t date = Some b ->
  qgood (qplain arr k t desc name args target null) (QDecl desc name k args (lst arr (or_target pointers target (QName b (if null then if_pointers pointers else NAlways))))).
Proof.
  intros Hb. unfold or_target.
  assert (Ht : t ∈ ["boolean"; "number"; "integer"; "string"] /\ q_scalar t = Some b /\ b <> "DateTime").
  { unfold scalar_name in Hb. destruct (decide (t = "boolean")) as [->|N1]; [injection Hb as <-; split_and!; [set_solver|done..]|].
    destruct (decide (t = "number")) as [->|N2]; [injection Hb as <-; split_and!; [set_solver|done..]|].
    destruct (decide (t = "integer")) as [->|N3]; [injection Hb as <-; split_and!; [set_solver|done..]|].
    destruct (decide (t = "string")) as [->|N4]; [|done]. destruct date; [done|]. injection Hb as <-; split_and!; [set_solver|done..]. }
  destruct Ht as (Ht & Hs & Hd).
  assert (Hne : t <> "graphql-hydration" /\ t <> "object" /\ t <> "Any"). { split_and!; intros ->; by repeat (apply elem_of_cons in Ht as [Ht|Ht]; [done|]); apply elem_of_nil in Ht. }
  destruct Hne as (H1 & H2 & H3). destruct (decide (target = "")) as [->|E].
  - eapply (named_text _ _ _ _ _ _ _ _ _ true); [done|by rewrite decide_False, Hs by (by intros H; apply H)| |done]. intros req.
    rewrite (bool_decide_eq_true_2 (t <> "Any")), bool_decide_eq_true_2 by done. rewrite andb_true_r. unfold if_pointers. destruct null, pointers, req; cbn; by rewrite ?sapp_nil_r.
  - by apply target_text.
Qed.
Lemma time_text arr k desc name args target null :
  qgood (qplain arr k "date-time" desc name args target null) (QDecl desc name k args (lst arr (or_target pointers target (QName "DateTime" NNever)))).
Proof.
  unfold or_target. destruct (decide (target = "")) as [->|E]; [|by apply target_text].
  eapply (named_text _ _ _ _ _ _ _ _ _ true); [done|by rewrite decide_False by (by intros H; apply H)| |done]. intros req. cbn. by rewrite sapp_nil_r.
Qed.
Lemma object_text arr k T desc name args target null : T ∉ reserved ->
  qgood (qplain arr k T desc name args target null) (QDecl desc name k args (lst arr (or_target pointers target (named_type pointers T)))).
Proof.
  intros HT. assert (Hne : forall x, x ∈ reserved -> T <> x) by (intros x Hx ->; done). unfold reserved in Hne. unfold or_target. destruct (decide (target = "")) as [->|E].
  - unfold named_type. eapply (named_text _ _ _ _ _ _ _ _ _ false).
    + apply Hne. set_solver.
    + rewrite decide_False by (by intros H; apply H). unfold q_scalar. by rewrite !decide_False by (apply Hne; set_solver).
    + intros req. cbn [andb orb]. rewrite (bool_decide_eq_true_2 (T <> "Any")) by (apply Hne; set_solver). rewrite andb_true_r. destruct (decide (T = "DateTime")) as [->|E].
      * rewrite bool_decide_eq_false_2 by (by intros H; apply H). cbn. by rewrite sapp_nil_r.
      * rewrite bool_decide_eq_true_2 by done. unfold if_pointers. destruct pointers, req; cbn; by rewrite ?sapp_nil_r.
    + apply Hne. set_solver.
  - apply target_text; [apply Hne; set_solver..|done|apply Hne; set_solver].
Qed.
Lemma any_text arr k desc name args target null :
  qgood (qplain arr k "Any" desc name args target null) (QDecl desc name k args (lst arr (QName (if decide (target = "") then "Any" else target) NNever))).
Proof.
  destruct (decide (target = "")) as [->|E]; [|by apply target_text].
  eapply (named_text _ _ _ _ _ _ _ _ _ false); [done|by rewrite decide_False by (by intros H; apply H)| |done]. intros req.
  rewrite (bool_decide_eq_false_2 ("Any" <> "Any")) by (by intros H; apply H). rewrite andb_false_r. cbn. by rewrite sapp_nil_r.
Qed.
Lemma join_ends sep l z : join sep (l ++ [z]) = join "" (map (fun x => x +:+ sep) l) +:+ z.
Proof.
  induction l as [|x l IH]; [by rewrite sapp_nil_l|]. cbn [app]. rewrite join_cons by (by destruct l). rewrite IH. cbn [map].
  change ((x +:+ sep) :: map (fun x => x +:+ sep) l) with ([x +:+ sep] ++ map (fun x => x +:+ sep) l). rewrite join_nil_app. cbn [join]. by rewrite <- !app_assoc_s.
Qed.
Lemma virtual_text arr k desc name args target null :
  qgood (qplain arr k "graphql-hydration" desc name args target null) (QDecl desc name k args (QText target)).
Proof.
  apply qgood_of; [done..|]. intros req. unfold q_type_text. cbn [qplain q_info q_type]. rewrite decide_True by done. cbn [q_args q_target qd_type is_list qtype_text args_text qd_args].
  rewrite sapp_nil_r. f_equal. destruct args as [|a args]; [done|]. set (l := a :: args). change nl with newline.
  change (["("] ++ map ?f l ++ ["  )"]) with (("(" :: map f l) ++ ["  )"]). rewrite join_ends. cbn [map].
  change (?x :: map ?f ?l) with ([x] ++ map f l). rewrite join_nil_app. cbn [join]. rewrite map_map. by rewrite <- !app_assoc_s.
Qed.
Definition free_decl (d : qdecl) : Prop := forall r r', show_field quote trim r d = show_field quote trim r' d.
Lemma total_text_ok i k : qgood (total_entry i k).2 (total_of title rename trim i k) /\ free_decl (total_of title rename trim i k).
Proof.
  split; [|done]. cbn [total_entry snd]. unfold total_field, total_of.
  assert (E : total_desc (default k (rename k)) (n_desc i) = match deprecation trim (n_desc i) with Some _ => hd "" (split (n_desc i) newline) +:+ newline | None => "" end +:+
    "The total length of the " +:+ default k (rename k) +:+ " list at this same level in the data, this number is unaffected by filtering.").
  { unfold total_desc, deprecation, total_text. destruct (has_prefix "DEPRECATED:" (n_desc i)); [by rewrite <- app_assoc_s|done]. }
  rewrite E. apply (named_text false _ _ _ _ _ _ _ "Int" true NAlways); [done|done| |done]. intros req. done.
Qed.
End gql.

(** What walking collects and writes, for nested structs. *)
From stdpp Require Import strings list gmap.
From Coq Require Import Ascii ZArith Lia.
From Verif Require Import GoStr GoStrL Val Conv Schema Inst Load SpecPath PathL SpecWalk WalkL FlatL SpecGen Gen GenL SortL.

(** ** changing the fields at some place *)
Definition with_sub (f : field) (fs : list (string * field)) : field :=
  Field (f_array f) (f_desc f) (f_made f) fs (f_json f) (f_type f) (f_name f) (f_null f) (f_req f).
Fixpoint sub_at (ns : list string) (F : list (string * field)) : option (list (string * field)) :=
  match ns with
  | [] => Some F
  | n :: ns' => match assocd n F with Some f => if f_made f then sub_at ns' (f_fields f) else None | None => None end
  end.
Fixpoint set_at (ns : list string) (F fs : list (string * field)) : list (string * field) :=
  match ns with
  | [] => fs
  | n :: ns' => match assocd n F with Some f => put n (with_sub f (set_at ns' (f_fields f) fs)) F | None => F end
  end.
Lemma sub_set ns F fs fs' : sub_at ns F = Some fs -> sub_at ns (set_at ns F fs') = Some fs'.
Proof.
  revert F. induction ns as [|n ns IH]; intros F; [done|]. cbn. destruct (assocd n F) as [f|] eqn:E; [|done].
  destruct (f_made f) eqn:Hm; [|done]. intros H. rewrite assocd_put, decide_True by done. cbn. rewrite Hm. by apply IH.
Qed.
Lemma set_set ns F fs a b : sub_at ns F = Some fs -> set_at ns (set_at ns F a) b = set_at ns F b.
Proof.
  revert F. induction ns as [|n ns IH]; intros F; [done|]. cbn. destruct (assocd n F) as [f|] eqn:E; [|done].
  destruct (f_made f) eqn:Hm; [|done]. intros H. rewrite assocd_put, decide_True by done. cbn. rewrite put_put. by rewrite IH.
Qed.
Lemma set_same ns F fs : sub_at ns F = Some fs -> set_at ns F fs = F.
Proof.
  revert F. induction ns as [|n ns IH]; intros F; cbn; [by intros [= ->]|]. destruct (assocd n F) as [f|] eqn:E; [|done].
  destruct (f_made f) eqn:Hm; [|done]. intros H. rewrite IH by done. apply put_same. rewrite E. by destruct f.
Qed.
Lemma sub_snoc ns k F fs f : sub_at ns F = Some fs -> assocd k fs = Some f -> f_made f = true -> sub_at (ns ++ [k]) F = Some (f_fields f).
Proof.
  revert F. induction ns as [|n ns IH]; intros F; cbn.
  - intros [= ->] -> ->. done.
  - destruct (assocd n F) as [g|]; [|done]. destruct (f_made g); [|done]. apply IH.
Qed.
Lemma set_snoc ns k F fs f sub : sub_at ns F = Some fs -> assocd k fs = Some f -> set_at (ns ++ [k]) F sub = set_at ns F (put k (with_sub f sub) fs).
Proof.
  revert F. induction ns as [|n ns IH]; intros F; cbn.
  - intros [= ->] ->. done.
  - destruct (assocd n F) as [g|]; [|done]. destruct (f_made g); [|done]. intros H1 H2. by rewrite IH.
Qed.

Section gen.
Context (W : oracles) (A : args).
Notation rename := (a_fieldNames A).
Notation title := (exported W).
Notation pointers := (a_pointers A).
Lemma add_at ns F fs n i : sub_at ns F = Some fs -> has_type "graphql-hydration" i = false ->
  add_field W rename true F (ns ++ [n]) i = rbind (add_leaf W rename true fs n i) (fun fs' => Ok (set_at ns F fs')).
Proof.
  intros Hs Hh. revert F Hs. induction ns as [|m ns IH]; intros F Hs.
  - injection Hs as ->. cbn [app add_field]. rewrite Hh. by destruct (add_leaf W rename true fs n i).
  - cbn [sub_at] in Hs. destruct (assocd m F) as [f|] eqn:E; [|done]. destruct (f_made f) eqn:Hm; [|done].
    cbn [app add_field]. rewrite Hh. destruct (ns ++ [n]) as [|x l] eqn:El; [by destruct ns|]. rewrite E, Hm. rewrite <- El in *.
    rewrite IH by done. cbn [set_at]. rewrite E. destruct (add_leaf W rename true fs n i); [|done..]. cbn. unfold with_sub. by rewrite Hm.
Qed.
Lemma add_hydrated ns F i : has_type "graphql-hydration" i = true -> add_field W rename true F ns i = Ok F.
Proof. intros H. destruct ns; cbn [add_field]; by rewrite H. Qed.

(** ** collecting *)
Fixpoint run (vs : list (list seg * tree)) (F : list (string * field)) : res (list (string * field)) :=
  match vs with
  | [] => Ok F
  | (σ, r) :: vs' => rbind (add_field W rename true F (split_json_path (path_of σ)) (inst_of r)) (run vs')
  end.
Lemma run_app vs vs' F : run (vs ++ vs') F = rbind (run vs F) (run vs').
Proof. revert F. induction vs as [|[σ r] vs IH]; intros F; [done|]. cbn. destruct (add_field _ _ _ _ _ _); [|done..]. cbn. apply IH. Qed.
Lemma calls_run vs F F' root nested : a_noNested A = false -> run vs F = Ok F' ->
  calls (on_inst (walk_func W A)) vs (Ok tt) (GoFile (with_fields root F) nested) = (GoFile (with_fields root F') nested, Ok tt).
Proof.
  intros Hn. revert F. induction vs as [|[σ r] vs IH]; intros F H; [by injection H as ->|]. cbn [calls run] in *.
  assert (Hw : forall p i, walk_func W A p i (GoFile (with_fields root F) nested) =
    match add_field W rename true F (split_json_path p) i with
    | Ok fs => (GoFile (with_fields root fs) nested, Ok tt) | Err => (GoFile (with_fields root F) nested, Err) | Panic => (GoFile (with_fields root F) nested, Panic) end).
  { intros p i. unfold walk_func. by rewrite Hn. }
  unfold on_inst at 1. rewrite Hw.
  destruct (add_field W rename true F (split_json_path (path_of σ)) (inst_of r)) as [F1| |]; [|done..]. cbn [rbind] in H. exact (IH F1 H).
Qed.

(** ** types *)
Lemma one_type_in i t x : one_type i t -> x <> "null" -> x ∈ types i <-> x = t.
Proof. intros [H _] Hx. rewrite <- elem_of_list_singleton, <- H, elem_of_list_filter. naive_solver. Qed.
Lemma one_type_has i t x : one_type i t -> x <> "null" -> has_type x i = bool_decide (x = t).
Proof. intros H Hx. unfold has_type. apply bool_decide_ext. by apply (one_type_in i t x). Qed.
Lemma single_ok l a : filter (fun x => x <> "null") l = [] -> single_type l a = Ok a.
Proof.
  intros H. induction l as [|x l IH]; [done|]. rewrite filter_cons in H. destruct (decide (x <> "null")) as [N|N]; [done|].
  cbn. rewrite decide_True; [by apply IH|]. by destruct (decide (x = "null")).
Qed.
Lemma single_one i t : one_type i t -> single_type (types_of i) "" = Ok t.
Proof.
  intros [H Ht]. change (types i) with (types_of i) in H. induction (types_of i) as [|x l IH]; [done|]. rewrite filter_cons in H.
  destruct (decide (x <> "null")) as [N|N]; cbn.
  - rewrite decide_False by done. injection H as -> H. rewrite decide_False by (intros C; by apply C). by apply single_ok.
  - rewrite decide_True; [by apply IH|]. by destruct (decide (x = "null")).
Qed.
Lemma KW_ok r i : d_inst false r = Ok i -> KW r = (true, if has_type "object" i then match n_props i with Some ps => KObj ps | None => KErr end
                   else if has_type "array" i then match n_items i with Some x => KArr x | None => KErr end else KLeaf).
Proof. unfold KW. by intros ->. Qed.
Lemma inst_of_ok r i : d_inst false r = Ok i -> inst_of r = i.
Proof. unfold inst_of. by intros ->. Qed.

(** ** the first call on a place that is not an array *)
Definition start (arr : bool) (fs : list (string * field)) (k : string) (i : instance) (desc name : string) (null : bool) : Prop :=
  if arr then assocd k fs = Some (Field true desc false [] k "" name null [])
  else assocd k fs = None /\ desc = n_desc i /\ name = title (default k (rename k)) /\ null = nullable i.
Definition first_field (arr : bool) (k t : string) (i : instance) (desc name : string) (null : bool) : field :=
  if decide (t = "object") then Field arr desc true [] k "object" name null (n_required i)
  else Field arr desc false [] k (if decide (t = "string" /\ n_format i = "date-time") then "date-time" else t) name null [].
Lemma leaf_first arr fs k i desc name null t : start arr fs k i desc name null -> one_type i t -> t <> "array" ->
  add_leaf W rename true fs k i = Ok (put k (first_field arr k t i desc name null) fs).
Proof.
  intros Hs Ht Hta. unfold add_leaf. rewrite (single_one i t Ht). cbn [rbind]. rewrite (one_type_has i t "string" Ht) by done.
  assert (Hnull : has_type "null" i = nullable i) by done.
  unfold first_field. destruct arr.
  - cbn in Hs. rewrite Hs. cbn [f_array f_type andb]. rewrite bool_decide_eq_true_2 by done. cbn [rbind f_array f_desc f_made f_fields f_json f_type f_name f_null f_req].
    destruct (decide (t = "string" /\ n_format i = "date-time")) as [[-> E]|N].
    + rewrite !bool_decide_eq_true_2 by done. cbn [andb]. done.
    + assert (bool_decide ("string" = t) && bool_decide (n_format i = "date-time") = false) as ->.
      { apply andb_false_iff. destruct (decide (t = "string")) as [->|N']; [right; apply bool_decide_eq_false_2; naive_solver|left; apply bool_decide_eq_false_2; congruence]. }
      rewrite (decide_False (P := t = "array")) by done. destruct (decide (t = "object")) as [->|N']; done.
  - destruct Hs as (Hs & -> & -> & ->). rewrite Hs, Hnull. cbn [rbind f_array f_desc f_made f_fields f_json f_type f_name f_null f_req].
    destruct (decide (t = "string" /\ n_format i = "date-time")) as [[-> E]|N].
    + rewrite !bool_decide_eq_true_2 by done. cbn [andb]. done.
    + assert (bool_decide ("string" = t) && bool_decide (n_format i = "date-time") = false) as ->.
      { apply andb_false_iff. destruct (decide (t = "string")) as [->|N']; [right; apply bool_decide_eq_false_2; naive_solver|left; apply bool_decide_eq_false_2; congruence]. }
      rewrite (decide_False (P := t = "array")) by done. destruct (decide (t = "object")) as [->|N']; done.
Qed.
Lemma array_first fs k i : assocd k fs = None -> one_type i "array" ->
  add_leaf W rename true fs k i = Ok (put k (Field true (n_desc i) false [] k "" (title (default k (rename k))) (nullable i) []) fs).
Proof.
  intros Hs Ht. unfold add_leaf. rewrite (single_one i _ Ht). cbn [rbind]. rewrite (one_type_has i _ "string" Ht) by done. rewrite Hs. done.
Qed.

(** ** writing *)
Lemma trim_j x : trim " " (String "j" x +:+ """" +:+ " ") = String "j" x +:+ """" /\ forall y, trim " " (String "j" x +:+ y +:+ """") = String "j" x +:+ y +:+ """".
Proof.
  unfold trim. split.
  - rewrite sapp_cons. cbn [trim_left]. rewrite decide_False by done. rewrite <- sapp_cons, app_assoc_s.
    rewrite trim_right_all by done. by rewrite trim_right_free by done.
  - intros y. rewrite sapp_cons. cbn [trim_left]. rewrite decide_False by done. rewrite <- sapp_cons, app_assoc_s. by rewrite trim_right_free by done.
Qed.
Definition omit_text (req : bool) (ty : gtype) : string := if req then "" else match ty with TStruct _ | TNamed _ => ",omitzero" | _ => ",omitempty" end.
Lemma tag_gen req nested f ty : omit_tag req nested f = omit_text req ty -> struct_tag A req nested f = tag_text (a_descTag A) (f_desc f) (f_json f) req ty.
Proof.
  intros Ho. unfold struct_tag, tag_text, json_tag. rewrite Ho. fold (omit_text req ty). generalize (f_json f +:+ omit_text req ty). intros x.
  change (in_quotes x) with (quoted x). change newline with nl.
  set (d := hd "" (split (f_desc f) nl)). change (in_quotes d) with (quoted d).
  assert (E : trim " " (("json:" +:+ quoted x) +:+ " " +:+ (if a_descTag A && bool_decide (f_desc f <> "") then "description:" +:+ quoted d else "")) =
    ("json:" +:+ quoted x) +:+ (if a_descTag A && bool_decide (f_desc f <> "") then " description:" +:+ quoted d else "")).
  2: { rewrite E. by rewrite <- ?app_assoc_s. }
  unfold quoted. destruct (a_descTag A && bool_decide (f_desc f <> "")).
  - pose proof (proj2 (trim_j ("son:" +:+ """" +:+ x +:+ """")) (" description:""" +:+ d)) as E. repeat (rewrite sapp_cons in E || rewrite sapp_nil_l in E || rewrite <- app_assoc_s in E); repeat (rewrite sapp_cons || rewrite sapp_nil_l || rewrite <- app_assoc_s); exact E.
  - pose proof (proj1 (trim_j ("son:" +:+ """" +:+ x))) as E. rewrite !sapp_nil_r. repeat (rewrite sapp_cons in E || rewrite sapp_nil_l in E || rewrite <- app_assoc_s in E); repeat (rewrite sapp_cons || rewrite sapp_nil_l || rewrite <- app_assoc_s); exact E.
Qed.
Lemma tag_eq req f ty : omit_tag req [] f = omit_text req ty -> struct_tag A req [] f = tag_text (a_descTag A) (f_desc f) (f_json f) req ty.
Proof. apply tag_gen. Qed.
Lemma comments_eq f : comments A f = comment_text (a_descTag A) (f_desc f).
Proof. done. Qed.

Definition key_order (ord : list string -> list string -> list string) : Prop := forall loc ks, ord loc ks ≡ₚ ks.
Definition good (req : bool) (f : field) (d : gdecl) : Prop :=
  d_go d = f_name f /\ has_time f = uses_time d /\
  forall ord loc prefix, key_order ord -> write_field A ord [] [] loc prefix req f = show (a_descTag A) prefix d.
Definition flat (t : gtype) : Prop := match t with TStruct _ | TNamed _ | TPtr _ | TSlice _ => False | _ => True end.
Definition arrt (arr : bool) (t : gtype) : gtype := if arr then TSlice t else t.
Lemma show_flat dt prefix desc name k req arr null b : flat b ->
  show dt prefix (GDecl desc name k req (Some (arrt arr (ptr null b)))) =
  comment_text dt desc +:+ prefix +:+ name +:+ tabulator +:+ type_text (arrt arr (ptr null b)) +:+ tabulator +:+ tag_text dt desc k req (arrt arr (ptr null b)).
Proof. by destruct arr, null, b. Qed.
Lemma good_flat req arr desc made k t name null reqs b pn : flat b -> t <> "object" ->
  go_type pointers req [] (Field arr desc made [] k t name null reqs) = type_text (arrt arr (ptr pn b)) ->
  (bool_decide (t = "date-time") = match b with TTime => true | _ => false end) ->
  good req (Field arr desc made [] k t name null reqs) (GDecl desc name k req (Some (arrt arr (ptr pn b)))).
Proof.
  intros Hb Ht Hg Hd. split; [done|]. split.
  - cbn [has_time f_fields existsb orb f_type]. rewrite Hd. by destruct b, arr, pn.
  - intros ord loc prefix _. cbn [write_field]. rewrite Hg, comments_eq, show_flat by done. cbn [f_desc]. f_equal.
    rewrite bool_decide_eq_false_2 by apply not_elem_of_nil. rewrite bool_decide_eq_false_2 by (by destruct b, arr, pn). cbn [orb].
    cbn [f_type f_fields f_name]. rewrite bool_decide_eq_true_2 by done. cbn [orb].
    rewrite (tag_eq req _ (arrt arr (ptr pn b))); [done|]. unfold omit_tag, omit_text. cbn [f_array f_null f_fields f_type assocd]. rewrite andb_false_r.
    by destruct req, b, arr, pn.
Qed.
Lemma good_base req arr desc k i t name null b : one_type i t -> base_type t (bool_decide (n_format i = "date-time")) = Some b ->
  good req (first_field arr k t i desc name null) (GDecl desc name k req (Some (arrt arr (ptr null b)))) /\ f_json (first_field arr k t i desc name null) = k /\ t <> "object" /\ t <> "array".
Proof.
  intros Ht Hb. unfold base_type in Hb.
  assert (Hcase : flat b /\ t <> "object" /\ t <> "array" /\ t <> "date-time" /\ ~ (t = "string" /\ n_format i = "date-time") /\ (forall r, go_type pointers r [] (Field arr desc false [] k t name null []) = type_text (arrt arr (ptr null b))) /\ b <> TTime).
  { destruct (decide (t = "boolean")) as [->|N1]; [injection Hb as <-; split_and!; [done..|naive_solver|by destruct arr, null|done]|].
    destruct (decide (t = "number")) as [->|N2]; [injection Hb as <-; split_and!; [done..|naive_solver|by destruct arr, null|done]|].
    destruct (decide (t = "integer")) as [->|N3]; [injection Hb as <-; split_and!; [done..|naive_solver|by destruct arr, null|done]|].
    destruct (decide (t = "string")) as [->|N4]; [|done]. destruct (bool_decide (n_format i = "date-time")) eqn:E; [done|].
    apply bool_decide_eq_false_1 in E. injection Hb as <-; split_and!; [done..|naive_solver|by destruct arr, null|done]. }
  destruct Hcase as (Hf & H1 & H2 & H3 & H4 & H5 & H6). unfold first_field. rewrite decide_False by done. rewrite decide_False by done.
  split_and!; [|done..]. apply good_flat; [done..|]. rewrite bool_decide_eq_false_2 by done. by destruct b.
Qed.
Lemma good_time req arr desc k i name null : n_format i = "date-time" ->
  good req (first_field arr k "string" i desc name null) (GDecl desc name k req (Some (arrt arr (ptr ((pointers && negb req) || null) TTime)))) /\
  f_json (first_field arr k "string" i desc name null) = k.
Proof.
  intros H. unfold first_field. rewrite decide_False by done. rewrite decide_True by done. split; [|done]. apply good_flat; [done..| |done].
  unfold go_type. cbn. by destruct arr, null, (pointers && negb req).
Qed.
Lemma good_map req arr desc made k name null reqs :
  good req (Field arr desc made [] k "object" name null reqs) (GDecl desc name k req (Some (arrt arr (ptr null TMap)))).
Proof.
  split; [done|]. split; [by destruct arr, null|]. intros ord loc prefix _. cbn [write_field].
  rewrite comments_eq, show_flat by done. cbn [f_desc]. f_equal.
  assert (Hg : go_type pointers req [] (Field arr desc made [] k "object" name null reqs) = type_text (arrt arr (ptr null TMap))) by (by destruct arr, null).
  rewrite Hg. rewrite bool_decide_eq_false_2 by apply not_elem_of_nil. rewrite bool_decide_eq_false_2 by (by destruct arr, null). cbn [orb].
  cbn [f_type f_fields f_name]. rewrite orb_true_r.
  rewrite (tag_eq req _ (arrt arr (ptr null TMap))); [done|]. unfold omit_tag, omit_text. cbn [f_array f_null f_fields f_type assocd]. rewrite andb_false_r.
  by destruct req, arr, null.
Qed.
Lemma show_struct_eq dt prefix desc name k req arr null ds :
  show dt prefix (GDecl desc name k req (Some (arrt arr (ptr null (TStruct ds))))) =
  comment_text dt desc +:+ prefix +:+ name +:+ tabulator +:+ type_text (arrt arr (ptr null (TStruct ds))) +:+ " {" +:+ newline +:+
  join "" (map (show dt (prefix +:+ tabulator)) ds) +:+ prefix +:+ tabulator +:+ "}" +:+ tabulator +:+ tag_text dt desc k req (arrt arr (ptr null (TStruct ds))).
Proof. by destruct arr, null. Qed.
Lemma time_struct desc name k req arr null ds :
  uses_time (GDecl desc name k req (Some (arrt arr (ptr null (TStruct ds))))) = existsb uses_time ds.
Proof. by destruct arr, null. Qed.
(** the fields of a struct *)
Definition good_in (reqs : list string) (kf : string * field) (d : gdecl) : Prop :=
  f_json kf.2 = kf.1 /\ good (bool_decide (kf.1 ∈ reqs)) kf.2 d.
Lemma existsb_perm {B} (p : B -> bool) l l' : l ≡ₚ l' -> existsb p l = existsb p l'.
Proof. induction 1 as [|x l l' _ IH|x y l|l l' l'' _ IH _ IH']; cbn; [done|by rewrite IH| |by rewrite IH]. by rewrite !orb_assoc, (orb_comm (p y)). Qed.
Lemma good_time_all reqs L ds : Forall2 (good_in reqs) L ds -> existsb (fun kf => has_time kf.2) L = existsb uses_time ds.
Proof. induction 1 as [|[k f] d L ds [_ (_ & Ht & _)] H IH]; [done|]. cbn in *. by rewrite Ht, IH. Qed.
Lemma good_subs ord loc reqs L ds' ds g tx : key_order ord -> Forall2 (good_in reqs) L ds' -> ds' ≡ₚ ds -> NoDup L.*1 -> NoDup (map d_go ds) ->
  (forall k f d, (k, f) ∈ L -> good_in reqs (k, f) d -> tx k f = g d) ->
  let subs := map (fun kf : string * field => let (k, sub) := kf in (k, (f_name sub, tx k sub))) L in
  join "" (sorted (iterate (ord loc subs.*1) subs)) = join "" (map g (by_name ds)).
Proof.
  intros Hord HL Hp HndL Hnd Htx subs. assert (Hk : subs.*1 = L.*1).
  { unfold subs. clear. induction L as [|[k f] L IH]; [done|]. cbn. by f_equal. }
  assert (Hs2 : subs.*2 = map (fun d => (d_go d, g d)) ds').
  { unfold subs. clear -HL Htx. induction HL as [|[k f] d L ds H HL IH]; [done|]. cbn. rewrite IH.
    - rewrite (Htx k f d); [|left|done]. f_equal. destruct H as [_ [H _]]. by rewrite H.
    - intros k' f' d' Hin. apply Htx. by right. }
  assert (Hi : iterate (ord loc subs.*1) subs ≡ₚ map (fun d => (d_go d, g d)) ds).
  { rewrite iterate_perm; [|by rewrite Hk|apply Hord]. rewrite Hs2. by rewrite Hp. }
  rewrite <- sorted_decls by done. f_equal. apply sorted_perm; [|done].
  rewrite Hi. assert (Hf : forall l, (map (fun d => (d_go d, g d)) l).*1 = map d_go l) by (induction l as [|d l IH]; [done|]; cbn; by f_equal).
  by rewrite Hf.
Qed.
Lemma good_object req arr desc k name null reqs L ds' ds : Forall2 (good_in reqs) L ds' -> ds' ≡ₚ ds -> NoDup L.*1 -> NoDup (map d_go ds) ->
  good req (Field arr desc true L k "object" name null reqs)
    (GDecl desc name k req (Some (arrt arr (ptr null (if decide (length ds = 0) then TMap else TStruct (by_name ds)))))).
Proof.
  intros HL Hp HndL Hnd. destruct (decide (length ds = 0)) as [E|N].
  - apply Permutation_length in Hp. apply Forall2_length in HL. destruct L as [|? L]; [|cbn in HL; lia]. apply good_map.
  - assert (HneL : L <> []). { intros ->. apply Forall2_length in HL. apply Permutation_length in Hp. cbn in HL. lia. }
    split; [done|]. split.
    { rewrite time_struct, (existsb_perm _ _ _ (by_name_perm ds)), <- (existsb_perm _ _ _ Hp), <- (good_time_all _ _ _ HL). cbn [has_time f_fields f_type].
      rewrite bool_decide_eq_false_2 by done. rewrite orb_false_r. clear. induction L as [|[x f] L IH]; [done|]. cbn. by f_equal. }
    intros ord loc prefix Hord. rewrite show_struct_eq. cbn [write_field]. rewrite comments_eq. cbn [f_desc]. f_equal.
    assert (Hg : go_type pointers req [] (Field arr desc true L k "object" name null reqs) = type_text (arrt arr (ptr null (TStruct (by_name ds))))).
    { unfold go_type. cbn. destruct L; [done|]. by destruct arr, null. }
    rewrite Hg. rewrite bool_decide_eq_false_2 by apply not_elem_of_nil. rewrite bool_decide_eq_false_2 by (by destruct arr, null). cbn [orb].
    cbn [f_type f_fields f_name]. rewrite bool_decide_eq_false_2 by (intros C; by apply C). cbn [orb].
    destruct (match L with [] => true | _ => false end) eqn:EL; [by destruct L|].
    rewrite (tag_eq req _ (arrt arr (ptr null (TStruct (by_name ds))))).
    2: { unfold omit_tag, omit_text. cbn [f_array f_null f_fields f_type assocd]. rewrite orb_false_r. destruct L; [done|]. by destruct req, arr, null. }
    cbn [f_desc f_json f_req]. change tab with tabulator. change nl with newline. do 5 f_equal.
    rewrite (good_subs ord loc reqs L ds' ds (show (a_descTag A) (prefix +:+ tabulator))); [done..|].
    intros k' f d Hin [Hj (_ & _ & Hw)]. cbn in Hj, Hw. rewrite Hj. by apply Hw.
Qed.
End gen.

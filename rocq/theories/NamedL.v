(** Struct files when structs are not nested. *)
From stdpp Require Import strings list gmap.
From Coq Require Import Ascii ZArith Lia.
From Verif Require Import GoStr GoStrL Val Conv Schema Inst Load SpecPath PathL SpecWalk WalkL SpecLoad FlatL SpecGen SpecNamed Gen GenL SortL GenP GenM KeyedL.

Scheme nholds_ind2 := Minimality for nholds Sort Prop
  with ndeclares_ind2 := Minimality for ndeclares Sort Prop
  with ndeclares_all_ind2 := Minimality for ndeclares_all Sort Prop.
Combined Scheme ndeclares_mutind from nholds_ind2, ndeclares_ind2, ndeclares_all_ind2.

Lemma capital_not s : capital s -> s ∉ ["boolean"; "number"; "integer"; "string"; "date-time"; "object"; "array"; "null"; "graphql-hydration"; "";
  "bool"; "float64"; "int64"; "time.Time"; "map[string]string"; "struct"; "[]"].
Proof.
  intros (c & s' & -> & Hc1%N.leb_le & Hc2%N.leb_le) H. repeat match type of H with _ ∈ _ :: _ => apply elem_of_cons in H as [H|H]; [first [discriminate H|injection H as H _; rewrite H in Hc1, Hc2; vm_compute in Hc1, Hc2; first [discriminate Hc1|discriminate Hc2]]|] end.
  by apply elem_of_nil in H.
Qed.
Lemma capital_ne s x : capital s -> x ∈ ["boolean"; "number"; "integer"; "string"; "date-time"; "object"; "array"; "null"; "graphql-hydration"; "";
  "bool"; "float64"; "int64"; "time.Time"; "map[string]string"; "struct"; "[]"] -> s <> x.
Proof. intros H Hx ->. by apply capital_not in H. Qed.
Lemma capital_first s x c s' : capital s -> x = String c s' -> (c = "*"%char \/ c = "["%char) -> s <> x.
Proof. intros (d & t & -> & H1%N.leb_le & H2%N.leb_le) -> [-> | ->] [= -> _]; vm_compute in H1, H2; first [discriminate H1|discriminate H2]. Qed.
Lemma capital_app P k : capital P -> capital (P +:+ k).
Proof. intros (c & s & -> & H). exists c, (s +:+ k). by rewrite sapp_cons. Qed.

Section gen.
Context (W : oracles) (A : args) (root_name : string).
Notation rename := (a_fieldNames A).
Notation title := (exported W).
Notation pointers := (a_pointers A).

(** ** the walk *)
Definition gmk (tp : bool) (s : gstruct) (n Q : string) (i : instance) : gstruct := GStruct Q [] (n_required i) [].
Definition gty (s : gstruct) (n Q : string) (i : instance) : string :=
  if (pointers && negb (bool_decide (n ∈ g_req s))) || has_type "null" i then "*" +:+ Q else Q.
Definition as_type (i : instance) (ty : string) : instance := Inst false [] [] (n_desc i) None false "" "" [] None [] None "" [] "" "" (Some [ty]).
Definition gfld (tp : bool) (s : gstruct) (n Q : string) (i : instance) : res gstruct :=
  rbind (add_field W rename true (g_fields s) [n] (if has_type "object" i then as_type i (gty s n Q i) else i)) (fun fs => Ok (with_fields s fs)).
Notation K0 := (title root_name).
Notation visit := (visit title K0 gmk gfld).
Definition to_file (st : @state gstruct) : gofile := GoFile st.1 st.2.
Lemma visit_eq p i (st : @state gstruct) : a_noNested A = true -> g_name st.1 = root_name ->
  walk_func W A p i (to_file st) = let (st', e) := visit p i st in (to_file st', e).
Proof.
  intros Hn Hr. destruct st as [r n]. cbn in Hr. subst. unfold walk_func, KeyedL.visit, step. rewrite Hn. cbn [negb to_file gf_root gf_nested fst snd].
  destruct (List.rev (split_json_path p)) as [|name ?]; [done|]. unfold cur, top, key, gfld. cbn [fst snd].
  set (P := join "" (removelast _)). set (Q := join "" (_ :: _)). unfold upd. cbn [fst snd].
  destruct (assocd P n) as [s|] eqn:EP; cbn [default from_option id];
    destruct (has_type "object" i) eqn:Ho; cbn [fst snd]; destruct (add_field W rename true _ [name] _) as [fs| |] eqn:E; unfold as_type, gty in E; cbn in E; rewrite ?E; cbn;
    unfold as_type, gty; cbn; rewrite ?E; cbn; done.
Qed.
Lemma gfld_name tp s n Q i s' : g_name s = root_name -> gfld tp s n Q i = Ok s' -> g_name s' = root_name.
Proof. intros H. unfold gfld. destruct (add_field _ _ _ _ _ _); [|done..]. by intros [= <-]. Qed.

(** ** writing *)
(** what the structs of a file must be like for the fields declared with the structs [Ss] *)
Definition cons (nested : list (string * gstruct)) (excl : list string) (Ss : gstructs) : Prop :=
  (forall k, k ∈ nested.*1 -> capital k) /\ (forall k, k ∈ excl -> capital k) /\
  forall Q ds, (Q, ds) ∈ Ss -> exists g, assocd Q nested = Some g /\ (g_fields g = [] <-> ds = []) /\ (Q ∈ excl <-> ds = []).
Lemma cons_sub nested excl Ss Ss' : (forall x, x ∈ Ss' -> x ∈ Ss) -> cons nested excl Ss -> cons nested excl Ss'.
Proof. intros Hs (H1 & H2 & H3). split_and!; [done..|]. intros Q ds H. by apply H3, Hs. Qed.
Definition ngood (nested : list (string * gstruct)) (excl : list string) (req : bool) (f : field) (d : gdecl) : Prop :=
  d_go d = f_name f /\ has_time f = uses_time d /\
  forall ord loc prefix, write_field A ord excl nested loc prefix req f = show (a_descTag A) prefix d.
Lemma not_named nested excl Ss x : cons nested excl Ss -> ~ capital x -> assocd x nested = None /\ bool_decide (x ∈ excl) = false.
Proof.
  intros (H1 & H2 & _) Hx. split; [|apply bool_decide_eq_false_2; by intros H%H2]. apply assocd_none. by intros H%H1.
Qed.
Definition leafy (t : gtype) : Prop := match t with TStruct _ | TPtr _ | TSlice _ => False | _ => True end.
Lemma show_line dt prefix desc name k req arr null b : leafy b ->
  show dt prefix (GDecl desc name k req (Some (arrt arr (ptr null b)))) =
  comment_text dt desc +:+ prefix +:+ name +:+ tabulator +:+ type_text (arrt arr (ptr null b)) +:+ tabulator +:+ tag_text dt desc k req (arrt arr (ptr null b)).
Proof. by destruct arr, null, b. Qed.
Lemma ngood_line nested excl req arr desc made k t name null reqs b pn : leafy b ->
  go_type pointers req nested (Field arr desc made [] k t name null reqs) = type_text (arrt arr (ptr pn b)) ->
  type_text (arrt arr (ptr pn b)) ∉ excl -> type_text (arrt arr (ptr pn b)) <> "[]" ->
  omit_tag req nested (Field arr desc made [] k t name null reqs) = omit_text req (arrt arr (ptr pn b)) ->
  (bool_decide (t = "date-time") = match b with TTime => true | _ => false end) ->
  ngood nested excl req (Field arr desc made [] k t name null reqs) (GDecl desc name k req (Some (arrt arr (ptr pn b)))).
Proof.
  intros Hb Hg He H0 Ho Hd. split; [done|]. split.
  - cbn [has_time f_fields existsb orb f_type]. rewrite Hd. by destruct b, arr, pn.
  - intros ord loc prefix. cbn [write_field]. rewrite Hg, comments_eq, show_line by done. cbn [f_desc]. f_equal.
    rewrite bool_decide_eq_false_2 by done. rewrite bool_decide_eq_false_2 by done. cbn [orb].
    cbn [f_type f_fields f_name]. rewrite orb_true_r. by rewrite (tag_gen A req nested _ (arrt arr (ptr pn b))).
Qed.
(** types that are not struct names *)
Lemma not_capital x : x ∈ ["boolean"; "number"; "integer"; "string"; "date-time"; "object"; "array"; "null"; "graphql-hydration"; "";
  "bool"; "float64"; "int64"; "time.Time"; "map[string]string"; "struct"; "[]"] -> ~ capital x.
Proof. intros Hx H. by apply (capital_ne x x). Qed.
Lemma not_capital_first c s : (c = "*"%char \/ c = "["%char) -> ~ capital (String c s).
Proof. intros Hc H. by eapply capital_first. Qed.
Lemma text_not_capital arr pn b : flat b -> ~ capital (type_text (arrt arr (ptr pn b))).
Proof. intros Hb. destruct arr; [apply not_capital_first; by right|]. destruct pn; [apply not_capital_first; by left|]. apply not_capital. destruct b; try done; set_solver. Qed.
Lemma ngood_flat nested excl Ss req arr desc k t name null b pn : cons nested excl Ss -> flat b -> t ∈ ["boolean"; "number"; "integer"; "string"; "date-time"] ->
  go_type pointers req [] (Field arr desc false [] k t name null []) = type_text (arrt arr (ptr pn b)) ->
  (bool_decide (t = "date-time") = match b with TTime => true | _ => false end) ->
  ngood nested excl req (Field arr desc false [] k t name null []) (GDecl desc name k req (Some (arrt arr (ptr pn b)))).
Proof.
  intros Hc Hb Ht Hg Hd.
  assert (Hn : assocd t nested = None). { apply (not_named _ _ _ t Hc). apply not_capital. set_solver. }
  apply ngood_line; [by destruct b| | | | |done].
  - rewrite <- Hg. unfold go_type. cbn [f_array f_type f_null f_fields]. rewrite Hn. done.
  - destruct (not_named _ _ _ (type_text (arrt arr (ptr pn b))) Hc (text_not_capital _ _ _ Hb)) as [_ H]. by apply bool_decide_eq_false_1 in H.
  - by destruct arr, pn, b.
  - unfold omit_tag, omit_text. cbn [f_array f_null f_fields f_type]. rewrite Hn. cbn [orb]. rewrite andb_false_r. by destruct req, b, arr, pn.
Qed.
Lemma base_go req arr desc k i t name null b : base_type t (bool_decide (n_format i = "date-time")) = Some b ->
  flat b /\ t ∈ ["boolean"; "number"; "integer"; "string"; "date-time"] /\ ~ (t = "string" /\ n_format i = "date-time") /\
  go_type pointers req [] (Field arr desc false [] k t name null []) = type_text (arrt arr (ptr null b)) /\
  bool_decide (t = "date-time") = match b with TTime => true | _ => false end.
Proof.
  intros Hb. unfold base_type in Hb.
  destruct (decide (t = "boolean")) as [->|N1]; [injection Hb as <-; split_and!; [done|set_solver|naive_solver|by destruct arr, null|done]|].
  destruct (decide (t = "number")) as [->|N2]; [injection Hb as <-; split_and!; [done|set_solver|naive_solver|by destruct arr, null|done]|].
  destruct (decide (t = "integer")) as [->|N3]; [injection Hb as <-; split_and!; [done|set_solver|naive_solver|by destruct arr, null|done]|].
  destruct (decide (t = "string")) as [->|N4]; [|done]. destruct (bool_decide (n_format i = "date-time")) eqn:E; [done|].
  apply bool_decide_eq_false_1 in E. injection Hb as <-; split_and!; [done|set_solver|naive_solver|by destruct arr, null|done].
Qed.
(** struct names *)
Lemma ngood_named nested excl Ss req arr desc k Q name null ds pn : cons nested excl Ss -> capital Q -> (Q, ds) ∈ Ss -> ds <> [] ->
  (arr = false -> null = false) ->
  ngood nested excl req (Field arr desc false [] k (if pn : bool then "*" +:+ Q else Q) name null []) (GDecl desc name k req (Some (arrt arr (ptr pn (TNamed Q))))).
Proof.
  intros Hc HQ Hin Hds Hnl. destruct Hc as (H1 & H2 & H3). destruct (H3 _ _ Hin) as (g & Hg & Hgf & Hex).
  assert (Hgne : g_fields g <> []) by (by rewrite Hgf).
  assert (Hstar : assocd ("*" +:+ Q) nested = None). { apply assocd_none. intros H%H1. by apply (not_capital_first "*"%char Q ltac:(by left)). }
  assert (Hne : forall x, x ∈ ["boolean"; "number"; "integer"; "string"; "date-time"; "object"; "array"; "null"; "graphql-hydration"; "";
    "bool"; "float64"; "int64"; "time.Time"; "map[string]string"; "struct"; "[]"] -> Q <> x) by (intros x; by apply capital_ne).
  assert (Hty : go_type pointers req nested (Field arr desc false [] k (if pn then "*" +:+ Q else Q) name null []) = type_text (arrt arr (ptr pn (TNamed Q)))).
  { unfold go_type. cbn [f_array f_type f_null f_fields]. destruct pn.
    - rewrite Hstar. by destruct arr.
    - rewrite !decide_False by (apply Hne; set_solver). rewrite Hg. destruct (g_fields g); [done|]. by destruct arr. }
  apply ngood_line; [done|done| | | |].
  - destruct arr; [intros H%H2; by apply (not_capital_first "["%char _ ltac:(by right) H)|]. destruct pn; [intros H%H2; by apply (not_capital_first "*"%char _ ltac:(by left) H)|].
    cbn. by rewrite Hex.
  - destruct arr, pn; cbn; [done| | |]; [|done|]; [intros [= E]; eapply (Hne ""); [set_solver|done]|]. apply Hne. set_solver.
  - unfold omit_tag, omit_text. cbn [f_array f_null f_fields f_type]. destruct req; [done|]. destruct arr; [by destruct pn|]. rewrite (Hnl eq_refl). destruct pn; [by rewrite Hstar|].
    rewrite Hg. destruct (g_fields g); done.
  - apply bool_decide_eq_false_2. destruct pn; [done|]. apply Hne. set_solver.
Qed.
Lemma ngood_map nested excl Ss req arr desc k Q name null : cons nested excl Ss -> capital Q -> (Q, []) ∈ Ss ->
  ngood nested excl req (Field arr desc false [] k Q name null []) (GDecl desc name k req (Some (arrt arr (ptr null TMap)))).
Proof.
  intros Hc HQ Hin. assert (Hc' := Hc). destruct Hc' as (H1 & H2 & H3). destruct (H3 _ _ Hin) as (g & Hg & Hgf & Hex).
  assert (Hge : g_fields g = []) by (by rewrite Hgf).
  assert (Hne : forall x, x ∈ ["boolean"; "number"; "integer"; "string"; "date-time"; "object"; "array"; "null"; "graphql-hydration"; "";
    "bool"; "float64"; "int64"; "time.Time"; "map[string]string"; "struct"; "[]"] -> Q <> x) by (intros x; by apply capital_ne).
  apply ngood_line; [done| | | | |].
  - unfold go_type. cbn [f_array f_type f_null f_fields]. rewrite !decide_False by (apply Hne; set_solver). rewrite Hg, Hge. by destruct arr, null.
  - destruct (not_named _ _ _ (type_text (arrt arr (ptr null TMap))) Hc (text_not_capital _ _ TMap I)) as [_ H]. by apply bool_decide_eq_false_1 in H.
  - by destruct arr, null.
  - unfold omit_tag, omit_text. cbn [f_array f_null f_fields f_type]. rewrite Hg, Hge. cbn [orb]. rewrite andb_false_r. by destruct req, arr, null.
  - apply bool_decide_eq_false_2. apply Hne. set_solver.
Qed.
Lemma ngood_none nested excl Ss req desc k name null : cons nested excl Ss ->
  ngood nested excl req (Field true desc false [] k "" name null []) (GDecl desc name k req None).
Proof.
  intros Hc. split; [done|]. split; [done|]. intros ord loc prefix. cbn [write_field show]. rewrite comments_eq. cbn [f_desc].
  assert (Hn : assocd "" nested = None). { apply (not_named _ _ _ "" Hc). apply not_capital. set_solver. }
  assert (Hg : go_type pointers req nested (Field true desc false [] k "" name null []) = "[]"). { unfold go_type. cbn [f_array f_type f_null f_fields]. by rewrite Hn. }
  rewrite Hg. by rewrite (bool_decide_eq_true_2 ("[]" = "[]")), orb_true_r by done.
Qed.
End gen.

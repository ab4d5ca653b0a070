(** GraphQL types: what each property adds to the type it is in. *)
From stdpp Require Import strings list gmap.
From Coq Require Import Ascii ZArith Lia.
From Verif Require Import GoStr GoStrL Val Conv Schema Inst Load SpecPath PathL SpecWalk WalkL SpecLoad FlatL SpecGen SpecGql Gen Avro Gql GenL SortL GenP GenM KeyedL NamedT GqlL.

Section gql.
Context (W : oracles) (o_quote o_trim : string -> string) (A : gargs) (root_name : string).
Notation rename := (a_fieldNames (ga A)).
Notation types_map := (ga_types A).
Notation title := (exported W).
Notation pointers := (a_pointers (ga A)).
Notation quote := (q o_quote).
Notation trim := (trim_space o_trim).
Notation import := (ga_import A).
Notation K0 := (title root_name).
Notation does := (does title K0 (qmk W A) (qfld W A)).
Notation does_value := (does_value title K0 (qmk W A) (qfld W A)).
Notation qgood := (qgood o_quote o_trim A).
Notation free_decl := (free_decl o_quote o_trim).
Notation setk := GqlL.setk.

(** [s] with the fields [L], in the order [o], of which [T] are required *)
Definition grow (s : qobj) (L : list (string * qfield)) (o T : list string) : qobj :=
  with_field s (QField (set_req (Some (T ++ default [] (q_req (o_info s)))) (set_order (q_order (o_info s) ++ o) (o_info s))) (q_fields (o_field s) ++ L)).
Lemma grow_grow s L o T L' o' T' : grow (grow s L o T) L' o' T' = grow s (L ++ L') (o ++ o') (T' ++ T).
Proof. unfold grow, with_field, o_info, set_req, set_order. cbn. by rewrite <- !app_assoc. Qed.
Lemma grow_nil s : ready s -> grow s [] [] [] = s.
Proof.
  intros [_ [r Hr]]. unfold grow, with_field, o_info, set_req, set_order in *. rewrite Hr. cbn. rewrite !app_nil_r. destruct s as [b [[] fs]]. cbn in *. by rewrite Hr.
Qed.
Lemma grow_ready s L o T : ready s -> ready (grow s L o T).
Proof. intros [Hm _]. split; [exact Hm|by eexists]. Qed.
(** what is the same before and after *)
Definition prefix_of (tp : bool) (s : qobj) : string := if tp then title (q_json (o_info s)) else q_json (o_info s).
Definition place (tp : bool) (G : string) (dd : bool) (s : qobj) : Prop := ready s /\ prefix_of tp s = G /\ dead s = dd.
Lemma grow_place tp G dd s L o T : place tp G dd s -> place tp G dd (grow s L o T).
Proof. intros (Hr & Hp & Hd). split; [by apply grow_ready|]. by destruct tp. Qed.
Lemma type_name_eq tp G dd s k : place tp G dd s -> type_name W A tp s k = sub_type title types_map G k.
Proof. intros (_ & <- & _). unfold type_name, sub_type, prefix_of. done. Qed.
Lemma setk_grow s k f : ready s -> assocd k (q_fields (o_field s)) = None -> setk s k f = grow s [(k, f)] [k] [].
Proof.
  intros [_ [r Hr]] Hn. unfold GqlL.setk, grow. f_equal. rewrite put_new by done. f_equal. unfold o_info, set_req, set_order in *. rewrite Hr. done.
Qed.
Lemma put_last {B} k (v v' : B) l : assocd k l = None -> put k v' (l ++ [(k, v)]) = l ++ [(k, v')].
Proof. intros H. induction l as [|[x y] l IH]; cbn in *; [by rewrite decide_True|]. destruct (decide (x = k)) as [->|N]; [done|]. by rewrite IH. Qed.
Lemma put_app_new {B} k (v : B) l l' : assocd k l = None -> put k v (l ++ l') = l ++ put k v l'.
Proof. intros H. induction l as [|[x y] l IH]; cbn in *; [done|]. destruct (decide (x = k)) as [->|N]; [done|]. by rewrite IH. Qed.
Lemma array_grow s t k tf f0 f : ready s -> assocd t (q_fields (o_field s)) = None -> assocd k (q_fields (o_field s)) = None -> t <> k ->
  setk (setk (setr (setk s t tf) t) k f0) k f = grow s [(t, tf); (k, f)] [t; k; k] [t].
Proof.
  intros [_ [r Hr]] Ht Hk Htk. unfold GqlL.setk, setr, grow. cbn [with_field o_field q_fields o_info q_info on_info]. f_equal. rewrite put_put. rewrite (put_new t) by done.
  rewrite (put_new k). 2:{ rewrite assocd_app, Hk. cbn. by rewrite decide_False. }
  rewrite <- app_assoc. cbn [app]. f_equal. unfold o_info, set_req, set_order, on_info, with_field. cbn. by rewrite <- !app_assoc.
Qed.
Lemma array_setk s t k tf f0 : ready s -> assocd t (q_fields (o_field s)) = None -> assocd k (q_fields (o_field s)) = None -> t <> k ->
  setk (setr (setk s t tf) t) k f0 = grow s [(t, tf); (k, f0)] [t; k] [t].
Proof.
  intros [_ [r Hr]] Ht Hk Htk. unfold GqlL.setk, setr, grow. cbn [with_field o_field q_fields o_info q_info on_info]. f_equal. rewrite (put_new t) by done.
  rewrite (put_new k). 2:{ rewrite assocd_app, Hk. cbn. by rewrite decide_False. }
  rewrite <- app_assoc. cbn [app]. f_equal. unfold o_info, set_req, set_order, on_info, with_field. cbn. by rewrite <- !app_assoc.
Qed.

(** a type as written *)
Definition qsm (n : string * qobj) (s : qstruct) : Prop :=
  n.1 = qs_key s /\ q_name (o_info n.2) = qs_key s /\ dead n.2 = qs_dead s /\
  (qs_dead s = false -> forall ord, key_order ord -> q_write_obj W o_quote o_trim A ord n.2 = show_type title quote trim import "type" "" s).
Definition structs_match (N : list (string * qobj)) (Ss : list qstruct) : Prop := exists N', N' ≡ₚ N /\ Forall2 qsm N' Ss.
Definition keys (Ss : list qstruct) : list string := map qs_key Ss.

(** ** items *)
Definition vitem (tp arr : bool) (G : string) (dd : bool) (k : string) (r : tree) (i : instance) (req : bool)
    (desc name : string) (args : list string) (target : string) (null : bool) (t : qtype) (Ss : list qstruct) : item :=
  Item k r (keys Ss)
    (fun s => place tp G dd s /\ qstart W A arr s k i desc name args target null /\ is_req (q_req (o_info s)) k = req)
    (fun s s' N => exists f, s' = setk s k f /\ qgood f (QDecl desc name k args t) /\ structs_match N Ss).
Record ent := Ent { e_k : string; e_r : tree; e_ds : list qdecl; e_S : list qstruct }.
Definition e_names (e : ent) : list string := map qd_json (e_ds e).
Definition good_at (kf : string * qfield) (d : qdecl) : Prop := kf.1 = qd_json d /\ qgood kf.2 d.
Definition pitem (tp : bool) (G : string) (dd : bool) (req : bool) (e : ent) : item :=
  Item (e_k e) (e_r e) (keys (e_S e))
    (fun s => place tp G dd s /\ (forall n, n ∈ e_names e -> assocd n (q_fields (o_field s)) = None) /\ NoDup (e_names e) /\ is_req (q_req (o_info s)) (e_k e) = req)
    (fun s s' N => exists L o T, s' = grow s L o T /\ Forall2 good_at L (e_ds e) /\ (forall n, n ∈ o <-> n ∈ e_names e) /\
       (forall n, n ∈ T -> n ∈ e_names e /\ n <> e_k e) /\ (forall d, d ∈ e_ds e -> qd_json d ∈ T -> free_decl d) /\ structs_match N (e_S e)).
Definition ritem (tp : bool) (G : string) (dd : bool) (reqs : list string) (e : ent) : item := pitem tp G dd (bool_decide (e_k e ∈ reqs)) e.

Lemma ritem_keys tp G dd reqs es : map (ritem tp G dd reqs) es ≫= it_keys = keys (es ≫= e_S).
Proof. induction es as [|e es IH]; [done|]. cbn. unfold keys. rewrite map_app. f_equal. exact IH. Qed.
Lemma ritem_pairs tp G dd reqs es : map pair_of (map (ritem tp G dd reqs) es) = map (fun e => (e_k e, e_r e)) es.
Proof. rewrite map_map. done. Qed.
Lemma good_names L ds : Forall2 good_at L ds -> L.*1 = map qd_json ds.
Proof. induction 1 as [|kf d L ds [H _] HF IH]; [done|]. cbn. by rewrite H, IH. Qed.
Lemma is_req_app T r k : is_req (Some (T ++ default [] r)) k = bool_decide (k ∈ T) || is_req r k.
Proof.
  clear.
  unfold is_req. cbn. destruct (bool_decide (k ∈ default [] r)) eqn:E.
  - apply bool_decide_eq_true_1 in E. rewrite orb_true_r. apply bool_decide_eq_true_2. apply elem_of_app. by right.
  - apply bool_decide_eq_false_1 in E. rewrite orb_false_r. apply bool_decide_ext. rewrite elem_of_app. naive_solver.
Qed.
Lemma ritem_step tp G dd reqs e s s' N : it_R (ritem tp G dd reqs e) s s' N ->
  (place tp G dd s -> place tp G dd s') /\ (forall n, n ∉ e_names e -> assocd n (q_fields (o_field s')) = assocd n (q_fields (o_field s)) /\ is_req (q_req (o_info s')) n = is_req (q_req (o_info s)) n).
Proof.
  cbn. intros (L & o & T & -> & HL & _ & HT & _ & _). split; [by apply grow_place|]. intros n Hn. split.
  - cbn. rewrite assocd_app. destruct (assocd n (q_fields (o_field s))); [done|]. apply assocd_none. by rewrite (good_names _ _ HL).
  - change (q_req (o_info (grow s L o T))) with (Some (T ++ default [] (q_req (o_info s)))). rewrite is_req_app. rewrite bool_decide_eq_false_2; [done|]. intros H. apply Hn. by apply HT.
Qed.
Lemma perm_two {B} (l : list B) a b l' (R : B -> B -> Prop) : l ≡ₚ a :: b :: l' -> ForallOrdPairs R l -> (forall x y, R x y -> R y x) -> R a b.
Proof.
  intros Hp HF Hs. assert (H : ForallOrdPairs R (a :: b :: l')).
  { revert HF. clear -Hp Hs. remember (a :: b :: l') as m eqn:E. clear E a b l'. induction Hp as [|x l l' Hp IH|x y l|l1 l2 l3 H1 IH1 H2 IH2]; intros HF.
    - constructor.
    - inversion HF; subst. constructor; [|by apply IH]. by rewrite <- Hp.
    - inversion HF as [|? ? Hx HF']; subst. inversion HF' as [|? ? Hy HF'']; subst. apply Forall_cons in Hx as [Hxy Hx]. constructor; [constructor; [by apply Hs|done]|by constructor].
    - by apply IH2, IH1. }
  inversion H as [|? ? Hx _]; subst. by apply Forall_cons in Hx as [? _].
Qed.
Definition apart (e e' : ent) : Prop := (forall n, n ∈ e_names e -> n ∉ e_names e').
Definition own (e : ent) : Prop := e_k e ∈ e_names e.
Lemma names_apart es : NoDup (es ≫= e_names) -> ForallOrdPairs apart es.
Proof.
  induction es as [|e es IH]; [constructor|]. cbn. intros (H1 & H2 & H3)%NoDup_app. constructor; [|by apply IH].
  apply Forall_forall. intros e' He' n Hn Hn'. eapply H2; [exact Hn|]. apply elem_of_list_bind. by exists e'.
Qed.
Lemma ritem_compat tp G dd reqs es : NoDup (es ≫= e_names) -> Forall own es -> compat (map (ritem tp G dd reqs) es).
Proof.
  intros Hnd Hown a b l Hl s s' N Hb Ha. apply names_apart in Hnd.
  apply Permutation_sym in Hl as Hl'. apply Permutation_map_inv in Hl' as (es' & E & Hes').
  destruct es' as [|ea [|eb es']]; [done|done|]. cbn [map] in E. injection E as -> -> _.
  assert (Hap : apart ea eb). { eapply (perm_two es ea eb es' apart); [exact Hes'|done|]. intros x y H n Hn Hn'. by eapply H. }
  rewrite Hes' in Hown. apply Forall_cons in Hown as [_ Hown]. apply Forall_cons in Hown as [Hob _].
  apply ritem_step in Ha as [Hpl Hst]. cbn in Hb |- *. destruct Hb as (H1 & H2 & H3 & H4). split_and!; [by apply Hpl| |done|].
  - intros n Hn. rewrite (proj1 (Hst n ltac:(intros H; by eapply Hap))). by apply H2.
  - rewrite (proj2 (Hst (e_k eb) ltac:(intros H; by eapply Hap))). done.
Qed.
(** what a list of properties does *)
Lemma structs_app N N' Ss Ss' : structs_match N Ss -> structs_match N' Ss' -> structs_match (N ++ N') (Ss ++ Ss').
Proof. intros (M & HM & HF) (M' & HM' & HF'). exists (M ++ M'). split; [by rewrite HM, HM'|by apply Forall2_app]. Qed.
Lemma structs_perm N N' Ss Ss' : N ≡ₚ N' -> Ss ≡ₚ Ss' -> structs_match N Ss -> structs_match N' Ss'.
Proof. intros HN HS (M & HM & HF). destruct (Forall2_perm _ _ _ HS _ HF) as (M' & HM' & HF'). exists M'. split; [by rewrite HM', HM|done]. Qed.
Lemma chain_fields tp G dd reqs es s s' N : place tp G dd s -> NoDup (es ≫= e_names) -> chain (map (ritem tp G dd reqs) es) s s' N ->
  exists L o T, s' = grow s L o T /\ Forall2 good_at L (es ≫= e_ds) /\ (forall n, n ∈ o <-> n ∈ es ≫= e_names) /\
    (forall n, n ∈ T -> n ∈ es ≫= e_names) /\ (forall d, d ∈ es ≫= e_ds -> qd_json d ∈ T -> free_decl d) /\ structs_match N (es ≫= e_S).
Proof.
  revert s N. induction es as [|e es IH]; intros s N Hpl Hnd Hc; cbn [map chain] in Hc.
  - destruct Hc as [-> ->]. exists [], [], []. rewrite grow_nil by apply Hpl. cbn [mbind list_bind]. split_and!; [done|constructor|done|done|intros d H; by apply elem_of_nil in H|by exists []].
  - destruct Hc as (s1 & N1 & N2 & HR & Hc & ->). cbn [mbind list_bind] in Hnd |- *. apply NoDup_app in Hnd as (Hnd1 & Hdis & Hnd2).
    assert (Hpl' : place tp G dd s1) by (by apply (ritem_step _ _ _ _ _ _ _ _ HR)).
    destruct (IH s1 N2 Hpl' Hnd2 Hc) as (L & o & T & -> & HL & Ho & HT & Hf & HN). clear IH.
    cbn [it_R ritem pitem] in HR. destruct HR as (L1 & o1 & T1 & -> & HL1 & Ho1 & HT1 & Hf1 & HN1).
    exists (L1 ++ L), (o1 ++ o), (T ++ T1). rewrite grow_grow.
    assert (Hin : forall d, d ∈ es ≫= e_ds -> qd_json d ∈ es ≫= e_names).
    { intros d Hd. apply elem_of_list_bind in Hd as (e' & Hd & He'). apply elem_of_list_bind. exists e'. split; [|done]. apply elem_of_list_fmap. by exists d. }
    assert (Hin1 : forall d, d ∈ e_ds e -> qd_json d ∈ e_names e). { intros d Hd. apply elem_of_list_fmap. by exists d. }
    split_and!; [done|by apply Forall2_app| | | |by apply structs_app].
    + intros n. rewrite !elem_of_app. by rewrite Ho, Ho1.
    + intros n. rewrite !elem_of_app. intros [H|H]; [right; by apply HT|left; by apply HT1].
    + intros d. rewrite !elem_of_app. intros [Hd|Hd] [H|H].
      * exfalso. eapply Hdis; [by apply Hin1|by apply HT].
      * by apply Hf1.
      * by apply Hf.
      * exfalso. eapply (Hdis (qd_json d)); [by apply HT1|by apply Hin].
Qed.
(** ** a type of such fields *)
Lemma insert_qdecl_key d l : map qd_go (insert_qdecl d l) = insert_sorted (qd_go d) (map qd_go l).
Proof. induction l as [|x l IH]; [done|]. cbn. destruct (str_le (qd_go d) (qd_go x)); [done|]. cbn. by f_equal. Qed.
Lemma fields_by_name_key l : map qd_go (fields_by_name l) = sort_strings (map qd_go l).
Proof. induction l as [|d l IH]; [done|]. cbn [fields_by_name foldr]. fold (fields_by_name l). rewrite insert_qdecl_key, IH. done. Qed.
Lemma insert_qdecl_perm d l : insert_qdecl d l ≡ₚ d :: l.
Proof. induction l as [|x l IH]; [done|]. cbn. destruct (str_le (qd_go d) (qd_go x)); [done|]. rewrite IH. apply Permutation_swap. Qed.
Lemma fields_by_name_perm l : fields_by_name l ≡ₚ l.
Proof. induction l as [|x l IH]; [done|]. cbn [fields_by_name foldr]. fold (fields_by_name l). rewrite insert_qdecl_perm. by apply Permutation_skip. Qed.
Lemma sorted_qdecls {B} (f : qdecl -> B) ds : NoDup (map qd_go ds) -> sorted (map (fun d => (qd_go d, f d)) ds) = map f (fields_by_name ds).
Proof.
  intros Hnd. unfold sorted. assert (Hf : forall l, (map (fun d => (qd_go d, f d)) l).*1 = map qd_go l).
  { induction l as [|d l IH]; [done|]. cbn. by f_equal. }
  rewrite Hf, <- fields_by_name_key.
  assert (H : forall l, (forall d, d ∈ l -> d ∈ ds) -> flat_map (fun k => last_named k (map (fun d => (qd_go d, f d)) ds) []) (map qd_go l) = map f l).
  { induction l as [|d l IH]; intros Hl; [done|]. cbn. rewrite last_named_one by (by rewrite Hf). rewrite (assocd_in (qd_go d) (f d)).
    - cbn. f_equal. apply IH. intros d' Hd'. apply Hl. by right.
    - by rewrite Hf.
    - apply elem_of_list_fmap. exists d. split; [done|]. apply Hl. left. }
  apply H. intros d. by rewrite fields_by_name_perm.
Qed.
Lemma fields_text {B} ord loc L ds' ds (g : qdecl -> B) (tx : qfield -> B) : key_order ord -> Forall2 good_at L ds' -> ds' ≡ₚ ds -> NoDup (map qd_json ds) -> NoDup (map qd_go ds) ->
  (forall k f d, (k, f) ∈ L -> d ∈ ds' -> good_at (k, f) d -> tx f = g d) ->
  let subs := map (fun kf : string * qfield => let (k, sub) := kf in (k, (q_name (q_info sub), tx sub))) L in
  sorted (iterate (ord loc subs.*1) subs) = map g (fields_by_name ds).
Proof.
  intros Hord HL Hp HndL Hnd Htx subs. assert (Hk : subs.*1 = L.*1).
  { unfold subs. clear. induction L as [|[k f] L IH]; [done|]. cbn. by f_equal. }
  assert (Hs2 : subs.*2 = map (fun d => (qd_go d, g d)) ds').
  { unfold subs. clear -HL Htx. induction HL as [|[k f] d L ds H HL IH]; [done|]. cbn. rewrite IH.
    - rewrite (Htx k f d); [|left|left|done]. destruct H as (_ & _ & Hn & _). cbn in Hn. by rewrite Hn.
    - intros k' f' d' Hin Hin'. apply Htx; by right. }
  assert (Hi : iterate (ord loc subs.*1) subs ≡ₚ map (fun d => (qd_go d, g d)) ds).
  { rewrite iterate_perm; [|by rewrite Hk, (good_names _ _ HL), Hp|apply Hord]. rewrite Hs2. by rewrite Hp. }
  rewrite <- sorted_qdecls by done. apply sorted_perm; [|done].
  rewrite Hi. assert (Hf : forall l, (map (fun d => (qd_go d, g d)) l).*1 = map qd_go l) by (induction l as [|d l IH]; [done|]; cbn; by f_equal).
  by rewrite Hf.
Qed.
Lemma virtual_all L ds : Forall2 good_at L ds -> existsb (fun kf : string * qfield => bool_decide (q_type (q_info kf.2) <> "graphql-hydration")) L = existsb (fun d => negb (is_virtual d)) ds.
Proof. induction 1 as [|[k f] d L ds (_ & _ & _ & Ht & _) H IH]; [done|]. cbn [existsb]. rewrite IH. cbn [snd] in *. by rewrite Ht. Qed.
(** [L] are the fields of [o], declared by [ds'] *)
Lemma obj_text ord o L (T : list string) reqs ds' ds S : key_order ord -> q_fields (o_field o) = L -> (forall n, is_req (q_req (o_info o)) n = bool_decide (n ∈ T) || bool_decide (n ∈ reqs)) -> Forall2 good_at L ds' -> ds' ≡ₚ ds ->
  NoDup (map qd_json ds) -> NoDup (map qd_go ds) -> (forall d, d ∈ ds' -> qd_json d ∈ T -> free_decl d) ->
  S = QStruct (q_name (o_info o)) (q_json (o_info o)) (q_desc (o_info o)) (dead o) reqs (fields_by_name ds) ->
  q_write_obj W o_quote o_trim A ord o = show_type title quote trim import (o_build o) (q_impl (o_info o)) S.
Proof.
  intros Hord HoL Hr HL Hp Hndj Hndg HT ->. unfold q_write_obj, show_type. cbn [qs_desc qs_name qs_fields qs_req qs_key]. rewrite HoL. cbn zeta.
  assert (Hc : (if decide (q_desc (o_info o) = "") then "" else q_comment "" (q_desc (o_info o))) = description_text "" (q_desc (o_info o))).
  { destruct (decide (q_desc (o_info o) = "")) as [E|E]; [|by apply comment_eq]. unfold description_text. by rewrite decide_True. }
  rewrite Hc. rewrite (virtual_all _ _ HL), (existsb_perm _ _ _ Hp), <- (existsb_perm _ _ _ (fields_by_name_perm ds)).
  assert (Hj : join "." [import; title (q_name (o_info o))] = import +:+ "." +:+ title (q_name (o_info o))) by done. rewrite Hj. change nl with newline.
  rewrite (fields_text ord [q_name (o_info o)] L ds' ds (fun d => show_field quote trim (bool_decide (qd_json d ∈ reqs)) d)
    (fun sub => q_write o_quote o_trim pointers "  " (is_req (q_req (o_info o)) (q_json (q_info sub))) sub)); [done..|].
  intros k f d Hin Hd (Hk & Hjs & _ & _ & Hw). cbn [fst snd] in *. rewrite Hw, Hjs, Hr.
  destruct (bool_decide (qd_json d ∈ T)) eqn:E; [|done]. apply bool_decide_eq_true_1 in E. by apply HT.
Qed.
End gql.

(** Proofs about decoding with names matched regardless of case. *)
From stdpp Require Import strings list gmap.
From Coq Require Import ZArith Lia.
From Verif Require Import GoStr GoStrL Val Conv Schema Inst Load Gen Den Param HeapL RefL GoJson Fold SpecFold.

Section proofs.
Context (o_fold : string -> string).
Notation g_inst := (g_inst o_fold).
Notation field_for := (field_for o_fold).

Lemma index_of_none p l : index_of p l = None <-> forall x, x ∈ l -> p x = false.
Proof.
  induction l as [|x l IH]; cbn [index_of]; [split; [intros _ y Hy; by apply elem_of_nil in Hy|done]|].
  destruct (p x) eqn:E.
  - split; [done|]. intros H. specialize (H x ltac:(left)). by rewrite E in H.
  - destruct (index_of p l) eqn:E2; cbn; split; try done.
    + intros H. destruct IH as [_ IH]. discriminate IH. intros y Hy. apply H. by right.
    + intros _ y Hy. apply elem_of_cons in Hy as [->|Hy]; [done|]. by apply IH.
Qed.
Lemma index_of_some p l i : index_of p l = Some i -> exists x, l !! i = Some x /\ p x = true.
Proof.
  revert i. induction l as [|x l IH]; intros i; cbn [index_of]; [done|]. destruct (p x) eqn:E; [intros [= <-]; by exists x|].
  destruct (index_of p l) as [j|]; [|done]. cbn. intros [= <-]. by apply IH.
Qed.
Lemma field_exact k : k ∈ keywords -> field_for k = Some k.
Proof.
  intros Hk. unfold Fold.field_for, find_field. destruct (index_of (fun n => bool_decide (n = k)) keywords) as [i|] eqn:E.
  - apply index_of_some in E as (x & Hx & Hp). apply bool_decide_eq_true_1 in Hp as ->. exact Hx.
  - exfalso. rewrite index_of_none in E. specialize (E k Hk). by rewrite bool_decide_eq_false in E.
Qed.
Lemma field_foreign k : foreign o_fold k -> field_for k = None.
Proof.
  intros Hk. unfold Fold.field_for, find_field.
  assert (E1 : index_of (fun n => bool_decide (n = k)) keywords = None).
  { apply index_of_none. intros n Hn. apply bool_decide_eq_false. intros ->. by apply (Hk k). }
  assert (E2 : index_of (fun n => bool_decide (fold_name o_fold n = fold_name o_fold k)) keywords = None).
  { apply index_of_none. intros n Hn. apply bool_decide_eq_false. by apply Hk. }
  by rewrite E1, E2.
Qed.

(** ** [d_inst] as a function of the members *)
Definition sub_of (f : tree -> res instance) (v : tree) : res (list instance) :=
  match v with TS SNil => Ok [] | TArr l => seqs (map f l) | _ => Err end.
Definition body (addl : bool) (L : string -> option tree) (S : string -> option (res (list instance))) : res instance :=
    rbind (d_bool addl (L "additionalProperties")) (fun ad =>
    rbind (d_subs (S "allOf")) (fun al =>
    rbind (d_subs (S "anyOf")) (fun an =>
    rbind (d_str (L "description")) (fun de =>
    rbind (d_bool false (L "embed")) (fun em =>
    rbind (d_str (L "format")) (fun fm =>
    rbind (d_str (L "fromRef")) (fun fr =>
    rbind (d_strs (L "graphql-arguments")) (fun ga =>
    rbind (d_subs (S "oneOf")) (fun on =>
    rbind (d_props (L "properties")) (fun ps =>
    rbind (d_str (L "$ref")) (fun rf =>
    rbind (d_strs (L "required")) (fun rq =>
    rbind (d_str (L "$schema")) (fun sc =>
    rbind (d_str (L "target")) (fun ta =>
    rbind (d_type (L "type")) (fun ty =>
    Ok (Inst ad al an de (L "definitions") em fm fr (default [] ga) (L "items") on ps rf
             (default [] rq) sc ta ty)))))))))))))))).
Lemma d_inst_body addl kvs : d_inst addl (TObj kvs) =
  body addl (fun k => assoc k kvs) (fun k => assocd k (map (fun kv : string * tree => let (k, v) := kv in (k, sub_of (d_inst false) v)) kvs)).
Proof. reflexivity. Qed.
Lemma body_ext addl L L' S S' : (forall k, k ∈ keywords -> L k = L' k) -> (forall k, k ∈ keywords -> S k = S' k) -> body addl L S = body addl L' S'.
Proof.
  intros HL HS. unfold body.
  rewrite !HL by (unfold keywords; repeat (first [left; done|right])).
  rewrite !HS by (unfold keywords; repeat (first [left; done|right])). done.
Qed.

Lemma str_calm v : d_str v <> Panic.
Proof. by destruct v as [[[]| | | |]|]. Qed.
Lemma bool_calm b v : d_bool b v <> Panic.
Proof. by destruct v as [[[]| | | |]|]. Qed.
Lemma strs_go_calm l : d_strs_go l <> Panic.
Proof.
  induction l as [|t l IH]; cbn [d_strs_go]; [done|]. destruct (d_str (Some t)) eqn:E; cbn; [|done|by apply str_calm in E].
  by destruct (d_strs_go l).
Qed.
Lemma strs_calm v : d_strs v <> Panic.
Proof. destruct v as [[[]|l| | |]|]; try done. cbn. pose proof (strs_go_calm l). by destruct (d_strs_go l). Qed.
Lemma type_calm v : d_type v <> Panic.
Proof. destruct v as [[[]|l| | |]|]; try done; apply strs_calm. Qed.
Lemma props_calm v : d_props v <> Panic.
Proof. by destruct v as [[[]| | | |]|]. Qed.
Lemma rbind_calm {X Y} (x : res X) (f : X -> res Y) : x <> Panic -> (forall a, f a <> Panic) -> rbind x f <> Panic.
Proof. by destruct x; cbn; auto. Qed.
Lemma seqs_calm {X} (l : list (res X)) : Forall (fun r => r <> Panic) l -> seqs l <> Panic.
Proof. induction 1 as [|r l Hr Hl IH]; cbn [seqs]; [done|]. apply rbind_calm; [done|]. intros a. by apply rbind_calm. Qed.
Lemma body_calm addl L S : (forall k, d_subs (S k) <> Panic) -> body addl L S <> Panic.
Proof.
  intros HS. unfold body. repeat (apply rbind_calm; [first [apply str_calm|apply bool_calm|apply strs_calm|apply type_calm|apply props_calm|apply HS]|intros ?]). done.
Qed.
Lemma assocd_map {X} (f : tree -> X) k kvs : assocd k (map (fun kv : string * tree => let (k, v) := kv in (k, f v)) kvs) = f <$> assoc k kvs.
Proof. induction kvs as [|[k' v] kvs IH]; [done|]. cbn [map assocd assoc]. destruct (decide (k' = k)); [done|]. exact IH. Qed.
Definition deep (P : tree -> Prop) (t : tree) : Prop := P t /\ forall l, t = TArr l -> Forall P l.
Lemma deep_ind (P : tree -> Prop) : (forall s, P (TS s)) -> (forall l, P (TArr l)) -> (forall n, P (TNode n)) -> (forall l, P (TNodes l)) ->
  (forall kvs, (forall k l x, (k, TArr l) ∈ kvs -> x ∈ l -> P x) -> P (TObj kvs)) -> forall t, P t.
Proof.
  intros H1 H2 H3 H4 H5 t. enough (deep P t) by apply H. induction t as [sc|ts IH|kvs IH|n|l] using tree_ind'; split; try done; auto.
  - intros l [= <-]. eapply Forall_impl; [exact IH|]. by intros x [Hx _].
  - apply H5. intros k l x Hin Hx. rewrite Forall_forall in IH. specialize (IH _ Hin) as [_ IH]. cbn in IH. specialize (IH l eq_refl).
    rewrite Forall_forall in IH. by apply IH.
Qed.
Lemma d_inst_calm t : forall addl, d_inst addl t <> Panic.
Proof.
  induction t as [sc|l|n|l|kvs IH] using deep_ind; intros addl; [by destruct sc|done..|].
  rewrite d_inst_body. apply body_calm. intros k. rewrite assocd_map. destruct (assoc k kvs) as [v|] eqn:E; [|done]. cbn.
  apply assoc_elem in E. destruct v as [[]|l| | |]; try done. cbn.
  apply seqs_calm. apply Forall_forall. intros r Hr. apply elem_of_list_In, in_map_iff in Hr as (x & <- & Hx). eapply IH; [exact E|by apply elem_of_list_In].
Qed.
Lemma none_bool b : d_bool b None = Ok b. Proof. done. Qed.
Lemma none_str : d_str None = Ok "". Proof. done. Qed.
Lemma none_strs : d_strs None = Ok None. Proof. done. Qed.
Lemma none_type : d_type None = Ok None. Proof. done. Qed.
Lemma none_props : d_props None = Ok None. Proof. done. Qed.
Lemma g_str_eq v : d_str (Some v) = g_str "" v.
Proof. by destruct v as [[]| | | |]. Qed.
Lemma g_str_calm o v : g_str o v <> Panic.
Proof. by destruct v as [[]| | | |]. Qed.
Lemma g_props_eq v : d_props (Some v) = g_props None v.
Proof. by destruct v as [[]| | | |]. Qed.
Lemma g_props_calm o v : g_props o v <> Panic.
Proof. by destruct v as [[]| | | |]. Qed.
Ltac chain1 HS :=
  cbn [rbind d_subs default]; try reflexivity;
  match goal with
  | H : ?x = _ |- context[rbind ?x _] => rewrite H
  | |- context[rbind (d_str ?x) _] => let E := fresh in destruct (d_str x) eqn:E; [| |by apply str_calm in E]
  | |- context[rbind (g_str ?b ?x) _] => let E := fresh in destruct (g_str b x) eqn:E; [| |by apply g_str_calm in E]
  | |- context[rbind (d_bool ?b ?x) _] => let E := fresh in destruct (d_bool b x) eqn:E; [| |by apply bool_calm in E]
  | |- context[rbind (d_strs ?x) _] => let E := fresh in destruct (d_strs x) eqn:E; [| |by apply strs_calm in E]
  | |- context[rbind (d_type ?x) _] => let E := fresh in destruct (d_type x) eqn:E; [| |by apply type_calm in E]
  | |- context[rbind (d_props ?x) _] => let E := fresh in destruct (d_props x) eqn:E; [| |by apply props_calm in E]
  | |- context[rbind (g_props ?o ?x) _] => let E := fresh in destruct (g_props o x) eqn:E; [| |by apply g_props_calm in E]
  | |- context[rbind (d_subs ?x) _] => let E := fresh in destruct (d_subs x) eqn:E; [| |by apply HS in E]
  | H : ?s <> Panic |- context[rbind ?s _] => destruct s; [| |done]; clear H
  | |- context[put_field (Inst _ _ _ _ _ _ _ _ _ _ _ _ _ _ _ _ _)] => unfold put_field, g_strs; repeat rewrite decide_False by done; rewrite ?decide_True by done
  end.
Lemma body_step addl L S L' S' k v sub : k ∈ keywords -> L k = None -> S k = None -> (forall x, x <> k -> L' x = L x) -> (forall x, x <> k -> S' x = S x) ->
  L' k = Some v -> S' k = Some sub -> sub <> Panic -> (forall x, d_subs (S x) <> Panic) ->
  body addl L' S' = rbind (body addl L S) (fun i => put_field i k k v sub).
Proof.
  intros Hk HLn HSn HL HS HLk HSk Hsub Hcalm. unfold body.
  unfold keywords in Hk. repeat (apply elem_of_cons in Hk as [-> |Hk]); [..|by apply elem_of_nil in Hk].
  all: rewrite ?HLk, ?HSk, ?HLn, ?HSn; rewrite ?HL by done; rewrite ?HS by done; rewrite ?g_str_eq, ?g_props_eq.
  all: rewrite ?none_bool, ?none_str, ?none_strs, ?none_type, ?none_props.
  all: do 60 (try chain1 Hcalm).
Qed.
Lemma put_field_sub i k v s1 s2 : k ∉ ["allOf"; "anyOf"; "oneOf"] -> put_field i k k v s1 = put_field i k k v s2.
Proof.
  intros Hk. assert (k <> "allOf" /\ k <> "anyOf" /\ k <> "oneOf") as (H1 & H2 & H3).
  { split_and!; intros ->; apply Hk; repeat (first [left; done|right]). }
  destruct i. unfold put_field. rewrite !(decide_False (P := k = "allOf")) by done. rewrite !(decide_False (P := k = "anyOf")) by done.
  rewrite !(decide_False (P := k = "oneOf")) by done. done.
Qed.
Lemma assoc_snoc k v k' kvs : k ∉ kvs.*1 -> assoc k' (kvs ++ [(k, v)]) = if decide (k' = k) then Some v else assoc k' kvs.
Proof.
  induction kvs as [|[k2 v2] kvs IH]; intros Hk; cbn [app assoc].
  - destruct (decide (k = k')), (decide (k' = k)); by subst.
  - cbn in Hk. apply not_elem_of_cons in Hk as [H1 H2]. rewrite IH by done. destruct (decide (k2 = k')) as [<-|]; [|done]. by rewrite decide_False.
Qed.
Lemma assoc_absent k kvs : k ∉ kvs.*1 -> assoc k kvs = None.
Proof. intros H. destruct (assoc k kvs) as [v|] eqn:E; [|done]. apply assoc_elem in E. exfalso. apply H. by apply (elem_of_list_fmap_1 fst) in E. Qed.
Notation with_subs f kvs := (map (fun kv : string * tree => let (k, v) := kv in (k, (v, sub_of f v))) kvs).
Lemma g_inst_fold addl kvs : g_inst addl (TObj kvs) =
  foldl (fun i (m : string * (tree * res (list instance))) => g_member o_fold i m.1 m.2.1 m.2.2) (Ok (zero_inst addl)) (with_subs (g_inst false) kvs).
Proof. reflexivity. Qed.
Lemma g_snoc addl kvs k v : g_inst addl (TObj (kvs ++ [(k, v)])) = g_member o_fold (g_inst addl (TObj kvs)) k v (sub_of (g_inst false) v).
Proof. rewrite !g_inst_fold. rewrite map_app, foldl_app. reflexivity. Qed.
Lemma sub_calm v : sub_of (d_inst false) v <> Panic.
Proof. destruct v as [[]|l| | |]; try done. cbn. apply seqs_calm. apply Forall_forall. intros r Hr. apply elem_of_list_In, in_map_iff in Hr as (x & <- & _). apply d_inst_calm. Qed.
Lemma subs_none v : d_subs v <> Panic <-> v <> Some Panic.
Proof. destruct v as [[]|]; cbn; split; try done. Qed.
Lemma d_snoc addl kvs k v : k ∉ kvs.*1 -> k ∈ keywords ->
  d_inst addl (TObj (kvs ++ [(k, v)])) = rbind (d_inst addl (TObj kvs)) (fun i => put_field i k k v (sub_of (d_inst false) v)).
Proof.
  intros Hn Hk. rewrite !d_inst_body. apply body_step; try done.
  - by apply assoc_absent.
  - rewrite assocd_map. by rewrite assoc_absent.
  - intros x Hx. rewrite assoc_snoc by done. by rewrite decide_False.
  - intros x Hx. rewrite !assocd_map, assoc_snoc by done. by rewrite decide_False.
  - rewrite assoc_snoc by done. by rewrite decide_True.
  - rewrite assocd_map, assoc_snoc by done. by rewrite decide_True.
  - apply sub_calm.
  - intros x. rewrite assocd_map. destruct (assoc x kvs); [|done]. cbn. apply sub_calm.
Qed.
Lemma d_foreign addl kvs k v : k ∉ keywords -> k ∉ kvs.*1 -> d_inst addl (TObj (kvs ++ [(k, v)])) = d_inst addl (TObj kvs).
Proof.
  intros Hk Hn. rewrite !d_inst_body. apply body_ext; intros x Hx; rewrite ?assocd_map, assoc_snoc by done; rewrite decide_False; try done; by intros ->.
Qed.
Lemma exact_inv kvs : exact o_fold (TObj kvs) -> NoDup kvs.*1 /\ Forall (fun kv => kv.1 ∈ keywords \/ foreign o_fold kv.1) kvs /\
    (forall k l x, k ∈ ["allOf"; "anyOf"; "oneOf"] -> (k, TArr l) ∈ kvs -> x ∈ l -> exact o_fold x).
Proof. by inversion 1. Qed.
Lemma exact_same t : exact o_fold t -> forall addl, g_inst addl t = d_inst addl t.
Proof.
  induction t as [sc|l|n|l|kvs IH] using deep_ind; intros He addl; try done.
  apply exact_inv in He as (Hnd & Hn & Hx).
  assert (Hg : forall kvs', kvs' ⊆ kvs -> NoDup kvs'.*1 -> g_inst addl (TObj kvs') = d_inst addl (TObj kvs')); [|by apply Hg].
  clear Hnd. intros kvs'. induction kvs' as [|[k v] kvs' IHk] using rev_ind; [done|]. intros Hsub Hnd.
  rewrite fmap_app in Hnd. apply NoDup_app in Hnd as (Hnd & Hd & _). cbn in Hd.
  assert (Hk : k ∉ kvs'.*1). { intros H. apply (Hd _ H). left. }
  assert (Hin : (k, v) ∈ kvs). { apply Hsub, elem_of_app. right. left. }
  rewrite g_snoc, IHk; [|intros y Hy; apply Hsub, elem_of_app; by left|done].
  rewrite Forall_forall in Hn. destruct (Hn _ Hin) as [Hkw|Hf]; cbn [fst] in *.
  - rewrite d_snoc by done. unfold g_member. rewrite field_exact by done. destruct (d_inst addl (TObj kvs')) as [i| |]; try done. cbn [rbind].
    destruct (decide (k ∈ ["allOf"; "anyOf"; "oneOf"])) as [Hs|Hs]; [|by apply put_field_sub].
    f_equal. destruct v as [[]|l| | |]; try done. cbn. f_equal. apply map_ext_in. intros x Hxl%elem_of_list_In. eapply IH; [exact Hin|done|by eapply Hx].
  - unfold g_member. rewrite field_foreign by done. rewrite d_foreign; [by destruct (d_inst addl (TObj kvs'))| |done].
    intros Hkw. by apply (Hf k).
Qed.
(** names that differ in case *)
Lemma field_fold k n : n ∈ keywords -> fold_name o_fold k = fold_name o_fold n -> field_for k = Some n.
Proof.
  intros Hn Hk. unfold Fold.field_for, find_field.
  assert (Hd : forall x y, x ∈ keywords -> y ∈ keywords -> fold_name o_fold x = fold_name o_fold y -> x = y).
  { intros x y Hx Hy. unfold keywords in Hx. repeat (apply elem_of_cons in Hx as [-> |Hx]); [..|by apply elem_of_nil in Hx];
      unfold keywords in Hy; (repeat (apply elem_of_cons in Hy as [-> |Hy]); [..|by apply elem_of_nil in Hy]); vm_compute; done. }
  destruct (index_of (fun n => bool_decide (n = k)) keywords) as [i|] eqn:E.
  - apply index_of_some in E as (x & Hx & Hp). apply bool_decide_eq_true_1 in Hp as ->. cbn. rewrite Hx. f_equal. apply Hd; [by eapply elem_of_list_lookup_2|done|done].
  - destruct (index_of (fun n => bool_decide (fold_name o_fold n = fold_name o_fold k)) keywords) as [i|] eqn:E2.
    + apply index_of_some in E2 as (x & Hx & Hp). apply bool_decide_eq_true_1 in Hp. cbn. rewrite Hx. f_equal. apply Hd; [by eapply elem_of_list_lookup_2|done|congruence].
    + exfalso. rewrite index_of_none in E2. specialize (E2 n Hn). rewrite bool_decide_eq_false in E2. by apply E2.
Qed.
Lemma put_field_name i n k v s : n ∈ keywords -> n <> "type" -> put_field i n k v s = put_field i n n v s.
Proof.
  intros Hn Ht. destruct i. unfold keywords in Hn. repeat (apply elem_of_cons in Hn as [-> |Hn]); [..|by apply elem_of_nil in Hn]; [reflexivity..|done].
Qed.
Lemma put_type i k v s : put_field i "type" k v s =
  let '(Inst ad al an de df em fm fr ga it on ps rf rq sc ta ty) := i in
  rbind (if decide (k = "type") then d_type (Some v) else d_strs (Some v)) (fun x => Ok (Inst ad al an de df em fm fr ga it on ps rf rq sc ta x)).
Proof. by destruct i. Qed.
Lemma variant_same addl kvs kvs' k n v : n ∈ keywords -> fold_name o_fold k = fold_name o_fold n -> n <> "type" \/ (forall s, v <> TS (SStr s)) ->
  g_inst addl (TObj (kvs ++ (k, v) :: kvs')) = g_inst addl (TObj (kvs ++ (n, v) :: kvs')).
Proof.
  intros Hn Hk Ht. rewrite !g_inst_fold. rewrite !map_app, !foldl_app. cbn [map foldl fst snd]. f_equal. unfold g_member.
  rewrite (field_fold k n Hn Hk), (field_exact n Hn). destruct (foldl _ _ _) as [i| |]; try done. cbn [rbind].
  destruct (decide (n = "type")) as [->|N]; [|by apply put_field_name]. destruct Ht as [|Ht]; [done|]. rewrite !put_type. destruct i.
  rewrite (decide_True (P := "type" = "type")) by done. case_decide; [done|].
  destruct v as [[]| | | |]; try done. by destruct (Ht s).
Qed.
Lemma fold_stuck r ms : (forall i, r <> Ok i) ->
  forall i, foldl (fun i (m : string * (tree * res (list instance))) => g_member o_fold i m.1 m.2.1 m.2.2) r ms <> Ok i.
Proof. revert r. induction ms as [|m ms IH]; intros r Hr; cbn [foldl]; [done|]. apply IH. intros i. unfold g_member. destruct r as [x| |]; try done. by destruct (Hr x). Qed.
Lemma variant_type addl kvs kvs' k s i : k <> "type" -> fold_name o_fold k = fold_name o_fold "type" ->
  g_inst addl (TObj (kvs ++ (k, TS (SStr s)) :: kvs')) <> Ok i.
Proof.
  intros Hn Hk. rewrite !g_inst_fold. rewrite !map_app, !foldl_app. cbn [map foldl fst snd].
  assert (Hty : "type" ∈ keywords) by (unfold keywords; repeat (first [left; done|right])).
  apply fold_stuck. intros i'. unfold g_member. rewrite (field_fold k "type" Hty Hk). destruct (foldl _ _ _) as [i0| |]; try done. cbn [rbind].
  rewrite put_type. destruct i0. by rewrite decide_False.
Qed.
(** foreign members anywhere *)
Lemma foreign_skipped addl kvs kvs' k v : foreign o_fold k -> g_inst addl (TObj (kvs ++ (k, v) :: kvs')) = g_inst addl (TObj (kvs ++ kvs')).
Proof.
  intros Hk. rewrite !g_inst_fold. rewrite !map_app, !foldl_app. cbn [map foldl fst snd]. f_equal. unfold g_member at 1. rewrite field_foreign by done.
  by destruct (foldl _ _ _).
Qed.
End proofs.

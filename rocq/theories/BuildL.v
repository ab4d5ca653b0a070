(** NewTransformer builds the reading of the schema. *)
From stdpp Require Import strings list gmap.
From Coq Require Import ZArith Ascii Lia.
From Verif Require Import GoStr GoStrL Val Conv Instr Heap Schema Build SpecPath PathL Den Param HeapL Refine Top SpecSchema.

(** ** the walk through lookups *)
Lemma walk_raw_eq {S} (fn : string -> tree -> S -> S * res unit) raw path s :
  walk_raw fn raw path s =
  Schema.seq (fn path raw)
    match field_type raw with
    | Ok (ty, _) =>
      if decide (ty = "object") then
        match jlookup "properties" raw with
        | Some (TObj ps) => walk_each fn path ps
        | _ => stop Err
        end
      else if decide (ty = "array") then
        match jlookup "items" raw with
        | Some v => walk_raw fn v (path +:+ "[*]")
        | None => stop Err
        end
      else stop (Ok tt)
    | Err => stop Err
    | Panic => stop Panic
    end s.
Proof.
  destruct raw as [sc|l|kvs|n|l]; try reflexivity.
  cbn [walk_raw]. unfold Schema.seq. destruct (fn path (TObj kvs) s) as [s' [[]| |]]; try reflexivity.
  destruct (field_type (TObj kvs)) as [[ty nl]| |]; try reflexivity.
  case_decide as Ht.
  { cbn [jlookup]. induction kvs as [|[k v] kvs IH]; [reflexivity|]. cbn [assoc].
    case_decide as Hk; [|apply IH]. subst. destruct v; try reflexivity.
    clear IH. revert s'. rename kvs0 into ps. induction ps as [|[n p] ps IHp]; intros s'; [reflexivity|]. cbn [walk_each].
    unfold Schema.seq. destruct (walk_raw fn p _ s') as [s2 [[]| |]]; try reflexivity. apply IHp. }
  case_decide as Ha; [|reflexivity].
  cbn [jlookup]. induction kvs as [|[k v] kvs IH]; [reflexivity|]. cbn [assoc].
  case_decide as Hk; [reflexivity|apply IH].
Qed.

(** ** focus: the tree under construction, seen from one of its nodes *)
Lemma insert_at_path steps n c n' : insert_at steps n c = Ok n' -> it_path n' = it_path n.
Proof.
  revert n n'. induction steps as [|s steps IH]; intros n n'; cbn [insert_at].
  - destruct n; cbn; [by intros [= <-]| |by intros [= <-]]. case_decide; [by intros [= <-]|done].
  - case_decide.
    + destruct n as [| |p d ts [c'|]]; try done. unfold rbind. destruct (insert_at steps c' c) eqn:E; intros [= <-]. done.
    + destruct n as [|p d ts cs|]; try done. destruct (get_child s cs) as [c'|]; [|done].
      unfold rbind. destruct (insert_at steps c' c) eqn:E; intros [= <-]. done.
Qed.
Lemma get_set_child k c cs : get_child k (set_child k c cs) = Some c.
Proof.
  induction cs as [|[n c'] cs IH]; cbn; [by rewrite decide_True|]. case_decide; cbn.
  - by rewrite decide_True.
  - by rewrite decide_False.
Qed.
Lemma get_set_child_ne k k' c cs : k' <> k -> get_child k' (set_child k c cs) = get_child k' cs.
Proof.
  intros Hne. induction cs as [|[n c'] cs IH]; cbn; [by rewrite decide_False|]. case_decide; cbn.
  - subst. by rewrite !decide_False by done.
  - by rewrite IH.
Qed.
Lemma set_set_child k c c' cs : set_child k c' (set_child k c cs) = set_child k c' cs.
Proof.
  induction cs as [|[n c0] cs IH]; cbn; [by rewrite decide_True|]. case_decide; cbn.
  - by rewrite decide_True.
  - rewrite decide_False by done. by rewrite IH.
Qed.
Lemma set_child_new k c cs : k ∉ cs.*1 -> set_child k c cs = cs ++ [(k, c)].
Proof.
  induction cs as [|[n c'] cs IH]; cbn; [done|]. intros Hn. apply not_elem_of_cons in Hn as [H1 H2].
  rewrite decide_False by done. by rewrite IH.
Qed.

Lemma seg_ok_l σ s : Forall seg_ok (σ ++ [s]) -> Forall seg_ok σ.
Proof. by intros [? _]%Forall_app. Qed.

Definition focus (steps : list string) (c0 : itr) (K : itr -> res itr) : Prop :=
  forall c, it_path c = it_path c0 -> exists r, K c = Ok r /\
  forall steps' c1, insert_at (steps ++ steps') r c1 = rbind (insert_at steps' c c1) K.
(** the child of [c0] at [s] *)
Definition kind_ok (s : seg) (c0 : itr) : Prop :=
  match s, c0 with
  | Nm k, IObj _ _ _ _ => plain_name k
  | Star, IArr _ _ _ _ => True
  | _, _ => False
  end.
Definition with_child (s : seg) (c0 c : itr) : itr :=
  match s, c0 with
  | Nm k, IObj p d ts cs => IObj p d ts (set_child k c cs)
  | Star, IArr p d ts _ => IArr p d ts (Some c)
  | _, _ => c0
  end.
Lemma plain_not_star k : plain_name k -> k <> "[*]".
Proof. by intros (_ & H & _) ->. Qed.
Lemma removelast_split_name σ k : Forall seg_ok σ -> plain_name k ->
  join "." (removelast (split (path_of (σ ++ [Nm k])) ".")) = path_of σ /\
  List.last (split (path_of (σ ++ [Nm k])) ".") "" = k.
Proof.
  intros H1 H2. rewrite split_path_name by done. rewrite removelast_last, last_last.
  by rewrite split_join.
Qed.
Lemma add_child_ok σ s c0 c : Forall seg_ok σ -> kind_ok s c0 -> it_path c0 = path_of σ ->
  it_path c = path_of (σ ++ [s]) -> add_child c0 c = Ok (with_child s c0 c).
Proof.
  intros Hσ Hk Hp Hc. destruct s as [k| |i], c0 as [|p d ts cs|p d ts c']; try done; cbn in *. subst p.
  rewrite Hc. destruct (removelast_split_name σ k Hσ Hk) as [H1 H2]. rewrite H1, H2, decide_True by done. done.
Qed.
Lemma focus_root c0 : focus [] c0 Ok.
Proof.
  intros c Hc. exists c. split; [done|]. intros steps' c1. cbn [app]. by destruct (insert_at steps' c c1).
Qed.
Lemma focus_child steps c0 K σ s c1 : focus steps c0 K -> Forall seg_ok σ -> kind_ok s c0 ->
  it_path c0 = path_of σ -> it_path c1 = path_of (σ ++ [s]) ->
  focus (steps ++ [seg_str s]) c1 (fun c => rbind (add_child c0 c) K).
Proof.
  intros Hf Hσ Hk Hp Hp1 c Hc. rewrite Hp1 in Hc.
  rewrite (add_child_ok σ s c0 c) by done. cbn [rbind].
  destruct (Hf (with_child s c0 c)) as (r & Hr & Hins); [by destruct s, c0|].
  exists r. split; [done|]. intros steps' c2. rewrite <- app_assoc. cbn [app]. rewrite Hins.
  destruct s as [k| |i], c0 as [|p d ts cs|p d ts c']; try done; cbn [with_child seg_str insert_at].
  - cbn in Hk. rewrite decide_False by (by apply plain_not_star). rewrite get_set_child.
    destruct (insert_at steps' c c2) as [n| |] eqn:E; cbn [rbind]; try done.
    rewrite (add_child_ok σ (Nm k)); [|done|done|done|by rewrite (insert_at_path _ _ _ _ E)].
    cbn [rbind with_child]. by rewrite set_set_child.
  - rewrite decide_True by done.
    destruct (insert_at steps' c c2) as [n| |] eqn:E; cbn [rbind]; try done.
Qed.

(** ** the state *)
Definition fok (s : st) : Prop := forall i, is_Some (froms s !! i) -> i < nxt s.
Definition bstep (s s' : st) : Prop :=
  stok s' /\ fok s' /\ hp s ⊆ hp s' /\ nxt s <= nxt s' /\ froms s ⊆ froms s'.
Lemma bstep_trans s1 s2 s3 : bstep s1 s2 -> bstep s2 s3 -> bstep s1 s3.
Proof.
  intros (_ & _ & H1 & H2 & H3) (H4 & H4' & H5 & H6 & H7). split; [done|]. split; [done|].
  split; [by etrans|]. split; [lia|by etrans].
Qed.
Lemma bstep_refl s : stok s -> fok s -> bstep s s.
Proof. done. Qed.
Lemma step_bstep s s' : fok s -> step s s' -> bstep s s'.
Proof.
  intros Hf (H1 & H2 & H3 & H4). split; [done|]. split.
  - intros i Hi. rewrite H4 in Hi. specialize (Hf i Hi). lia.
  - split; [done|]. split; [done|]. by rewrite H4.
Qed.
Lemma tsrel_mono fr fr' ts pt : fr ⊆ fr' -> tsrel fr ts pt -> tsrel fr' ts pt.
Proof.
  intros Hsub. destruct ts, pt as [[[me de] fm]|]; cbn; try done. intros (? & ? & H3). split; [done|].
  split; [done|]. by eapply lookup_weaken.
Qed.
Lemma irel_mono2 h h' fr fr' i p : h ⊆ h' -> fr ⊆ fr' -> irel h fr i p -> irel h' fr' i p.
Proof.
  intros Hsub Hfr. revert i. induction p as [q jt d ts|q d ts cs IH|q d ts c IH] using pitr_ind'; intros i; destruct i; cbn [irel]; try done.
  - intros (? & ? & ? & ?). repeat split; try done; [by eapply repr_mono|by eapply tsrel_mono].
  - intros (-> & Hts & Hd & Hall). split; [done|]. split; [by eapply tsrel_mono|].
    split; [destruct d, dflt; try done; by eapply repr_mono|].
    revert children Hall. induction cs as [|[k c] cs IHc]; intros [|[k' c'] cs'] Hall; try done.
    destruct Hall as [[-> Hc] Hall]. inversion IH; subst. split; [split; [done|by apply H1]|]. by apply IHc.
  - destruct child; [|done]. intros (-> & Hts & Hd & Hc). split; [done|]. split; [by eapply tsrel_mono|].
    split; [|by apply IH]. destruct d, dflt as [[a n]|]; try done. by eapply repr_mono.
Qed.
Lemma irel_bstep s s' i p : bstep s s' -> irel (hp s) (froms s) i p -> irel (hp s') (froms s') i p.
Proof. intros (_ & _ & H1 & _ & H2). by apply irel_mono2. Qed.

Section build.
Context (W : oracles) (tid : string).

Lemma extract_spec raw σp path k s : stok s -> fok s -> parent_path path k = σp ->
  bstep s (extract_tis W raw tid path k s).1 /\
  match section W tid raw σp with
  | Ok pt => exists ts, (extract_tis W raw tid path k s).2 = Ok ts /\
                        tsrel (froms (extract_tis W raw tid path k s).1) ts pt
  | _ => (extract_tis W raw tid path k s).2 = Err \/ (extract_tis W raw tid path k s).2 = Panic
  end.
Proof.
  intros Hs Hf Hp. unfold extract_tis, section.
  destruct (jlookup "transform" raw) as [tr|]; [|split; [by apply bstep_refl|by exists None]].
  change (Some tr ≫= jlookup tid) with (jlookup tid tr).
  destruct (jlookup tid tr) as [t|]; [|split; [by apply bstep_refl|by exists None]].
  set (R := rbind (dec_tis W t) (fun d : meth * string * list (option instr) =>
        match all_some d.2 with Some is => Ok (Some (d.1.1, d.1.2, rebase σp <$> is)) | None => Panic end)).
  set (C := Heap.mbind (mlift (dec_tis W t))
     (fun x : meth * string * list (option instr) => let '(me, delim, from) := x in
      match all_some from with
      | Some is => fun s0 : st =>
          (St (hp s0) (S (nxt s0)) (<[nxt s0:=rebase (parent_path path k) <$> is]> (froms s0)) (tick s0),
           Ok (Some {| ti_id := nxt s0; ti_meth := me; ti_delim := delim |}))
      | None => mpanic
      end)).
  assert (HC : bstep s (C s).1 /\ match R with Ok pt => exists ts, (C s).2 = Ok ts /\ tsrel (froms (C s).1) ts pt
               | _ => (C s).2 = Err \/ (C s).2 = Panic end).
  { unfold C, R, Heap.mbind, mlift. clear C R. destruct (dec_tis W t) as [[[me delim] from]| |]; cbn; [|by auto using bstep_refl..].
    destruct (all_some from) as [is|]; cbn; [|by auto using bstep_refl].
    assert (Hfresh : froms s !! nxt s = None).
    { destruct (froms s !! nxt s) eqn:E; [|done]. assert (nxt s < nxt s) by (apply Hf; by eexists). lia. }
    split.
    - split; cbn; [intros l Hl; specialize (Hs l Hl); cbn; lia|]. split; cbn.
      + intros i [x Hi]. cbn in *. destruct (decide (i = nxt s)) as [->|Hne]; [lia|].
        rewrite lookup_insert_ne in Hi by done. assert (i < nxt s) by (apply Hf; by eexists). lia.
      + split; [done|]. split; [lia|]. by apply insert_subseteq.
    - eexists. split; [done|]. cbn. split; [done|]. split; [done|]. rewrite lookup_insert. by rewrite Hp. }
  destruct t as [[|b|z|z|fl|str|tm]|l|kvs|n|l]; try exact HC.
  destruct str; [|exact HC]. split; [by apply bstep_refl|by exists None].
Qed.
Lemma default_spec raw s : stok s -> distinct_keys (dflt_of raw) ->
  step s (schema_default raw s).1 /\
  exists v, (schema_default raw s).2 = Ok v /\ repr (hp (schema_default raw s).1) v (dflt_of raw).
Proof.
  intros Hs Hd. unfold schema_default, dflt_of in *. destruct (jlookup "default" raw) as [t|]; cbn in *.
  - destruct (load_spec (N := True) t s (hp s) Hd Hs ltac:(done)) as [Hst (v & h2 & Hv & Hvis & Hr)].
    split; [done|]. exists v. split; [done|]. eapply repr_mono; [apply Hvis|done].
  - split; [done|]. by exists (VS SNil).
Qed.

Lemma mbind_ok {A B} (c : M A) (k : A -> M B) s s' a : c s = (s', Ok a) -> Heap.mbind c k s = k a s'.
Proof. intros H. unfold Heap.mbind. by rewrite H. Qed.
(** [new_node] on the three kinds of instances *)
Definition node_for (raw : tree) (p : pitr) (c : itr) (s : st) : Prop :=
  match p, c with
  | PScal _ _ _ _, _ => irel (hp s) (froms s) c p
  | PObj q d ts _, IObj q' d' ts' cs' =>
    q' = q /\ tsrel (froms s) ts' ts /\ cs' = [] /\
    match d, d' with
    | None, None => True
    | Some kvs, Some a => repr (hp s) (VMap a) (TObj kvs)
    | _, _ => False
    end
  | PArr q d ts _, IArr q' d' ts' c' =>
    q' = q /\ tsrel (froms s) ts' ts /\ c' = None /\
    match d, d' with
    | None, None => True
    | Some l, Some (a, n) => repr (hp s) (VArr a n) (TArr l)
    | _, _ => False
    end
  | _, _ => False
  end.
(** what the reading of an instance says about the instance itself *)
Inductive shallow : list seg -> tree -> pitr -> Prop :=
| sh_leaf σ raw jt nl jt' ts :
    field_type raw = Ok (jt, nl) -> jt <> "array" ->
    (jt = "object" -> jlookup "properties" raw = Some (TObj [])) ->
    leaf_type raw jt = Ok jt' -> section W tid raw (parent_path (path_of σ) KScalar) = Ok ts ->
    distinct_keys (dflt_of raw) ->
    shallow σ raw (PScal (path_of σ) jt' (dflt_of raw) ts)
| sh_obj σ raw nl v d ts cs :
    field_type raw = Ok ("object", nl) -> jlookup "properties" raw = Some v -> v <> TObj [] ->
    section W tid raw (parent_path (path_of σ) KObject) = Ok ts ->
    match d with None => dflt_of raw = TS SNil | Some kvs => dflt_of raw = TObj kvs end ->
    distinct_keys (dflt_of raw) ->
    shallow σ raw (PObj (path_of σ) d ts cs)
| sh_arr σ raw nl d ts c :
    field_type raw = Ok ("array", nl) ->
    section W tid raw (parent_path (path_of σ) KArray) = Ok ts ->
    match d with None => dflt_of raw = TS SNil | Some l => dflt_of raw = TArr l end ->
    distinct_keys (dflt_of raw) ->
    shallow σ raw (PArr (path_of σ) d ts c).
Lemma reads_shallow σ raw p : reads W tid σ raw p -> shallow σ raw p.
Proof.
  inversion 1; subst; [by eapply sh_leaf| |by eapply sh_arr]. eapply sh_obj; try done. by intros [= ->].
Qed.
Lemma shallow_path σ raw p : shallow σ raw p -> p_path p = path_of σ.
Proof. by inversion 1. Qed.
Lemma new_node_ok σ raw p s : shallow σ raw p -> stok s -> fok s ->
  bstep s (new_node W tid (path_of σ) raw s).1 /\
  exists c, (new_node W tid (path_of σ) raw s).2 = Ok c /\ node_for raw p c (new_node W tid (path_of σ) raw s).1.
Proof.
  intros Hr Hs Hf. inversion Hr as [? ? jt nl jt' ts Hft Hna Hobj Hlt Hsec Hdk
    |? ? nl ps d ts cs Hft Hps Hne Hsec Hd Hdk|? ? nl d ts c Hft Hsec Hd Hdk]; subst.
  - assert (Hgoal : bstep s (new_scalar_tr W (path_of σ) tid raw jt s).1 /\
      exists c, (new_scalar_tr W (path_of σ) tid raw jt s).2 = Ok c /\
        irel (hp (new_scalar_tr W (path_of σ) tid raw jt s).1) (froms (new_scalar_tr W (path_of σ) tid raw jt s).1) c
          (PScal (path_of σ) jt' (dflt_of raw) ts)).
    { unfold new_scalar_tr.
      assert (E : forall k : string -> M itr, Heap.mbind
         (if decide (jt = "string") then match jlookup "format" raw with
           | Some (TS (SStr fm)) => mret (if decide (fm = "date-time") then "date-time" else jt)
           | Some _ => mfail | None => mret jt end else mret jt) k s = k jt' s).
      { intros k. unfold leaf_type in Hlt. unfold Heap.mbind. case_decide.
        - destruct (jlookup "format" raw) as [[[]| | | |]|]; simplify_eq; done.
        - simplify_eq. done. }
      rewrite E. clear E.
      destruct (extract_spec raw _ (path_of σ) KScalar s Hs Hf eq_refl) as [Hb He]. rewrite Hsec in He.
      destruct He as (t & He & Hts). destruct (extract_tis W raw tid (path_of σ) KScalar s) as [s1 r1] eqn:E1. cbn in He, Hts, Hb. subst r1. rewrite (mbind_ok _ _ _ _ _ E1).
      destruct (default_spec raw s1 (proj1 Hb) Hdk) as [Hst (v & Hv & Hrv)].
      destruct (schema_default raw s1) as [s2 r2] eqn:E2. cbn in Hv, Hrv, Hst. subst r2. rewrite (mbind_ok _ _ _ _ _ E2). cbn [mret fst snd].
      assert (Hb2 : bstep s1 s2) by (apply step_bstep; [apply Hb|done]).
      split; [by eapply bstep_trans|]. eexists. split; [done|]. cbn [irel]. repeat split; try done.
      eapply tsrel_mono; [|done]. apply Hb2. }
    unfold new_node. rewrite (mbind_ok (mlift (field_type raw)) _ s s _ (f_equal (pair s) Hft)). cbn [fst].
    case_decide as Ho; [rewrite (Hobj Ho); exact Hgoal|]. rewrite decide_False by done. exact Hgoal.
  - unfold new_node. rewrite (mbind_ok (mlift (field_type raw)) _ s s _ (f_equal (pair s) Hft)). cbn [fst]. rewrite decide_True by done. rewrite Hps.
    assert (E0 : match ps with TObj [] => new_scalar_tr W (path_of σ) tid raw "object" | _ => new_object_tr W (path_of σ) tid raw end
              = new_object_tr W (path_of σ) tid raw) by (by destruct ps as [| |[|]| |]).
    rewrite E0. clear E0. unfold new_object_tr.
    destruct (extract_spec raw _ (path_of σ) KObject s Hs Hf eq_refl) as [Hb He]. rewrite Hsec in He.
    destruct He as (t & He & Hts). destruct (extract_tis W raw tid (path_of σ) KObject s) as [s1 r1] eqn:E1. cbn in He, Hts, Hb. subst r1. rewrite (mbind_ok _ _ _ _ _ E1).
    destruct (default_spec raw s1 (proj1 Hb) Hdk) as [Hst (v & Hv & Hrv)].
    destruct (schema_default raw s1) as [s2 r2] eqn:E2. cbn in Hv, Hrv, Hst. subst r2. rewrite (mbind_ok _ _ _ _ _ E2).
    assert (Hb2 : bstep s1 s2) by (apply step_bstep; [apply Hb|done]).
    assert (Hts2 : tsrel (froms s2) t ts) by (eapply tsrel_mono; [apply Hb2|done]).
    destruct d as [kvs|]; rewrite Hd in Hrv.
    + pose proof Hrv as Hrv'. apply repr_obj in Hrv' as (a & m & -> & _). cbn. split; [by eapply bstep_trans|].
      eexists. split; [done|]. done.
    + leaf Hrv. cbn. split; [by eapply bstep_trans|]. eexists. split; [done|]. done.
  - unfold new_node. rewrite (mbind_ok (mlift (field_type raw)) _ s s _ (f_equal (pair s) Hft)). cbn [fst]. rewrite decide_False, decide_True by done.
    unfold new_array_tr.
    destruct (extract_spec raw _ (path_of σ) KArray s Hs Hf eq_refl) as [Hb He]. rewrite Hsec in He.
    destruct He as (t & He & Hts). destruct (extract_tis W raw tid (path_of σ) KArray s) as [s1 r1] eqn:E1. cbn in He, Hts, Hb. subst r1. rewrite (mbind_ok _ _ _ _ _ E1).
    destruct (default_spec raw s1 (proj1 Hb) Hdk) as [Hst (v & Hv & Hrv)].
    destruct (schema_default raw s1) as [s2 r2] eqn:E2. cbn in Hv, Hrv, Hst. subst r2. rewrite (mbind_ok _ _ _ _ _ E2).
    assert (Hb2 : bstep s1 s2) by (apply step_bstep; [apply Hb|done]).
    assert (Hts2 : tsrel (froms s2) t ts) by (eapply tsrel_mono; [apply Hb2|done]).
    destruct d as [l|]; rewrite Hd in Hrv.
    + pose proof Hrv as Hrv'. apply repr_arr in Hrv' as (a & n & m & -> & _). cbn. split; [by eapply bstep_trans|].
      eexists. split; [done|]. done.
    + leaf Hrv. cbn. split; [by eapply bstep_trans|]. eexists. split; [done|]. done.
Qed.
Lemma node_for_path raw p c s : node_for raw p c s -> it_path c = p_path p.
Proof. destruct p, c; cbn; try done; [by intros (? & _)|by intros (? & _)..]. Qed.

Definition kid (h : gmap nat cell) (fr : gmap nat (list instr)) (kc' : string * itr) (kc : string * pitr) : Prop :=
  kc'.1 = kc.1 /\ irel h fr kc'.2 kc.2.
Lemma irel_obj h fr q d ts cs q' d' ts' cs' : irel h fr (IObj q' d' ts' cs') (PObj q d ts cs) <->
  q' = q /\ tsrel fr ts' ts /\
  match d, d' with
  | None, None => True
  | Some kvs, Some a => repr h (VMap a) (TObj kvs)
  | _, _ => False
  end /\ Forall2 (kid h fr) cs' cs.
Proof.
  cbn [irel].
  match goal with |- _ /\ _ /\ _ /\ ?a <-> _ => assert (E : a <-> Forall2 (kid h fr) cs' cs) end; [|by rewrite E].
  revert cs'. induction cs as [|[k c] cs IH]; intros [|[k' c'] cs'].
  - split; [constructor|done].
  - split; [done|inversion 1].
  - split; [done|inversion 1].
  - rewrite IH. split; [intros [[? ?] ?]; constructor; done|inversion 1; subst; done].
Qed.
Lemma kids_mono s s' cs' cs : bstep s s' -> Forall2 (kid (hp s) (froms s)) cs' cs -> Forall2 (kid (hp s') (froms s')) cs' cs.
Proof.
  intros Hb HF. eapply Forall2_impl; [exact HF|]. intros a b [H1 H2]. split; [done|]. by eapply irel_bstep.
Qed.


(** attaching a new node under the focused one *)
Lemma walker_ok σ s raw p c0 K r st : shallow (σ ++ [s]) raw p -> Forall seg_ok (σ ++ [s]) ->
  focus (seg_str <$> σ) c0 K -> it_path c0 = path_of σ -> kind_ok s c0 -> K c0 = Ok r -> stok st -> fok st ->
  exists st' c r', walker W tid (path_of (σ ++ [s])) raw (st, r) = ((st', r'), Ok tt) /\ bstep st st' /\
    node_for raw p c st' /\ it_path c = path_of (σ ++ [s]) /\ K (with_child s c0 c) = Ok r'.
Proof.
  intros Hr Hσ Hf Hp Hk HK Hs Hfo. unfold walker. cbn [fst snd].
  destruct (new_node_ok (σ ++ [s]) raw p st Hr Hs Hfo) as [Hb (c & Hc & Hn)].
  destruct (new_node W tid (path_of (σ ++ [s])) raw st) as [st' r1]. cbn in Hc, Hn, Hb. subst r1.
  pose proof (node_for_path _ _ _ _ Hn) as Hcp. rewrite (shallow_path _ _ _ Hr) in Hcp.
  destruct (Hf c0 eq_refl) as (r0 & Hr0 & Hins). assert (r0 = r) as -> by congruence.
  rewrite (attach_path r c σ s Hσ Hcp).
  specialize (Hins [] c). rewrite app_nil_r in Hins. rewrite Hins. cbn [insert_at].
  rewrite (add_child_ok σ s) by (done || by eapply seg_ok_l). cbn [rbind].
  destruct (Hf (with_child s c0 c)) as (r' & Hr' & _); [by destruct s, c0|].
  rewrite Hr'. exists st', c, r'. done.
Qed.

Lemma walk_ok :
  (forall σ raw p, reads W tid σ raw p -> forall σ' s, σ = σ' ++ [s] -> Forall seg_ok σ ->
   forall c0 K r st, focus (seg_str <$> σ') c0 K -> it_path c0 = path_of σ' -> kind_ok s c0 -> K c0 = Ok r ->
   stok st -> fok st ->
   exists st' r' c, walk_raw (walker W tid) raw (path_of σ) (st, r) = ((st', r'), Ok tt) /\
     bstep st st' /\ irel (hp st') (froms st') c p /\ K (with_child s c0 c) = Ok r') /\
  (forall σ ps cs, reads_all W tid σ ps cs -> Forall seg_ok σ -> Forall (fun kp => plain_name kp.1) ps -> NoDup ps.*1 ->
   forall q d ts old K r st, focus (seg_str <$> σ) (IObj q d ts old) K -> q = path_of σ ->
   K (IObj q d ts old) = Ok r -> (forall k, k ∈ ps.*1 -> k ∉ old.*1) -> stok st -> fok st ->
   exists st' r' cs', walk_each (walker W tid) (path_of σ) ps (st, r) = ((st', r'), Ok tt) /\
     bstep st st' /\ Forall2 (kid (hp st') (froms st')) cs' cs /\ K (IObj q d ts (old ++ cs')) = Ok r').
Proof.
  apply reads_mutind.
  - intros σ raw jt nl jt' ts Hft Hna Hobj Hlt Hsec Hdk σ' s -> Hσ c0 K r st Hf Hp Hk HK Hs Hfo.
    destruct (walker_ok σ' s raw _ c0 K r st ltac:(apply reads_shallow; by eapply reads_leaf) Hσ Hf Hp Hk HK Hs Hfo)
      as (st' & c & r' & Hw & Hb & Hn & Hcp & HK').
    exists st', r', c. split; [|done]. rewrite walk_raw_eq. unfold Schema.seq at 1. rewrite Hw, Hft.
    case_decide as Ho; [by rewrite (Hobj Ho)|]. rewrite decide_False by done. done.
  - intros σ raw nl ps d ts cs Hft Hps Hne Hsec Hd Hdk Hnd Hpl Hall IH σ' s -> Hσ c0 K r st Hf Hp Hk HK Hs Hfo.
    destruct (walker_ok σ' s raw _ c0 K r st ltac:(apply reads_shallow; by eapply reads_obj) Hσ Hf Hp Hk HK Hs Hfo)
      as (st1 & c & r1 & Hw & Hb & Hn & Hcp & HK').
    destruct c as [|q' d' ts' cs0|]; try done. cbn in Hn. destruct Hn as (-> & Hts & -> & Hdd).
    set (K' := fun c => rbind (add_child c0 c) K).
    assert (Hf' : focus (seg_str <$> (σ' ++ [s])) (IObj (path_of (σ' ++ [s])) d' ts' []) K').
    { rewrite fmap_app. apply (focus_child _ c0 K σ' s); try done. by eapply seg_ok_l. }
    assert (HKc : forall c, it_path c = path_of (σ' ++ [s]) -> K' c = K (with_child s c0 c)).
    { intros c Hc. unfold K'. rewrite (add_child_ok σ' s); try done. by eapply seg_ok_l. }
    destruct (IH Hσ Hpl Hnd (path_of (σ' ++ [s])) d' ts' [] K' r1 st1 Hf' eq_refl) as (st2 & r2 & cs' & Hwe & Hb2 & Hkids & HK2).
    { by rewrite HKc. } { intros k _. apply not_elem_of_nil. } { apply Hb. } { apply Hb. }
    exists st2, r2, (IObj (path_of (σ' ++ [s])) d' ts' cs'). split.
    { rewrite walk_raw_eq. unfold Schema.seq at 1. rewrite Hw, Hft, decide_True by done. by rewrite Hps. }
    split; [by eapply bstep_trans|]. split; [|by rewrite <- HKc].
    apply irel_obj. split; [done|]. split; [eapply tsrel_mono; [apply Hb2|done]|]. split; [|done].
    destruct d, d'; try done. eapply repr_mono; [apply Hb2|done].
  - intros σ raw nl i d ts c Hft Hi Hsec Hd Hdk Hc IH σ' s -> Hσ c0 K r st Hf Hp Hk HK Hs Hfo.
    destruct (walker_ok σ' s raw _ c0 K r st ltac:(apply reads_shallow; by eapply reads_arr) Hσ Hf Hp Hk HK Hs Hfo)
      as (st1 & cc & r1 & Hw & Hb & Hn & Hcp & HK').
    destruct cc as [| |q' d' ts' cc0]; try done. cbn in Hn. destruct Hn as (-> & Hts & -> & Hdd).
    set (K' := fun c => rbind (add_child c0 c) K).
    assert (Hf' : focus (seg_str <$> (σ' ++ [s])) (IArr (path_of (σ' ++ [s])) d' ts' None) K').
    { rewrite fmap_app. apply (focus_child _ c0 K σ' s); try done. by eapply seg_ok_l. }
    assert (HKc : forall c, it_path c = path_of (σ' ++ [s]) -> K' c = K (with_child s c0 c)).
    { intros cx Hcx. unfold K'. rewrite (add_child_ok σ' s); try done. by eapply seg_ok_l. }
    destruct (IH (σ' ++ [s]) Star eq_refl) with (c0 := IArr (path_of (σ' ++ [s])) d' ts' None) (K := K') (r := r1) (st := st1)
      as (st2 & r2 & cc & Hwe & Hb2 & Hkids & HK2); try done.
    { apply Forall_app. split; [done|]. constructor; [exact I|constructor]. } { by rewrite HKc. } { apply Hb. } { apply Hb. }
    exists st2, r2, (IArr (path_of (σ' ++ [s])) d' ts' (Some cc)). split.
    { rewrite walk_raw_eq. unfold Schema.seq at 1. rewrite Hw, Hft, decide_False, decide_True by done. rewrite Hi.
      by rewrite <- path_of_star. }
    split; [by eapply bstep_trans|]. split; [|by rewrite <- HKc].
    cbn [irel]. split; [done|]. split; [eapply tsrel_mono; [apply Hb2|done]|]. split; [|done].
    destruct d, d' as [[a n]|]; try done. eapply repr_mono; [apply Hb2|done].
  - intros σ Hσ _ _ q d ts old K r st Hf -> HK _ Hs Hfo. exists st, r, []. cbn. rewrite app_nil_r. by repeat split.
  - intros σ k p ps c cs Hr IHp Hall IHps Hσ Hpl Hnd q d ts old K r st Hf -> HK Hfresh Hs Hfo.
    inversion Hpl as [|? ? Hk Hpl']; subst. cbn in Hk. cbn in Hnd. apply NoDup_cons in Hnd as [Hnk Hnd].
    assert (Hσk : Forall seg_ok (σ ++ [Nm k])) by (apply Forall_app; split; [done|]; constructor; [exact Hk|constructor]).
    destruct (IHp σ (Nm k) eq_refl Hσk _ K r st Hf eq_refl Hk HK Hs Hfo) as (st1 & r1 & cc & Hw & Hb & Hi & HK1).
    cbn [with_child] in HK1. rewrite set_child_new in HK1 by (apply Hfresh; left).
    assert (Hf1 : focus (seg_str <$> σ) (IObj (path_of σ) d ts (old ++ [(k, cc)])) K) by exact Hf.
    destruct (IHps Hσ Hpl' Hnd (path_of σ) d ts (old ++ [(k, cc)]) K r1 st1 Hf1 eq_refl HK1) as (st2 & r2 & cs' & Hw2 & Hb2 & Hkids & HK2).
    { intros k' Hk'. rewrite fmap_app. cbn. intros [Hin|Hin]%elem_of_app.
      - by apply (Hfresh k'); [right|].
      - apply elem_of_list_singleton in Hin as ->. done. }
    { apply Hb. } { apply Hb. }
    exists st2, r2, ((k, cc) :: cs'). rewrite <- app_assoc in HK2. split; [|split; [by eapply bstep_trans|split; [|done]]].
    + cbn [walk_each]. rewrite prepend_name by apply Hk. unfold Schema.seq. by rewrite Hw.
    + constructor; [|done]. split; [done|]. cbn. by eapply irel_bstep.
Qed.

(** ** what is not read is rejected *)
Definition bad {A} (r : res A) : Prop := r = Err \/ r = Panic.
Lemma mbind_bad {A B} (c : M A) (k : A -> M B) s : bad (c s).2 -> bad (Heap.mbind c k s).2.
Proof. unfold Heap.mbind. destruct (c s) as [s' [a| |]]; cbn; intros [H|H]; try done; first [by left|by right]. Qed.
Lemma new_node_bad σ raw s : stok s -> fok s -> distinct_keys (dflt_of raw) ->
  (exists p, shallow σ raw p) \/ bad (new_node W tid (path_of σ) raw s).2.
Proof.
  intros Hs Hf Hdk. unfold new_node.
  destruct (field_type raw) as [[jt nl]| |] eqn:Hft; [|right; by left|right; by right].
  rewrite (mbind_ok (mlift _) _ s s (jt, nl) eq_refl). cbn [fst].
  assert (Hext : forall k, bad (section W tid raw (parent_path (path_of σ) k)) -> bad (extract_tis W raw tid (path_of σ) k s).2).
  { intros k Hb. destruct (extract_spec raw _ (path_of σ) k s Hs Hf eq_refl) as [_ He].
    destruct Hb as [Hb|Hb]; by rewrite Hb in He. }
  assert (Hsec : forall k, (exists ts, section W tid raw (parent_path (path_of σ) k) = Ok ts) \/ bad (section W tid raw (parent_path (path_of σ) k))).
  { intros k. destruct (section W tid raw _); [left; eauto|right; by left|right; by right]. }
  assert (Hleaf : jt <> "array" -> (jt = "object" -> jlookup "properties" raw = Some (TObj [])) ->
     (exists p, shallow σ raw p) \/ bad (new_scalar_tr W (path_of σ) tid raw jt s).2).
  { intros Hna Ho. unfold new_scalar_tr.
    destruct (leaf_type raw jt) as [jt'| |] eqn:Hlt.
    - destruct (Hsec KScalar) as [[ts Hts]|Hb]; [left; eexists; by eapply sh_leaf|]. right.
      unfold leaf_type in Hlt.
      assert (E : forall k : string -> M itr, Heap.mbind
         (if decide (jt = "string") then match jlookup "format" raw with
           | Some (TS (SStr fm)) => mret (if decide (fm = "date-time") then "date-time" else jt)
           | Some _ => mfail | None => mret jt end else mret jt) k s = k jt' s).
      { intros k. unfold Heap.mbind. case_decide.
        - destruct (jlookup "format" raw) as [[[]| | | |]|]; simplify_eq; done.
        - simplify_eq. done. }
      rewrite E. by apply mbind_bad, Hext.
    - unfold leaf_type in Hlt. case_decide; [|done]. right. apply mbind_bad.
      destruct (jlookup "format" raw) as [[[]| | | |]|]; simplify_eq; by left.
    - unfold leaf_type in Hlt. case_decide; [|done]. by destruct (jlookup "format" raw) as [[[]| | | |]|]. }
  case_decide as Ho.
  - subst jt. destruct (jlookup "properties" raw) as [v|] eqn:Hp; [|right; by left].
    assert (E : v = TObj [] \/ v <> TObj []) by (destruct v as [| |[|]| |]; first [by left|by right]).
    destruct E as [->|Hne]; [by apply Hleaf|].
    assert (E0 : match v with TObj [] => new_scalar_tr W (path_of σ) tid raw "object" | _ => new_object_tr W (path_of σ) tid raw end
              = new_object_tr W (path_of σ) tid raw) by (by destruct v as [| |[|]| |]).
    rewrite E0. clear E0. unfold new_object_tr.
    destruct (Hsec KObject) as [[ts Hts]|Hb]; [|right; by apply mbind_bad, Hext].
    destruct (extract_spec raw _ (path_of σ) KObject s Hs Hf eq_refl) as [Hb He]. rewrite Hts in He.
    destruct He as (t & He & Htr). destruct (extract_tis W raw tid (path_of σ) KObject s) as [s1 r1] eqn:E1. cbn in He, Htr, Hb. subst r1. rewrite (mbind_ok _ _ _ _ _ E1).
    destruct (default_spec raw s1 (proj1 Hb) Hdk) as [Hst (dv & Hv & Hrv)].
    destruct (schema_default raw s1) as [s2 r2] eqn:E2. cbn in Hv, Hrv, Hst. subst r2. rewrite (mbind_ok _ _ _ _ _ E2).
    destruct (dflt_of raw) as [sc|l|kvs|n|l] eqn:Ed.
    + leaf Hrv. destruct sc; try (right; by left). left. exists (PObj (path_of σ) None ts []). eapply sh_obj; rewrite ?Ed; done.
    + apply repr_arr in Hrv as (a & n & m & -> & _). right. by left.
    + left. exists (PObj (path_of σ) (Some kvs) ts []). eapply sh_obj; rewrite ?Ed; done.
    + leaf Hrv. right. by left.
    + leaf Hrv. right. by left.
  - case_decide as Ha.
    + subst jt. unfold new_array_tr.
      destruct (Hsec KArray) as [[ts Hts]|Hb]; [|right; by apply mbind_bad, Hext].
      destruct (extract_spec raw _ (path_of σ) KArray s Hs Hf eq_refl) as [Hb He]. rewrite Hts in He.
      destruct He as (t & He & Htr). destruct (extract_tis W raw tid (path_of σ) KArray s) as [s1 r1] eqn:E1. cbn in He, Htr, Hb. subst r1. rewrite (mbind_ok _ _ _ _ _ E1).
      destruct (default_spec raw s1 (proj1 Hb) Hdk) as [Hst (dv & Hv & Hrv)].
      destruct (schema_default raw s1) as [s2 r2] eqn:E2. cbn in Hv, Hrv, Hst. subst r2. rewrite (mbind_ok _ _ _ _ _ E2).
      destruct (dflt_of raw) as [sc|l|kvs|n|l] eqn:Ed.
      * leaf Hrv. destruct sc; try (right; by left). left. exists (PArr (path_of σ) None ts (PScal "" "" (TS SNil) None)). eapply sh_arr; rewrite ?Ed; done.
      * left. exists (PArr (path_of σ) (Some l) ts (PScal "" "" (TS SNil) None)). eapply sh_arr; rewrite ?Ed; done.
      * apply repr_obj in Hrv as (a & m & -> & _). right. by left.
      * leaf Hrv. right. by left.
      * leaf Hrv. right. by left.
    + apply Hleaf; [done|done].
Qed.

(** names of the instances below are plain and distinct, defaults have distinct member names *)
Definition good_names (r : tree) : Prop :=
  (forall nl ps, field_type r = Ok ("object", nl) -> jlookup "properties" r = Some (TObj ps) ->
     NoDup ps.*1 /\ Forall (fun kp => plain_name kp.1) ps) /\
  distinct_keys (dflt_of r).
Definition good (raw : tree) : Prop := forall σ r, inst raw σ r -> good_names r.

Lemma seq_stop {S} (c : S -> S * res unit) r s : bad r -> bad (Schema.seq c (stop r) s).2.
Proof. intros Hr. unfold Schema.seq. destruct (c s) as [s' [[]| |]]; [done|by left|by right]. Qed.
Lemma assoc_depth k kvs v : assoc k kvs = Some v -> depth v < depth (TObj kvs).
Proof.
  intros H. cbn [depth]. induction kvs as [|[k' v'] kvs IH]; cbn in *; [done|].
  case_decide; [simplify_eq; lia|]. specialize (IH H). lia.
Qed.
Lemma jlookup_depth k t v : jlookup k t = Some v -> depth v < depth t.
Proof. destruct t; try done. apply assoc_depth. Qed.
Lemma member_depth k p ps : (k, p) ∈ ps -> depth p < depth (TObj ps).
Proof.
  intros H. cbn [depth]. induction ps as [|[k' v'] ps IH]; [by apply elem_of_nil in H|].
  apply elem_of_cons in H as [H|H]; cbn; [simplify_eq; lia|]. specialize (IH H). lia.
Qed.

Lemma walk_each_total σ q d ts K : q = path_of σ ->
  forall ps, Forall (fun kp => plain_name kp.1) ps -> NoDup ps.*1 ->
  Forall seg_ok σ ->
  (forall k p, (k, p) ∈ ps -> forall c0 r st, focus (seg_str <$> σ) c0 K -> it_path c0 = path_of σ -> kind_ok (Nm k) c0 ->
     K c0 = Ok r -> stok st -> fok st ->
     (exists pp, reads W tid (σ ++ [Nm k]) p pp) \/ bad (walk_raw (walker W tid) p (path_of (σ ++ [Nm k])) (st, r)).2) ->
  forall old r st, focus (seg_str <$> σ) (IObj q d ts old) K -> K (IObj q d ts old) = Ok r ->
  (forall k, k ∈ ps.*1 -> k ∉ old.*1) -> stok st -> fok st ->
  (exists cs, reads_all W tid σ ps cs) \/ bad (walk_each (walker W tid) (path_of σ) ps (st, r)).2.
Proof.
  intros -> ps Hpl Hnd Hσ. induction ps as [|[k p] ps IH]; intros Hp old r st Hf HK Hfresh Hs Hfo.
  - left. exists []. constructor.
  - inversion Hpl as [|? ? Hk Hpl']; subst. cbn in Hk. cbn in Hnd. apply NoDup_cons in Hnd as [Hnk Hnd].
    assert (Hσk : Forall seg_ok (σ ++ [Nm k])) by (apply Forall_app; split; [done|]; constructor; [exact Hk|constructor]).
    cbn [walk_each]. rewrite prepend_name by apply Hk.
    destruct (Hp k p ltac:(left) _ r st Hf eq_refl Hk HK Hs Hfo) as [[pp Hpp]|Hbad].
    + destruct (proj1 walk_ok _ _ _ Hpp σ (Nm k) eq_refl Hσk _ K r st Hf eq_refl Hk HK Hs Hfo) as (st1 & r1 & cc & Hw & Hb & Hi & HK1).
      cbn [with_child] in HK1. rewrite set_child_new in HK1 by (apply Hfresh; left).
      destruct (IH Hpl' Hnd) with (old := old ++ [(k, cc)]) (r := r1) (st := st1) as [[cs Hcs]|Hbad]; try done.
      { intros k' p' Hin. apply Hp. by right. }
      { intros k' Hk'. rewrite fmap_app. cbn. intros [Hin|Hin]%elem_of_app.
        - by apply (Hfresh k'); [right|].
        - apply elem_of_list_singleton in Hin as ->. done. }
      { apply Hb. } { apply Hb. }
      * left. eexists. by constructor.
      * right. unfold Schema.seq. by rewrite Hw.
    + right. unfold Schema.seq. destruct (walk_raw _ p _ _) as [s' [[]| |]]; [by destruct Hbad|by left|by right].
Qed.

Lemma walk_total n raw : depth raw <= n -> good raw -> forall σ s c0 K r st, Forall seg_ok (σ ++ [s]) ->
  focus (seg_str <$> σ) c0 K -> it_path c0 = path_of σ -> kind_ok s c0 -> K c0 = Ok r -> stok st -> fok st ->
  (exists p, reads W tid (σ ++ [s]) raw p) \/
  bad (walk_raw (walker W tid) raw (path_of (σ ++ [s])) (st, r)).2.
Proof.
  revert raw. induction n as [|n IH]; intros raw Hn Hg σ s c0 K r st Hσ Hf Hp Hk HK Hs Hfo.
  { destruct raw; cbn in Hn; lia. }
  destruct (Hg [] raw ltac:(constructor)) as [Hgn Hdk].
  rewrite walk_raw_eq.
  destruct (new_node_bad (σ ++ [s]) raw st Hs Hfo Hdk) as [[p Hsh]|Hbad]; cycle 1.
  { right. unfold Schema.seq, walker. cbn [fst snd].
    destruct (new_node W tid (path_of (σ ++ [s])) raw st) as [st' [c| |]]; [by destruct Hbad|by left|by right]. }
  destruct (walker_ok σ s raw p c0 K r st Hsh Hσ Hf Hp Hk HK Hs Hfo) as (st1 & c & r1 & Hw & Hb & Hnf & Hcp & HK').
  set (K' := fun c => rbind (add_child c0 c) K).
  assert (HKc : forall c, it_path c = path_of (σ ++ [s]) -> K' c = K (with_child s c0 c)).
  { intros cx Hcx. unfold K'. rewrite (add_child_ok σ s); try done. by eapply seg_ok_l. }
  assert (Hf' : focus (seg_str <$> (σ ++ [s])) c K').
  { rewrite fmap_app. apply (focus_child _ c0 K σ s); try done. by eapply seg_ok_l. }
  unfold Schema.seq. rewrite Hw.
  inversion Hsh as [? ? jt nl jt' ts Hft Hna Hobj Hlt Hsec _
    |? ? nl ps d ts cs Hft Hps Hne Hsec Hd _|? ? nl d ts cc Hft Hsec Hd _]; subst; rewrite Hft.
  - left. eexists. by eapply reads_leaf.
  - rewrite decide_True by done. rewrite Hps. destruct ps as [|?|ps|?|?]; try (right; by left).
    destruct c as [|q' d' ts' cs0|]; try done. cbn in Hnf. destruct Hnf as (-> & Hts & -> & Hdd).
    destruct (Hgn nl ps Hft Hps) as [Hnd Hpl].
    destruct (walk_each_total (σ ++ [s]) _ d' ts' K' eq_refl ps Hpl Hnd Hσ) with (old := @nil (string * itr)) (r := r1) (st := st1)
      as [[cs' Hcs']|Hbad]; try done.
    + intros k p Hin c1 r2 st2 Hf2 Hp2 Hk2 HK2 Hs2 Hfo2.
      apply IH with (c0 := c1) (K := K'); try done.
      * pose proof (jlookup_depth _ _ _ Hps). pose proof (member_depth _ _ _ Hin). lia.
      * intros σ' r' Hr'. apply (Hg (Nm k :: σ')). by eapply inst_prop.
      * apply Forall_app. split; [done|]. constructor; [|constructor]. by destruct c1.
    + by rewrite HKc.
    + intros k _. apply not_elem_of_nil.
    + apply Hb.
    + apply Hb.
    + left. eexists. eapply reads_obj; try done. by intros ->.
    + by right.
  - rewrite decide_False, decide_True by done. destruct (jlookup "items" raw) as [i|] eqn:Hi; [|right; by left].
    destruct c as [| |q' d' ts' cs0]; try done. cbn in Hnf. destruct Hnf as (-> & Hts & -> & Hdd).
    rewrite <- path_of_star.
    destruct (IH i) with (σ := σ ++ [s]) (s := Star) (c0 := IArr (path_of (σ ++ [s])) d' ts' None) (K := K') (r := r1) (st := st1)
      as [[pp Hpp]|Hbad]; try done.
    + pose proof (jlookup_depth _ _ _ Hi). lia.
    + intros σ' r' Hr'. apply (Hg (Star :: σ')). by eapply inst_item.
    + apply Forall_app. split; [done|]. constructor; [exact I|constructor].
    + by rewrite HKc.
    + apply Hb.
    + apply Hb.
    + left. eexists. by eapply reads_arr.
    + by right.
Qed.

(** ** the whole schema *)
(** the reading of a schema with properties, visited in the order listed *)
Definition reads_root (props : list (string * tree)) (p : pitr) : Prop :=
  exists cs, p = PObj "$" None None cs /\ reads_all W tid [] props cs.
Definition reads_items (i : tree) (p : pitr) : Prop :=
  exists c, p = PArr "$" None None c /\ reads W tid [Star] i c.

Definition good_props (props : list (string * tree)) : Prop :=
  NoDup props.*1 /\ Forall (fun kp => plain_name kp.1 /\ good kp.2) props.

Lemma build_ok props cs s : good_props props -> reads_all W tid [] props cs -> stok s -> fok s ->
  exists s' i, new_transformer W tid (Some props) None s = (s', Ok i) /\ bstep s s' /\
    irel (hp s') (froms s') i (PObj "$" None None cs).
Proof.
  intros [Hnd Hpl] Hall Hs Hf. unfold new_transformer, walk_raw_schema. change (default [] (Some props)) with props.
  destruct (proj2 walk_ok [] props cs Hall) with (q := "$") (d := @None nat) (ts := @None tis) (old := @nil (string * itr))
    (K := @Ok itr) (r := IObj "$" None None []) (st := s) as (s' & r' & cs' & Hw & Hb & Hk & HK); try done.
  - eapply Forall_impl; [exact Hpl|]. by intros ? [? _].
  - apply focus_root.
  - intros k _. apply not_elem_of_nil.
  - cbn in HK. simplify_eq. unfold Schema.seq. change (path_of []) with "$" in Hw. rewrite Hw. cbn [fst snd stop].
    eexists _, _. split; [done|]. split; [done|]. apply irel_obj. done.
Qed.
Lemma build_items_ok i c s : reads W tid [Star] i c -> stok s -> fok s ->
  exists s' r, new_transformer W tid None (Some i) s = (s', Ok r) /\ bstep s s' /\
    irel (hp s') (froms s') r (PArr "$" None None c).
Proof.
  intros Hr Hs Hf. unfold new_transformer, walk_raw_schema. change (default [] (@None (list (string * tree)))) with (@nil (string * tree)). cbn [walk_each].
  destruct (proj1 walk_ok [Star] i c Hr [] Star eq_refl) with (c0 := IArr "$" None None None)
    (K := @Ok itr) (r := IArr "$" None None None) (st := s) as (s' & r' & c' & Hw & Hb & Hk & HK); try done.
  - constructor; [exact I|constructor].
  - apply focus_root.
  - cbn in HK. simplify_eq. unfold Schema.seq, stop. change (path_of [Star]) with ("$" +:+ "[*]") in Hw. rewrite Hw. cbn [fst snd].
    eexists _, _. split; [done|]. split; [done|]. cbn [irel]. done.
Qed.
Lemma build_total props s : good_props props -> stok s -> fok s ->
  (exists cs, reads_all W tid [] props cs) \/ bad (new_transformer W tid (Some props) None s).2.
Proof.
  intros [Hnd Hpl] Hs Hf. unfold new_transformer, walk_raw_schema. change (default [] (Some props)) with props.
  destruct (walk_each_total [] "$" (@None nat) (@None tis) (@Ok itr) eq_refl props) with (old := @nil (string * itr))
    (r := IObj "$" None None []) (st := s) as [Hcs|Hbad]; try done.
  - eapply Forall_impl; [exact Hpl|]. by intros ? [? _].
  - intros k p Hin c0 r st Hf0 Hp0 Hk0 HK0 Hs0 Hfo0.
    apply (walk_total (depth p) p) with (c0 := c0) (K := @Ok itr); try done.
    + rewrite Forall_forall in Hpl. by apply (Hpl (k, p)).
    + constructor; [|constructor]. by destruct c0.
  - apply focus_root.
  - intros k _. apply not_elem_of_nil.
  - by left.
  - right. unfold Schema.seq. change (path_of []) with "$" in Hbad.
    destruct (walk_each _ _ _ _) as [s' [[]| |]]; [by destruct Hbad|by left|by right].
Qed.
Lemma build_items_total i s : good i -> stok s -> fok s ->
  (exists c, reads W tid [Star] i c) \/ bad (new_transformer W tid None (Some i) s).2.
Proof.
  intros Hg Hs Hf. unfold new_transformer, walk_raw_schema. change (default [] (@None (list (string * tree)))) with (@nil (string * tree)). cbn [walk_each].
  destruct (walk_total (depth i) i ltac:(done) Hg [] Star (IArr "$" None None None) (@Ok itr) (IArr "$" None None None) s) as [Hcs|Hbad]; try done.
  - constructor; [exact I|constructor].
  - apply focus_root.
  - by left.
  - right. unfold Schema.seq, stop. change (path_of ([] ++ [Star])) with ("$" +:+ "[*]") in Hbad.
    destruct (walk_raw _ _ _ _) as [s' [[]| |]]; [by destruct Hbad|by left|by right].
Qed.
End build.

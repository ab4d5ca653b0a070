(** Replacing one reference; no references in loaded schemas; loading several files; cycles. *)
From stdpp Require Import strings list gmap.
From Coq Require Import Ascii ZArith.
From Verif Require Import GoStr GoStrL Val Schema Inst Load SpecLoad SpecRef SpecExp FlatL RefL DerefL TermL ExpL ExpT.
From Verif Require Den HeapL.

(** ** one reference *)
Lemma apart_of p q : ~ (exists r, q = p ++ r) -> ~ (exists r, p = q ++ r) -> apart p q.
Proof. intros H1 H2. destruct (apart_or p q) as [H|[[r [H _]]|H]]; [done| |done]. destruct H2. by exists r. Qed.
Lemma replaced F lf path data π o r T : distinct data -> reach data π o -> π <> [] -> assoc "$ref" o = Some (TS (SStr r)) ->
  plain (TObj o) -> refers F lf path data r T ->
  exists data' o', expand_ref F lf path (π ++ ["$ref"]) data = Some (Ok data') /\ pget π data' = Some (TObj o') /\
    (forall k, k <> "$ref" -> assoc k o' = over (assoc k o) (assoc k T)) /\
    assoc "$ref" o' = assoc "$ref" T /\
    (forall q, ~ (exists ρ, q = π ++ ρ) -> ~ (exists ρ, π = q ++ ρ) -> pget q data' = pget q data).
Proof.
  intros Hd Hr Hne Ho Hpl HT. pose proof (reach_pget _ _ _ Hr) as Hg. pose proof (reach_nodup _ _ _ Hd Hr) as Hnd.
  assert (HR : resolve F lf r data path = Some (Ok (TObj T))).
  { destruct HT as (src & τ & o1 & Hs & Hg1 & ->). rewrite resolve_eq. destruct Hs as [[Hown ->]|Hoth].
    - destruct (own_resolves F lf path r τ data Hown) as [-> ->]. by rewrite Hg1.
    - destruct (other_resolves F lf path r src τ data Hoth) as [-> ->]. by rewrite Hg1. }
  rewrite (expand_ref_eq F lf path π data r o Hg Ho), HR, decide_False by done.
  destruct (pset_some π (TObj (overlay (del_assoc "$ref" o) T)) data (TObj o) Hg) as [data' Hs]. rewrite Hs.
  exists data', (overlay (del_assoc "$ref" o) T). split; [done|]. split; [|split; [|split]].
  - rewrite <- (app_nil_r π). by rewrite (pset_get π _ data data' []) by eauto.
  - intros k Hk. rewrite overlay_assoc by (by apply del_assoc_nodup). rewrite del_assoc_other by done. unfold over.
    destruct (assoc k o) as [v|] eqn:E; [|done]. f_equal. apply plain_remarshal. by eapply plain_assoc.
  - rewrite overlay_assoc by (by apply del_assoc_nodup). by rewrite del_assoc_same.
  - intros q H1 H2. eapply pset_apart; [exact Hs|by eexists|by apply apart_of].
Qed.

(** ** no references in a loaded schema *)
Definition noref (t : tree) : Prop := forall π r, ~ ref_at t π r.
Definition cleanv (v : tree) : Prop :=
  match v with TObj _ => noref v | TArr l => Forall (fun x => match x with TObj _ => noref x | _ => True end) l | _ => True end.
Lemma noref_obj kvs : noref (TObj kvs) <-> (forall r, assoc "$ref" kvs <> Some (TS (SStr r))) /\ (forall k v, assoc k kvs = Some v -> cleanv v).
Proof.
  split.
  - intros H. split.
    + intros r Hr. apply (H [] r). by apply ref_obj_here.
    + intros k v Hv. destruct v as [s|l|o|n|l]; try done; cbn.
      * apply Forall_lookup. intros i x Hx. destruct x as [s|l'|o|n|l']; try done. intros π r (o' & Ho & Hr). apply (H (k :: item_key i :: π) r). exists o'. split; [|done]. by eapply reach_item.
      * intros π r (o' & Ho & Hr). apply (H (k :: π) r). exists o'. split; [|done]. by eapply reach_member.
  - intros [H1 H2] π r (o & Hr & Ho). inversion Hr as [?|? k o' π' ? Hk Hr'|? k l i o' π' ? Hk Hi Hr']; subst.
    + by apply (H1 r).
    + apply H2 in Hk. cbn in Hk. apply (Hk π' r). by exists o.
    + apply H2 in Hk. cbn in Hk. rewrite Forall_lookup in Hk. specialize (Hk i _ Hi). cbn in Hk. apply (Hk π' r). by exists o.
Qed.
Lemma noref_all kvs : Forall (fun kv : string * tree => kv.1 <> "$ref" /\ cleanv kv.2) kvs -> noref (TObj kvs).
Proof.
  intros H. rewrite Forall_forall in H. apply noref_obj. split.
  - intros r Hr%assoc_elem. by destruct (H _ Hr).
  - intros k v Hv%assoc_elem. by destruct (H _ Hv).
Qed.
Definition cleano (v : option tree) : Prop := match v with Some v => cleanv v | None => True end.
Definition sub_clean (m : instance) : Prop := noref (m_inst m) /\ noref (TObj (props_of m)) /\ cleano (n_items m).
Definition clean (i : instance) : Prop :=
  n_ref i = "" /\ Forall sub_clean (n_allOf i) /\ Forall sub_clean (n_anyOf i) /\ Forall sub_clean (n_oneOf i) /\
  noref (TObj (props_of i)) /\ cleano (n_items i) /\ cleano (n_defs i).
Lemma when_all (P : string * tree -> Prop) b k v : (b = true -> P (k, v)) -> Forall P (when b k v).
Proof. intros H. destruct b; cbn; [|constructor]. constructor; [by apply H|constructor]. Qed.
Lemma m_inst_obj i : exists kvs, m_inst i = TObj kvs. Proof. destruct i. by eexists. Qed.
Lemma subs_clean l : Forall sub_clean l -> cleanv (TArr (map m_inst l)).
Proof. intros H. cbn. induction H as [|m l (Hm & _) _ IH]; cbn; constructor; [|done]. destruct (m_inst_obj m) as [kvs E]. rewrite E in *. done. Qed.
Lemma strs_clean l : cleanv (m_strs l).
Proof. unfold m_strs. cbn. induction l; cbn; by constructor. Qed.
Lemma clean_noref i : clean i -> noref (m_inst i).
Proof.
  intros (H1 & H2 & H3 & H4 & H5 & H6 & H7). destruct i as [addl al an de df em fm fr ga it on ps rf rq sc ta ty]. cbn in *. subst rf.
  apply noref_all. unfold m_str, m_raw. repeat (apply Forall_app; split); try (apply when_all; intros Hb; split; [done|]; try done).
  - by apply subs_clean.
  - by apply subs_clean.
  - destruct df; [|constructor]. constructor; [|constructor]. by split.
  - apply strs_clean.
  - destruct it; [|constructor]. constructor; [|constructor]. by split.
  - by apply subs_clean.
  - apply strs_clean.
  - constructor; [|constructor]. split; [done|]. destruct ty; [apply strs_clean|done].
Qed.
Lemma clean_sub i : clean i -> sub_clean i.
Proof. intros H. split; [by apply clean_noref|]. by destruct H as (_ & _ & _ & _ & ? & ? & _). Qed.
Lemma clean_absorb s m : clean s -> sub_clean m -> clean (absorb s m).
Proof.
  intros (H1 & H2 & H3 & H4 & H5 & H6 & H7) (_ & M1 & M2). destruct s as [addl al an de df em fm fr ga it on ps rf rq sc ta ty]. unfold absorb, clean, props_of in *. cbn in *.
  split; [done|]. split; [done|]. split; [done|]. split; [done|]. split; [|split; [by destruct it|done]].
  apply noref_obj in H5 as [Ha Hb]. apply noref_obj in M1 as [Ma Mb]. apply noref_obj.
  pose proof (fun k => merge_assoc k ps (n_props m)) as E. unfold merge_props in E. cbn [from_option id] in E. split.
  - intros r. rewrite E. destruct (assoc "$ref" (default [] ps)) eqn:Ex; [|apply Ma]. intros [= ->]. by apply (Ha r).
  - intros k v. rewrite E. destruct (assoc k (default [] ps)) eqn:Ex; [intros [= <-]; by eapply Hb|apply Mb].
Qed.
Lemma clean_flatten fl ty i : clean i -> clean (flatten fl ty i).
Proof.
  intros H. pose proof H as (_ & H2 & _ & H4 & _). unfold flatten.
  assert (Ha : clean (foldl (all_step fl) i (n_allOf i))).
  { clear H4. revert H2. generalize (n_allOf i). intros l Hl. revert i H. induction Hl as [|m l Hm Hl IH]; intros i H; [done|]. cbn [foldl]. apply IH.
    unfold all_step. destruct (negb fl && _); [done|]. by apply clean_absorb. }
  revert Ha. generalize (foldl (all_step fl) i (n_allOf i)). clear H H2. induction H4 as [|m l Hm Hl IH]; intros s Hs; [done|]. cbn [foldl]. apply IH.
  unfold one_step. destruct (decide _); [by apply clean_absorb|done].
Qed.
Lemma rbind_ok {A B} (r : res A) (f : A -> res B) b : rbind r f = Ok b -> exists a, r = Ok a /\ f a = Ok b.
Proof. destruct r; cbn; try done. intros H. by eexists. Qed.
Lemma d_str_ref kvs s : (forall r, assoc "$ref" kvs <> Some (TS (SStr r))) -> d_str (assoc "$ref" kvs) = Ok s -> s = "".
Proof. intros H. destruct (assoc "$ref" kvs) as [[[]|l|o|n|l]|] eqn:E; cbn; try done; try congruence. Qed.
Lemma seqs_ok {A} (l : list (res A)) la : seqs l = Ok la -> Forall2 (fun r a => r = Ok a) l la.
Proof.
  revert la. induction l as [|r l IH]; intros la H; cbn in H; [injection H as <-; constructor|].
  apply rbind_ok in H as (a & -> & H). apply rbind_ok in H as (la' & H1 & H2). injection H2 as <-. constructor; [done|by apply IH].
Qed.
Lemma assocd_map {A} (f : tree -> A) k kvs : assocd k (map (fun kv : string * tree => let (k, v) := kv in (k, f v)) kvs) = f <$> assoc k kvs.
Proof. induction kvs as [|[k' v] kvs IH]; [done|]. cbn. by destruct (decide (k' = k)). Qed.
Lemma d_inst_clean_go t : cleanv t -> match t with TArr l => Forall (fun x => forall a i, d_inst a x = Ok i -> clean i) l | _ => forall a i, d_inst a t = Ok i -> clean i end.
Proof.
  induction t as [s|l IH|kvs IH|n|l] using HeapL.tree_ind'; intros Hn; try (intros a i Hi); try done.
  - cbn in Hi. destruct s; try done. injection Hi as <-. unfold clean, zero_inst, props_of. cbn. repeat split; try constructor. apply noref_all. constructor.
  - cbn in Hn. rewrite !Forall_forall in *. intros x Hx a i Hi. specialize (IH x Hx). specialize (Hn x Hx).
    destruct x as [s|l'|o|n|l']; try done; by eapply IH.
  - pose proof (proj1 (noref_obj kvs) Hn) as [Hr Hm]. cbn [d_inst] in Hi.
    set (dl := fun v => match v with TS SNil => Ok [] | TArr l => seqs (map (d_inst false) l) | _ => Err end) in Hi.
    assert (Hsub : forall k al, d_subs (assocd k (map (fun kv : string * tree => let (k, v) := kv in (k, dl v)) kvs)) = Ok al -> Forall sub_clean al).
    { intros k al. rewrite assocd_map. destruct (assoc k kvs) as [v|] eqn:E; cbn; [|intros [= <-]; constructor].
      pose proof (Hm _ _ E) as Hv. apply assoc_elem in E. rewrite Forall_forall in IH. specialize (IH _ E). cbn in IH.
      destruct v as [[]|l|o|n|l]; try done; cbn [dl]; [intros [= <-]; constructor|]. intros Hs%seqs_ok.
      specialize (IH Hv). cbn in IH. rewrite Forall2_fmap_l in Hs.
      clear -Hs IH. induction Hs as [|x y l al Hxy Hs IHs]; [constructor|]. apply Forall_cons in IH as [Hx IH]. constructor; [|by apply IHs]. apply clean_sub. by eapply Hx. }
    apply rbind_ok in Hi as (ad & _ & Hi). apply rbind_ok in Hi as (al & Hal & Hi). apply rbind_ok in Hi as (an & Han & Hi).
    do 5 (apply rbind_ok in Hi as (? & _ & Hi)). apply rbind_ok in Hi as (on & Hon & Hi). apply rbind_ok in Hi as (ps & Hps & Hi).
    apply rbind_ok in Hi as (rf & Hrf & Hi). do 4 (apply rbind_ok in Hi as (? & _ & Hi)). injection Hi as <-.
    unfold clean, props_of. cbn. split; [by eapply d_str_ref|]. split; [by eapply Hsub|]. split; [by eapply Hsub|]. split; [by eapply Hsub|].
    split; [|split].
    + destruct (assoc "properties" kvs) as [v|] eqn:E; [|injection Hps as <-; apply noref_all; constructor]. pose proof (Hm _ _ E) as Hv.
      destruct v as [[]|l|o|n|l]; cbn in Hps; try done; injection Hps as <-; [apply noref_all; constructor|exact Hv].
    + destruct (assoc "items" kvs) eqn:E; [by eapply Hm|done].
    + destruct (assoc "definitions" kvs) eqn:E; [by eapply Hm|done].
Qed.
Lemma d_inst_clean t a i : noref t -> d_inst a t = Ok i -> clean i.
Proof. intros Hn Hi. pose proof (d_inst_clean_go t) as H. destruct t as [s|l|kvs|n|l]; try done; by eapply H. Qed.
Lemma deref_noref F lf path n data d : dereference F lf path n data = Some (Ok d) -> noref d.
Proof.
  revert data. induction n as [|n IH]; intros data H; [done|]. cbn [dereference] in H.
  destruct data as [s|l|kvs|k|l]; try done. destruct (expand_all _ _ _ _ _) as [[d1| |]|]; try done.
  destruct d1 as [s|l|kvs'|k|l]; try done. destruct (decide (find_refs (TObj kvs') = [])) as [E|]; [|by eapply IH].
  injection H as <-. intros π r Hr%find_refs_complete. rewrite E in Hr. by apply elem_of_nil in Hr.
Qed.
Lemma load_noref F ty fl n path i : load_schema F ty fl n path = Some (Ok i) -> noref (m_inst i).
Proof.
  destruct n as [|n]; [done|]. cbn [load_schema]. destruct (f_file F path) as [doc|]; [|done]. destruct (negb _); [done|].
  destruct (dereference F _ path (S n) doc) as [[d| |]|] eqn:E; try done. intros [= H]. apply rbind_ok in H as (j & Hj & [= <-]).
  apply clean_noref, clean_flatten. eapply d_inst_clean; [|exact Hj]. by eapply deref_noref.
Qed.

(** ** loading with enough fuel *)
Definition below {A} (f g : string -> option A) : Prop := forall q x, f q = Some x -> g q = Some x.
Lemma resolve_below F lf lf' r data path x : below lf lf' -> resolve F lf r data path = Some x -> resolve F lf' r data path = Some x.
Proof.
  intros Hb. unfold resolve. destruct (decide _); [done|]. destruct (has_prefix _ _); [done|]. destruct (decide _); [done|].
  destruct (lf _) as [y|] eqn:E; [|done]. by rewrite (Hb _ _ E).
Qed.
Lemma expand_below F lf lf' path rp data x : below lf lf' -> expand_ref F lf path rp data = Some x -> expand_ref F lf' path rp data = Some x.
Proof.
  intros Hb. unfold expand_ref. destruct (pget rp data) as [[[]|l|o|n|l]|]; try done. destruct (resolve F lf _ _ _) as [y|] eqn:E; [|done].
  by rewrite (resolve_below _ _ _ _ _ _ _ Hb E).
Qed.
Lemma expand_all_below F lf lf' path rs data x : below lf lf' -> expand_all F lf path rs data = Some x -> expand_all F lf' path rs data = Some x.
Proof.
  intros Hb. revert data. induction rs as [|r rs IH]; intros data; [done|]. cbn [expand_all]. destruct (expand_ref F lf _ _ _) as [y|] eqn:E; [|done].
  rewrite (expand_below _ _ _ _ _ _ _ Hb E). destruct y; [apply IH|done|done].
Qed.
Lemma deref_below F lf lf' path n data x : below lf lf' -> dereference F lf path n data = Some x -> dereference F lf' path n data = Some x.
Proof.
  intros Hb. revert data. induction n as [|n IH]; intros data; [done|]. cbn [dereference]. destruct data as [s|l|kvs|k|l]; try done.
  destruct (expand_all F lf _ _ _) as [y|] eqn:E; [|done]. rewrite (expand_all_below _ _ _ _ _ _ _ Hb E).
  destruct y as [d| |]; try done. destruct d as [s|l|kvs'|k|l]; try done. destruct (decide _); [done|apply IH].
Qed.
Lemma load_mono F ty fl n n' path x : load_schema F ty fl n path = Some x -> n <= n' -> load_schema F ty fl n' path = Some x.
Proof.
  revert n' path x. induction n as [|n IH]; intros n' path x H Hn; [done|]. destruct n' as [|n']; [lia|]. cbn [load_schema] in *.
  destruct (f_file F path) as [doc|]; [|done]. destruct (negb _); [done|].
  destruct (dereference F (load_schema F ty fl n) path (S n) doc) as [y|] eqn:E; [|done].
  assert (Hb : below (load_schema F ty fl n) (load_schema F ty fl n')) by (intros q z Hz; eapply IH; [done|lia]).
  rewrite (deref_mono _ _ _ (S n) (S n') _ _ (deref_below _ _ _ _ _ _ _ Hb E)) by lia. done.
Qed.
Lemma loads_all F ty fl (m : gmap string instance) : (forall q j, m !! q = Some j -> exists n, load_schema F ty fl n q = Some (Ok j)) ->
  exists n, forall q j, m !! q = Some j -> load_schema F ty fl n q = Some (Ok j).
Proof.
  induction m as [|q j m Hq IH] using map_ind; intros H.
  - exists 0. intros q j Hj. by rewrite lookup_empty in Hj.
  - destruct IH as [n1 IH]. { intros q' j' Hj. apply H. rewrite lookup_insert_ne; [done|]. congruence. }
    destruct (H q j) as [n2 H2]; [by rewrite lookup_insert|]. exists (n1 + n2). intros q' j' Hj. destruct (decide (q = q')) as [<-|N].
    + rewrite lookup_insert in Hj. injection Hj as <-. by apply (load_mono _ _ _ n2); [|lia].
    + rewrite lookup_insert_ne in Hj by done. apply (load_mono _ _ _ n1); [by apply IH|lia].
Qed.
Lemma file_loads F ty fl (m : gmap string instance) path o rk K :
  (forall q j, m !! q = Some j -> exists n, load_schema F ty fl n q = Some (Ok j)) ->
  f_file F path = Some (TObj o) -> f_valid F path = true -> distinct (TObj o) ->
  ranked F (fun q => Ok <$> m !! q) path (TObj o) rk K ->
  exists n0 d, (forall π r, ~ ref_at d π r) /\
    forall n, n0 <= n -> load_schema F ty fl n path = Some (rbind (d_inst true d) (fun i => Ok (flatten fl ty i))).
Proof.
  intros Hm Hf Hv Hd Hr. destruct (loads_all F ty fl m Hm) as [n1 H1].
  destruct (deref_total F (fun q => Ok <$> m !! q) path rk K o Hd Hr) as (n2 & o' & H2 & Hn & _).
  exists (S (n1 + n2)), (TObj o'). split; [by eapply (deref_noref _ _ _ n2), H2|].
  intros n Hle. destruct n as [|n]; [lia|]. cbn [load_schema]. rewrite Hf, Hv. cbn [negb].
  assert (Hb : below (fun q => Ok <$> m !! q) (load_schema F ty fl n)).
  { intros q x Hx. apply fmap_Some in Hx as (j & Hj & ->). apply (load_mono _ _ _ n1); [by apply H1|lia]. }
  rewrite (deref_below _ _ _ _ _ _ _ Hb (H2 (S n) ltac:(lia))). done.
Qed.

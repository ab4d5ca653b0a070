(** Lemmas about jsonparser's functions on trees, and about references. *)
From stdpp Require Import strings list gmap.
From Coq Require Import Ascii ZArith.
From Verif Require Import GoStr GoStrL Val Schema Inst Load SpecLoad SpecRef FlatL.
From Verif Require Den HeapL.

(** ** member lists *)
Lemma set_assoc_same k v kvs : assoc k (set_assoc k v kvs) = Some v.
Proof. induction kvs as [|[k' v'] kvs IH]; cbn; [by rewrite decide_True|]. case_decide; cbn; [by rewrite decide_True|]. by rewrite decide_False. Qed.
Lemma set_assoc_other k k2 v kvs : k2 <> k -> assoc k2 (set_assoc k v kvs) = assoc k2 kvs.
Proof.
  intros H. induction kvs as [|[k' v'] kvs IH]; cbn; [by rewrite decide_False|]. destruct (decide (k' = k)) as [->|N]; cbn.
  - by rewrite !decide_False.
  - case_decide; done.
Qed.
Lemma set_assoc_twice k v w kvs : set_assoc k v (set_assoc k w kvs) = set_assoc k v kvs.
Proof. induction kvs as [|[k' v'] kvs IH]; cbn; [by rewrite decide_True|]. destruct (decide (k' = k)); cbn; [by rewrite decide_True|]. rewrite decide_False by done. by rewrite IH. Qed.
Lemma set_assoc_keys k v kvs : k ∈ kvs.*1 -> (set_assoc k v kvs).*1 = kvs.*1.
Proof.
  induction kvs as [|[k' v'] kvs IH]; intros H; [by apply elem_of_nil in H|]. cbn. destruct (decide (k' = k)) as [->|N]; [done|].
  cbn. f_equal. apply IH. cbn in H. apply elem_of_cons in H as [->|H]; done.
Qed.
Lemma set_assoc_keys_new k v kvs : k ∉ kvs.*1 -> set_assoc k v kvs = kvs ++ [(k, v)].
Proof.
  induction kvs as [|[k' v'] kvs IH]; intros H; [done|]. cbn in *. apply not_elem_of_cons in H as [H1 H2]. rewrite decide_False by congruence.
  by rewrite IH.
Qed.
Lemma set_assoc_nodup k v kvs : NoDup kvs.*1 -> NoDup (set_assoc k v kvs).*1.
Proof.
  intros H. destruct (decide (k ∈ kvs.*1)) as [Hin|Hin].
  - by rewrite set_assoc_keys.
  - rewrite set_assoc_keys_new by done. rewrite fmap_app. apply NoDup_app. split; [done|]. split; [|apply NoDup_singleton].
    intros x Hx Hx'. apply elem_of_list_singleton in Hx'. cbn in Hx'. congruence.
Qed.
Lemma assoc_elem k v kvs : assoc k kvs = Some v -> (k, v) ∈ kvs.
Proof.
  induction kvs as [|[k' v'] kvs IH]; [done|]. cbn. destruct (decide (k' = k)) as [->|N]; [intros [= ->]; by left|]. intros H%IH. by right.
Qed.
Lemma elem_assoc k v kvs : NoDup kvs.*1 -> (k, v) ∈ kvs -> assoc k kvs = Some v.
Proof.
  induction kvs as [|[k' v'] kvs IH]; intros Hnd H; [by apply elem_of_nil in H|]. cbn in *. apply NoDup_cons in Hnd as [H1 H2].
  apply elem_of_cons in H as [[= -> ->]|H]; [by rewrite decide_True|]. rewrite decide_False; [by apply IH|].
  intros ->. apply H1. by apply (elem_of_list_fmap_1 fst) in H.
Qed.
Lemma assoc_key k v kvs : assoc k kvs = Some v -> k ∈ kvs.*1.
Proof. intros H%assoc_elem. by apply (elem_of_list_fmap_1 fst) in H. Qed.
Lemma del_assoc_other k k2 kvs : k2 <> k -> assoc k2 (del_assoc k kvs) = assoc k2 kvs.
Proof.
  intros H. induction kvs as [|[k' v'] kvs IH]; [done|]. cbn. destruct (decide (k' = k)) as [->|N].
  - by rewrite decide_False.
  - cbn. case_decide; [done|]. exact IH.
Qed.
Lemma del_assoc_sub k kvs kv : kv ∈ del_assoc k kvs -> kv ∈ kvs.
Proof.
  induction kvs as [|[k' v'] kvs IH]; [done|]. cbn. destruct (decide (k' = k)); [by right|]. intros H. apply elem_of_cons in H as [->|H]; [by left|]. right. by apply IH.
Qed.
Lemma del_assoc_nodup k kvs : NoDup kvs.*1 -> NoDup (del_assoc k kvs).*1.
Proof.
  induction kvs as [|[k' v'] kvs IH]; intros H; [constructor|]. cbn in *. apply NoDup_cons in H as [H1 H2]. case_decide; [done|].
  cbn. apply NoDup_cons. split; [|by apply IH]. intros (kv & -> & Hkv)%elem_of_list_fmap. apply H1. apply elem_of_list_fmap_1. by eapply del_assoc_sub.
Qed.
Lemma del_assoc_same k kvs : NoDup kvs.*1 -> assoc k (del_assoc k kvs) = None.
Proof.
  induction kvs as [|[k' v'] kvs IH]; intros H; [done|]. cbn in *. apply NoDup_cons in H as [H1 H2]. destruct (decide (k' = k)) as [->|N].
  - by apply assoc_notin.
  - cbn. rewrite decide_False by done. by apply IH.
Qed.
(** ** array items *)
Lemma item_key_inj i j : item_key i = item_key j -> i = j.
Proof.
  unfold item_key. intros H. apply app_cancel_l in H.
  assert (H2 : itoa (Z.of_nat i) = itoa (Z.of_nat j)).
  { pose proof (last_chr_inj "]" (itoa (Z.of_nat i)) "" (itoa (Z.of_nat j)) "" eq_refl eq_refl H) as [E _]. exact E. }
  apply itoa_inj in H2. lia.
Qed.
Lemma item_key_ne_ref i : item_key i <> "$ref".
Proof. unfold item_key. cbn. intros [= H]. Qed.
Lemma item_at_spec k j l : item_at k j l =
  match list_find (fun i => item_key i = k) (List.seq j (length l)) with Some (i, _) => (fun x => (j + i, x)) <$> l !! i | None => None end.
Proof.
  revert j. induction l as [|x l IH]; intros j; [done|]. cbn [item_at length List.seq list_find]. destruct (decide (item_key j = k)) as [E|N].
  - cbn. by rewrite Nat.add_0_r.
  - rewrite IH. destruct (list_find _ _) as [[i ?]|]; [|done]. cbn. destruct (l !! i); [|done]. cbn. by rewrite Nat.add_succ_r.
Qed.
Lemma item_at_key i j x l : l !! i = Some x -> item_at (item_key (j + i)) j l = Some (j + i, x).
Proof.
  revert i j. induction l as [|y l IH]; intros i j H; [done|]. cbn [item_at]. destruct i as [|i].
  - rewrite Nat.add_0_r, decide_True by done. cbn in H. congruence.
  - rewrite decide_False by (intros E%item_key_inj; lia). replace (j + S i) with (S j + i) by lia. by apply IH.
Qed.
Lemma item_at_inv k j l i x : item_at k j l = Some (i, x) -> exists n, i = j + n /\ l !! n = Some x /\ k = item_key i.
Proof.
  revert j. induction l as [|y l IH]; intros j; [done|]. cbn [item_at]. destruct (decide (item_key j = k)) as [E|N].
  - intros [= <- <-]. exists 0. split; [lia|]. done.
  - intros (n & -> & Hn & ->)%IH. exists (S n). split; [lia|]. done.
Qed.

(** ** pget and pset *)
Lemma pget_app p q t : pget (p ++ q) t = pget p t ≫= pget q.
Proof.
  revert t. induction p as [|k p IH]; intros t; [done|]. cbn. destruct t as [s|l|kvs|n|l]; try done.
  - destruct (item_at k 0 l) as [x|]; [|done]. cbn. apply IH.
  - destruct (assoc k kvs) as [v|]; [|done]. cbn. apply IH.
Qed.
Lemma pset_some p v t old : pget p t = Some old -> exists t', pset p v t = Some t'.
Proof.
  revert t. induction p as [|k p IH]; intros t H; [by eexists|]. cbn in *. destruct t as [s|l|kvs|n|l]; try done.
  - destruct (item_at k 0 l) as [x|]; [|done]. cbn in *. destruct (IH _ H) as [t' ->]. by eexists.
  - destruct (assoc k kvs) as [w|]; [|done]. cbn in *. destruct (IH _ H) as [t' ->]. by eexists.
Qed.
Lemma item_at_set l i y x k : item_at k 0 l = Some (i, y) -> item_at k 0 (<[i:=x]> l) = Some (i, x).
Proof.
  intros (n & -> & Hn & ->)%item_at_inv. cbn. apply (item_at_key n 0). apply list_lookup_insert. by eapply lookup_lt_Some.
Qed.
Lemma item_at_set_other l i y x k k2 : item_at k 0 l = Some (i, y) -> k2 <> k -> item_at k2 0 (<[i:=x]> l) = item_at k2 0 l.
Proof.
  intros Hk Hne. destruct (item_at k2 0 l) as [[j z]|] eqn:E.
  - apply item_at_inv in E as (n & -> & Hn & ->). cbn. apply (item_at_key n 0). apply item_at_inv in Hk as (m & -> & Hm & ->). cbn in *.
    rewrite list_lookup_insert_ne; [done|]. intros ->. done.
  - destruct (item_at k2 0 (<[i:=x]> l)) as [[j z]|] eqn:E2; [|done]. exfalso.
    apply item_at_inv in E2 as (n & -> & Hn & ->). cbn in *. apply lookup_lt_Some in Hn. rewrite insert_length in Hn.
    apply lookup_lt_is_Some in Hn as [w Hw]. pose proof (item_at_key n 0 w l Hw) as H. cbn in H. congruence.
Qed.
Lemma pset_get p v t t' q : (exists old, pget p t = Some old) -> pset p v t = Some t' -> pget (p ++ q) t' = pget q v.
Proof.
  revert t t'. induction p as [|k p IH]; intros t t' [old Ho] H; [cbn in *; congruence|]. cbn in *. destruct t as [s|l|kvs|n|l]; try done.
  - destruct (item_at k 0 l) as [[i x]|] eqn:E; [|done]. cbn in *. destruct (pset p v x) as [t1|] eqn:E1; [|done]. injection H as <-.
    cbn. rewrite (item_at_set _ _ _ _ _ E). cbn. eapply IH; by eauto.
  - destruct (assoc k kvs) as [w|] eqn:E; [|done]. cbn in *. destruct (pset p v w) as [t1|] eqn:E1; [|done]. injection H as <-.
    cbn. rewrite set_assoc_same. cbn. eapply IH; by eauto.
Qed.
(** neither path a prefix of the other *)
Fixpoint apart (p q : list string) : Prop :=
  match p, q with
  | a :: p', b :: q' => a <> b \/ apart p' q'
  | _, _ => False
  end.
Lemma apart_or p q : (exists r, q = p ++ r) \/ (exists r, p = q ++ r /\ r <> []) \/ apart p q.
Proof.
  revert q. induction p as [|a p IH]; intros q; [left; by exists q|]. destruct q as [|b q]; [right; left; by exists (a :: p)|].
  destruct (decide (a = b)) as [->|N]; [|right; right; by left]. destruct (IH q) as [[r ->]|[[r [-> Hr]]|H]].
  - left. by exists r.
  - right. left. by exists r.
  - right. right. by right.
Qed.
Lemma apart_not_prefix p q r : apart p q -> q <> p ++ r.
Proof. revert q. induction p as [|a p IH]; intros [|b q]; cbn; try done. intros [H|H] [= -> E]; [done|]. by eapply IH. Qed.
Lemma pset_apart p v t t' q : pset p v t = Some t' -> (exists old, pget p t = Some old) -> apart p q -> pget q t' = pget q t.
Proof.
  revert t t' q. induction p as [|k p IH]; intros t t' q H [old Ho] Ha; [done|]. destruct q as [|b q]; [done|]. cbn in Ha. cbn in H, Ho.
  destruct t as [s|l|kvs|n|l]; try done.
  - destruct (item_at k 0 l) as [[i x]|] eqn:E; [|done]. cbn in *. destruct (pset p v x) as [t1|] eqn:E1; [|done]. injection H as <-. cbn.
    destruct (decide (b = k)) as [->|N].
    + destruct Ha as [|Ha]; [done|]. rewrite (item_at_set _ _ _ _ _ E), E. cbn. eapply IH; by eauto.
    + by rewrite (item_at_set_other _ _ _ _ _ _ E).
  - destruct (assoc k kvs) as [w|] eqn:E; [|done]. cbn in *. destruct (pset p v w) as [t1|] eqn:E1; [|done]. injection H as <-. cbn.
    destruct (decide (b = k)) as [->|N].
    + destruct Ha as [|Ha]; [done|]. rewrite set_assoc_same, E. cbn. eapply IH; by eauto.
    + by rewrite set_assoc_other.
Qed.
Lemma pset_app p q v t : (exists old, pget p t = Some old) -> pset (p ++ q) v t = match pget p t with Some x => match pset q v x with Some y => pset p y t | None => None end | None => None end.
Proof.
  revert t. induction p as [|k p IH]; intros t [old Ho]; [cbn; by destruct (pset q v t)|]. cbn in *. destruct t as [s|l|kvs|n|l]; try done.
  - destruct (item_at k 0 l) as [[i x]|] eqn:E; [|done]. cbn in *. rewrite IH by eauto. destruct (pget p x); [|done]. by destruct (pset q v _).
  - destruct (assoc k kvs) as [w|] eqn:E; [|done]. cbn in *. rewrite IH by eauto. destruct (pget p w); [|done]. by destruct (pset q v _).
Qed.
Lemma pset_pset p v w t t' : (exists old, pget p t = Some old) -> pset p w t = Some t' -> pset p v t' = pset p v t.
Proof.
  revert t t'. induction p as [|k p IH]; intros t t' [old Ho] H; [done|]. cbn in Ho, H. destruct t as [s|l|kvs|n|l]; try done.
  - destruct (item_at k 0 l) as [[i x]|] eqn:E; [|done]. cbn in *. destruct (pset p w x) as [t1|] eqn:E1; [|done]. injection H as <-.
    rewrite (item_at_set _ _ _ _ _ E), E. cbn. rewrite (IH _ _ (ex_intro _ _ Ho) E1). destruct (pset p v x); [|done]. cbn.
    by rewrite list_insert_insert.
  - destruct (assoc k kvs) as [x|] eqn:E; [|done]. cbn in *. destruct (pset p w x) as [t1|] eqn:E1; [|done]. injection H as <-.
    rewrite set_assoc_same, E. cbn. rewrite (IH _ _ (ex_intro _ _ Ho) E1). destruct (pset p v x); [|done]. cbn.
    by rewrite set_assoc_twice.
Qed.
Lemma pdel_get p k t kvs : pget p t = Some (TObj kvs) -> pget p (pdel p k t) = Some (TObj (del_assoc k kvs)).
Proof.
  revert t. induction p as [|c p IH]; intros t H; [cbn in *; injection H as ->; done|]. cbn in *. destruct t as [s|l|ms|n|l]; try done.
  - destruct (item_at c 0 l) as [[i x]|] eqn:E; [|done]. cbn in *. rewrite (item_at_set _ _ _ _ _ E). cbn. by apply IH.
  - destruct (assoc c ms) as [w|] eqn:E; [|done]. cbn in *. rewrite set_assoc_same. cbn. by apply IH.
Qed.
Lemma pset_pdel p k v t kvs : pget p t = Some (TObj kvs) -> pset p v (pdel p k t) = pset p v t.
Proof.
  revert t. induction p as [|c p IH]; intros t H; [done|]. cbn in *. destruct t as [s|l|ms|n|l]; try done.
  - destruct (item_at c 0 l) as [[i x]|] eqn:E; [|done]. cbn in *. rewrite (item_at_set _ _ _ _ _ E). cbn. rewrite IH by done.
    destruct (pset p v x); [|done]. cbn. by rewrite list_insert_insert.
  - destruct (assoc c ms) as [w|] eqn:E; [|done]. cbn in *. rewrite set_assoc_same. cbn. rewrite IH by done.
    destruct (pset p v w); [|done]. cbn. by rewrite set_assoc_twice.
Qed.

(** ** one reference *)
Definition overlay (S T : list (string * tree)) : list (string * tree) :=
  foldl (fun o kv => set_assoc kv.1 (remarshal kv.2) o) T S.
Lemma set_back_eq dest S T d t0 : pget dest d = Some (TObj T) -> (exists old, pget dest t0 = Some old) -> pset dest (TObj T) t0 = Some d ->
  set_back dest S d = pset dest (TObj (overlay S T)) t0.
Proof.
  intros Hg Ho Hs. revert T d Hg Hs. induction S as [|[k v] S IH]; intros T d Hg Hs; [cbn; by rewrite <- Hs|].
  cbn [set_back overlay foldl]. rewrite (pset_app dest [k] (remarshal v) d) by eauto. rewrite Hg. cbn [pset].
  assert (Hx : match assoc k T with
    | Some old => (fun new => TObj (set_assoc k new T)) <$> Some (remarshal v)
    | None => Some (TObj (set_assoc k (nest [] (remarshal v)) T)) end = Some (TObj (set_assoc k (remarshal v) T))) by (by destruct (assoc k T)).
  rewrite Hx. rewrite (pset_pset dest _ _ _ _ Ho Hs).
  assert (Hex : exists d', pset dest (TObj (set_assoc k (remarshal v) T)) t0 = Some d').
  { destruct Ho as [old Ho]. by eapply pset_some. }
  destruct Hex as [d' Hd'].
  rewrite Hd'. cbn [mbind option_bind]. apply IH; [|done].
  pose proof (pset_get dest _ t0 d' [] Ho Hd') as H. rewrite app_nil_r in H. done.
Qed.
Lemma pget_ref p t r : pget (p ++ ["$ref"]) t = Some (TS (SStr r)) -> exists kvs, pget p t = Some (TObj kvs) /\ assoc "$ref" kvs = Some (TS (SStr r)).
Proof.
  rewrite pget_app. destruct (pget p t) as [x|]; [|done]. cbn. destruct x as [s|l|kvs|n|l]; try done.
  - destruct (item_at "$ref" 0 l) as [[i x]|] eqn:E; [|done]. apply item_at_inv in E as (n & _ & _ & E). by destruct (item_key_ne_ref i).
  - intros H. exists kvs. split; [done|]. destruct (assoc "$ref" kvs); [|done]. cbn in H. congruence.
Qed.
Lemma expand_ref_eq F lf path dest data r o : pget dest data = Some (TObj o) -> assoc "$ref" o = Some (TS (SStr r)) ->
  expand_ref F lf path (dest ++ ["$ref"]) data =
    match resolve F lf r data path with
    | Some (Ok resolved) =>
      if decide (dest = []) then Some (Ok (TObj (del_assoc "$ref" o)))
      else match resolved with
           | TObj T => match pset dest (TObj (overlay (del_assoc "$ref" o) T)) data with Some d => Some (Ok d) | None => Some Err end
           | _ => match pset dest resolved data ≫= set_back dest (del_assoc "$ref" o) with Some d => Some (Ok d) | None => Some Err end
           end
    | Some Err => Some Err
    | Some Panic => Some Panic
    | None => None
    end.
Proof.
  intros Hd Hr. unfold expand_ref. rewrite pget_app, Hd. cbn [mbind option_bind pget]. rewrite Hr. cbn [mbind option_bind pget].
  destruct (resolve F lf r data path) as [[resolved| |]|]; try done. rewrite removelast_last.
  rewrite (pdel_get _ _ _ _ Hd). destruct (decide (dest = [])) as [->|N]; [cbn in Hd; by injection Hd as ->|].
  rewrite (pset_pdel _ _ _ _ _ Hd). destruct resolved as [s|l|T|n|l]; try done.
  destruct (pset_some dest (TObj T) _ _ Hd) as [d Hs]. rewrite Hs. cbn [mbind option_bind].
  rewrite (set_back_eq dest _ T d data); [done| |by eauto|done].
  pose proof (pset_get dest _ data d [] ltac:(by eauto) Hs) as H. rewrite app_nil_r in H. done.
Qed.
Definition frag_path (r : string) : list string :=
  let target := match (cut_hash r).2 with Some t => trim "/" t | None => "" end in
  if decide (target = "") then [] else split target "/".
Definition source_of (F : files) (lf : string -> option (res instance)) (r : string) (data : tree) (path : string) : option (res tree) :=
  let src := (cut_hash r).1 in
  if decide (src = "") then Some (Ok data) else
  if has_prefix "http" src then Some (match f_http F src with Some d => Ok d | None => Err end) else
  if decide (path = f_rel F path src) then Some (Ok data) else
  match lf (f_rel F path src) with
  | None => None
  | Some (Ok i) => Some (Ok (m_inst i))
  | Some Err => Some Err
  | Some Panic => Some Panic
  end.
Lemma resolve_eq F lf r data path : resolve F lf r data path =
  match source_of F lf r data path with
  | Some (Ok src) =>
    Some (match pget (frag_path r) src with Some (TObj kvs) => Ok (TObj (set_assoc "fromRef" (TS (SStr r)) kvs)) | _ => Err end)
  | Some Err => Some Err
  | Some Panic => Some Panic
  | None => None
  end.
Proof.
  unfold resolve, source_of, frag_path.
  destruct (decide (match (cut_hash r).2 with Some t => trim "/" t | None => "" end = "")) as [E|E]; cbn [pget].
  all: destruct (decide ((cut_hash r).1 = "")); [done|]; destruct (has_prefix "http" (cut_hash r).1); [by destruct (f_http F _)|].
  all: destruct (decide (path = f_rel F path (cut_hash r).1)); [done|]; by destruct (lf _) as [[| |]|].
Qed.
Lemma resolve_obj F lf r data path x : resolve F lf r data path = Some (Ok x) ->
  exists src T, source_of F lf r data path = Some (Ok src) /\ pget (frag_path r) src = Some (TObj T) /\ x = TObj (set_assoc "fromRef" (TS (SStr r)) T).
Proof.
  rewrite resolve_eq. destruct (source_of F lf r data path) as [[src| |]|]; try done. intros [= H].
  destruct (pget (frag_path r) src) as [[s|l|kvs|n|l]|] eqn:E; try done. injection H as <-. by exists src, kvs.
Qed.

(** Proofs about rename flags. *)
From stdpp Require Import strings list gmap.
From Coq Require Import Ascii.
From Verif Require Import GoStr GoStrL Flags SpecFlags.

Lemma without_free c s : without c s <-> free_of c s = true.
Proof.
  rewrite free_of_str_in. destruct (str_in (chr c) s) eqn:E; cbn.
  - split; [|done]. intros N. apply str_in_spec in E as (a & b & ->). destruct N. exists a, b. done.
  - split; [done|]. intros _ (a & b & ->).
    assert (H : str_in (chr c) (a +:+ String c b) = true). { apply str_in_spec. exists a, b. done. }
    congruence.
Qed.
Lemma cut_eq_some k v : without "="%char k -> cut_eq (k +:+ "=" +:+ v) = Some (k, v).
Proof.
  induction k as [|a k IH]; intros N; [done|].
  rewrite sapp_cons. cbn [cut_eq]. destruct (decide (a = "="%char)) as [->|Na].
  - destruct N. exists "", k. done.
  - rewrite IH; [done|]. intros (x & y & ->). destruct N. exists (String a x), y. done.
Qed.
Lemma cut_eq_inv s k v : cut_eq s = Some (k, v) -> s = k +:+ "=" +:+ v /\ without "="%char k.
Proof.
  revert k v. induction s as [|a s IH]; intros k v E; [done|]. cbn [cut_eq] in E.
  destruct (decide (a = "="%char)) as [->|Na].
  - inversion E; subst. split; [done|]. intros (x & y & Hx). by destruct x.
  - destruct (cut_eq s) as [[k' v']|] eqn:Ec; [|done]. inversion E; subst.
    destruct (IH _ _ eq_refl) as [-> N]. split; [done|].
    intros (x & y & Hx). destruct x as [|b x]; [inversion Hx; subst; done|].
    rewrite sapp_cons in Hx. inversion Hx; subst. destruct N. eauto.
Qed.
Lemma cut_eq_none s : cut_eq s = None <-> without "="%char s.
Proof.
  split.
  - induction s as [|a s IH]; intros E (x & y & Hx); [by destruct x|]. cbn [cut_eq] in E.
    destruct (decide (a = "="%char)) as [->|Na]; [done|].
    destruct (cut_eq s) as [[]|]; [done|]. destruct x as [|b x]; [inversion Hx; subst; done|].
    rewrite sapp_cons in Hx. inversion Hx; subst. apply IH; [done|eauto].
  - intros N. destruct (cut_eq s) as [[k v]|] eqn:E; [|done].
    apply cut_eq_inv in E as [-> _]. destruct N. exists k, v. done.
Qed.
Lemma set_by_nil m : set_by m [] m.
Proof.
  intros k v. split; [intros E; right; split; [apply not_elem_of_nil|done]|].
  intros [(b & a & E & _)|[_ E]]; [by destruct b|done].
Qed.
Lemma set_by_cons m k v kvs m' : set_by (<[k := v]> m) kvs m' -> set_by m ((k, v) :: kvs) m'.
Proof.
  intros H k1 v1. unfold set_by in H. etransitivity; [apply H|]. split.
  - intros [(b & a & -> & N)|[N E]].
    + left. exists ((k, v) :: b), a. done.
    + destruct (decide (k1 = k)) as [->|Nk].
      * rewrite lookup_insert in E. inversion E; subst. left. exists [], kvs. done.
      * rewrite lookup_insert_ne in E by done. right. split; [|done]. cbn. by apply not_elem_of_cons.
  - intros [(b & a & E & N)|[N E]].
    + destruct b as [|kv b]; cbn in E; inversion E; subst.
      * right. split; [done|]. apply lookup_insert.
      * left. exists b, a. done.
    + cbn in N. apply not_elem_of_cons in N as [Nk N]. right. split; [done|]. by rewrite lookup_insert_ne.
Qed.
Lemma set_pairs_ok kvs : Forall (fun kv : string * string => without "="%char kv.1) kvs -> forall m, exists m',
  set_pairs m (map (fun kv => kv.1 +:+ "=" +:+ kv.2) kvs) = (m', true) /\ set_by m kvs m'.
Proof.
  induction 1 as [|[k v] kvs Hk _ IH]; intros m; [exists m; split; [done|apply set_by_nil]|].
  cbn [map fst snd set_pairs]. rewrite cut_eq_some by done. destruct (IH (<[k := v]> m)) as (m' & E & S).
  exists m'. split; [done|]. by apply set_by_cons.
Qed.
Lemma chr_comma : chr ","%char = ",". Proof. done. Qed.
Lemma set_flag_ok m kvs : kvs <> [] -> Forall pair_ok kvs -> exists m', set_flag m (written kvs) = (m', true) /\ set_by m kvs m'.
Proof.
  intros Hne Hok. unfold set_flag, written. rewrite <- chr_comma, split_join_chr.
  - apply set_pairs_ok. eapply Forall_impl; [exact Hok|]. intros kv [H _]. done.
  - by destruct kvs.
  - apply Forall_map. eapply Forall_impl; [exact Hok|]. intros kv (_ & H1 & H2). cbn.
    rewrite !free_of_app. apply without_free in H1, H2. rewrite H1, H2. done.
Qed.
Lemma set_pairs_bad m ps : (exists p, p ∈ ps /\ without "="%char p) -> (set_pairs m ps).2 = false.
Proof.
  revert m. induction ps as [|p ps IH]; intros m (q & Hq & N); [by apply elem_of_nil in Hq|].
  cbn [set_pairs]. destruct (cut_eq p) as [[k v]|] eqn:E; [|done]. apply IH.
  apply elem_of_cons in Hq as [->|Hq]; [|eauto]. apply cut_eq_none in N. congruence.
Qed.
Lemma set_flag_bad m s : malformed s -> (set_flag m s).2 = false.
Proof.
  intros (parts & p & -> & Hf & Hp & N). unfold set_flag. rewrite <- chr_comma, split_join_chr.
  - apply set_pairs_bad. eauto.
  - by destruct parts; [apply elem_of_nil in Hp|].
  - eapply Forall_impl; [exact Hf|]. intros q. by rewrite without_free.
Qed.
Lemma parts_pairs ps : Forall (fun p => exists kv, cut_eq p = Some kv) ps ->
  exists kvs, ps = map (fun kv => kv.1 +:+ "=" +:+ kv.2) kvs /\ Forall (fun kv : string * string => without "="%char kv.1) kvs.
Proof.
  induction 1 as [|p ps [[k v] E] _ (kvs & -> & H)]; [by exists []|].
  apply cut_eq_inv in E as [-> N]. exists ((k, v) :: kvs). split; [done|]. by constructor.
Qed.
Lemma flag_cases s : malformed s \/ exists kvs, kvs <> [] /\ Forall pair_ok kvs /\ s = written kvs.
Proof.
  assert (Hj := split_join s ","). assert (Hf := split_free s "," ltac:(done)). assert (Hn := split_ne s "," ltac:(done)).
  assert (Hw : Forall (without ","%char) (split s ",")).
  { eapply Forall_impl; [exact Hf|]. intros p E. apply without_free. rewrite free_of_str_in, chr_comma, E. done. }
  assert (Hd : forall ps, Forall (fun p => is_Some (cut_eq p)) ps \/ exists p, p ∈ ps /\ cut_eq p = None).
  { clear. induction ps as [|p ps [IH|(q & Hq & E)]]; [by left| |right; exists q; split; [by right|done]].
    destruct (cut_eq p) eqn:E; [left; constructor; [rewrite E|]; eauto|right; exists p; split; [left|done]]. }
  destruct (Hd (split s ",")) as [Ha|(p & Hp & Np)].
  - right. destruct (parts_pairs (split s ",")) as (kvs & E & Hk).
    { eapply Forall_impl; [exact Ha|]. intros p [kv Ekv]. eauto. }
    exists kvs. split; [|split; [|]].
    + intros ->. by rewrite E in Hn.
    + rewrite E in Hw. apply (proj1 (Forall_fmap _ _ _)) in Hw. apply Forall_forall. intros kv Hkv.
      assert (Hk' := proj1 (Forall_forall _ _) Hk _ Hkv). assert (Hw' := proj1 (Forall_forall _ _) Hw _ Hkv). clear Hk Hw. rename Hk' into Hk, Hw' into Hw. cbn in Hw.
      apply without_free in Hw. rewrite !free_of_app in Hw. apply andb_prop in Hw as [H1 H2]. apply andb_prop in H2 as [_ H2].
      split; [done|]. split; by apply without_free.
    + unfold written. by rewrite <- E, Hj.
  - left.
    exists (split s ","), p. split; [done|]. split; [done|]. split; [done|].
    by apply cut_eq_none.
Qed.
Lemma set_flag_iff m s : ((set_flag m s).2 = false <-> malformed s) /\
  (forall kvs, kvs <> [] -> Forall pair_ok kvs -> s = written kvs -> exists m', set_flag m s = (m', true) /\ set_by m kvs m').
Proof.
  split.
  - split; [|apply set_flag_bad]. intros E. destruct (flag_cases s) as [H|(kvs & H1 & H2 & ->)]; [done|].
    destruct (set_flag_ok m kvs H1 H2) as (m' & E' & _). by rewrite E' in E.
  - intros kvs H1 H2 ->. by apply set_flag_ok.
Qed.
Definition puts (m : gmap string string) (kvs : list (string * string)) : gmap string string := foldl (fun m kv => <[kv.1 := kv.2]> m) m kvs.
Lemma set_by_puts m kvs : set_by m kvs (puts m kvs).
Proof.
  revert m. induction kvs as [|[k v] kvs IH]; intros m; [apply set_by_nil|]. apply set_by_cons. apply IH.
Qed.
Lemma set_by_fun m kvs m1 m2 : set_by m kvs m1 -> set_by m kvs m2 -> m1 = m2.
Proof.
  intros H1 H2. apply map_eq. intros k. apply option_eq. intros v. etransitivity; [apply H1|]. symmetry. apply H2.
Qed.
Lemma set_by_app m1 k1 m2 k2 m3 : set_by m1 k1 m2 -> set_by m2 k2 m3 -> set_by m1 (k1 ++ k2) m3.
Proof.
  intros H1 H2. assert (m2 = puts m1 k1) as -> by (eapply set_by_fun; [done|apply set_by_puts]).
  assert (m3 = puts m1 (k1 ++ k2)) as ->; [|apply set_by_puts].
  unfold puts. rewrite foldl_app. eapply set_by_fun; [done|apply set_by_puts].
Qed.
Lemma set_flags_ok kss : Forall (fun kvs => kvs <> [] /\ Forall pair_ok kvs) kss -> forall m, exists m',
  set_flags m (map written kss) = Some m' /\ set_by m (List.concat kss) m'.
Proof.
  induction 1 as [|kvs kss [H1 H2] _ IH]; intros m; [exists m; split; [done|apply set_by_nil]|].
  cbn [map set_flags List.concat]. destruct (set_flag_ok m kvs H1 H2) as (m1 & -> & S1).
  destruct (IH m1) as (m2 & E & S2). exists m2. split; [done|]. by eapply set_by_app.
Qed.
Lemma set_flags_iff m ss : set_flags m ss = None <-> Exists malformed ss.
Proof.
  revert m. induction ss as [|s ss IH]; intros m; cbn [set_flags].
  - split; [done|]. by intros H%Exists_nil.
  - rewrite Exists_cons. destruct (set_flag m s) as [m' b] eqn:E. assert (Hs := set_flag_iff m s). rewrite E in Hs. destruct Hs as [Hs _]. cbn in Hs.
    destruct b.
    + rewrite IH. split; [by right|]. intros [H|H]; [apply Hs in H; done|done].
    + split; [intros _; left; by apply Hs|done].
Qed.

(** Proofs about how rename flags are shown. *)
From stdpp Require Import strings list gmap.
From Coq Require Import Ascii.
From Verif Require Import GoStr GoStrL Flags SpecFlags FlagsL SpecShown.

Lemma shown_flags m ks : keys_of m ks -> exists kvs, flag_string ks m = shown kvs /\ kvs.*1 = ks /\ forall k v, (k, v) ∈ kvs <-> m !! k = Some v.
Proof.
  intros [_ Hk]. exists (omap (fun k => (fun v => (k, v)) <$> m !! k) ks). split; [|split].
  - unfold flag_string, shown. f_equal. clear Hk. induction ks as [|k ks IH]; [done|]. cbn. destruct (m !! k); cbn; by rewrite IH.
  - assert (H : forall k, k ∈ ks -> is_Some (m !! k)) by (intros; by apply Hk). clear Hk.
    induction ks as [|k ks IH]; [done|]. cbn. destruct (H k) as [v Hv]; [left|]. rewrite Hv. cbn. rewrite IH; [done|]. intros. apply H. by right.
  - intros k v. rewrite elem_of_list_omap. split.
    + intros (k' & _ & E). destruct (m !! k') eqn:E'; [|done]. cbn in E. injection E as -> ->. done.
    + intros E. exists k. split; [apply Hk; by eexists|]. by rewrite E.
Qed.
Definition one (kv : string * string) : string := "-" +:+ kv.1 +:+ "=" +:+ kv.2.
Lemma without_app c a b : without c a -> without c b -> without c (a +:+ b).
Proof.
  rewrite !without_free. intros Ha Hb. induction a as [|x a IH]; [done|]. cbn [free_of] in Ha. apply andb_true_iff in Ha as [H1 H2]. rewrite sapp_cons. cbn [free_of]. apply andb_true_iff. split; [done|by apply IH].
Qed.
Lemma one_inj a b : without "="%char a.1 -> without "="%char b.1 -> one a = one b -> a = b.
Proof.
  intros Ha Hb E. assert (E' : a.1 +:+ "=" +:+ a.2 = b.1 +:+ "=" +:+ b.2) by (injection E; done).
  pose proof (cut_eq_some _ a.2 Ha) as H1. pose proof (cut_eq_some _ b.2 Hb) as H2. rewrite E', H2 in H1. destruct a, b. cbn in *. congruence.
Qed.
Lemma shown_split kvs : kvs <> [] -> Forall (fun kv => without " "%char kv.1 /\ without " "%char kv.2) kvs -> split (shown kvs) " " = map one kvs.
Proof.
  intros Hne H. change " " with (chr " "%char). unfold shown. apply (split_join_chr " "%char (map one kvs)); [by destruct kvs|].
  apply Forall_map. eapply Forall_impl; [exact H|]. intros [k v] [Hk Hv]. apply without_free. unfold one. cbn [fst snd] in *.
  assert (forall c, c <> " "%char -> without " "%char (String c "")) as Hc.
  { intros c N (a & b & E). destruct a as [|x a]; [injection E as ->; done|]. rewrite sapp_cons in E. injection E as _ E. by destruct a. }
  repeat apply without_app; try done; by apply Hc.
Qed.
Lemma shown_empty kvs : shown kvs = "" -> kvs = [].
Proof. destruct kvs as [|kv [|kv' kvs]]; [done|done..]. Qed.
Lemma map_one_inj l l' : Forall (fun kv => without "="%char kv.1) l -> Forall (fun kv => without "="%char kv.1) l' -> map one l = map one l' -> l = l'.
Proof.
  revert l'. induction l as [|a l IH]; intros [|b l'] H H' E; [done..|]. apply Forall_cons in H as [Ha H]. apply Forall_cons in H' as [Hb H'].
  pose proof (f_equal (hd "") E) as E1. pose proof (f_equal (@tail string) E) as E2. cbn [map hd tail] in E1, E2. f_equal; [by apply one_inj|by apply IH].
Qed.
Lemma shown_determines m ks m' ks' : keys_of m ks -> keys_of m' ks' -> clear_pairs m -> clear_pairs m' -> flag_string ks m = flag_string ks' m' -> m = m'.
Proof.
  intros Hk Hk' Hc Hc' E. destruct (shown_flags m ks Hk) as (l & El & _ & Hl). destruct (shown_flags m' ks' Hk') as (l' & El' & _ & Hl').
  assert (H : Forall (fun kv => without "="%char kv.1 /\ without " "%char kv.1 /\ without " "%char kv.2) l).
  { apply Forall_forall. intros [k v] Hin. apply Hc. by apply Hl. }
  assert (H' : Forall (fun kv => without "="%char kv.1 /\ without " "%char kv.1 /\ without " "%char kv.2) l').
  { apply Forall_forall. intros [k v] Hin. apply Hc'. by apply Hl'. }
  rewrite El, El' in E.
  assert (l = l') as <-.
  { destruct (decide (l = [])) as [->|N]; [symmetry; apply shown_empty; by rewrite <- E|].
    assert (N' : l' <> []). { intros ->. apply N, shown_empty. by rewrite E. }
    apply map_one_inj; [eapply Forall_impl; [exact H|naive_solver]|eapply Forall_impl; [exact H'|naive_solver]|].
    rewrite <- !shown_split; [by rewrite E|done|eapply Forall_impl; [exact H'|naive_solver]|done|eapply Forall_impl; [exact H|naive_solver]]. }
  apply map_eq. intros k. apply option_eq. intros v. by rewrite <- Hl, <- Hl'.
Qed.

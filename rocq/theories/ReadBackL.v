(** The text in which rename flags are shown never sets the same flags. *)
From stdpp Require Import strings list gmap.
From Coq Require Import Ascii.
From Verif Require Import GoStr GoStrL Flags SpecFlags SpecShown FlagsL ShownL.

Lemma join_free c l : Forall (fun s => without c s) l -> c <> " "%char -> without c (join " " l).
Proof.
  intros H Hc. apply without_free. induction H as [|s l Hs Hl IH]; [done|]. destruct l as [|s' l]; [by apply without_free|].
  change (join " " (s :: s' :: l)) with (s +:+ " " +:+ join " " (s' :: l)). apply without_free. apply without_app; [done|].
  apply without_app; [|by apply without_free]. apply without_free. cbn [free_of]. by rewrite bool_decide_eq_false_2.
Qed.
Lemma never_read_back m ks : keys_of m ks -> set_flag ∅ (flag_string ks m) <> (m, true).
Proof.
  intros Hks H. destruct (shown_flags m ks Hks) as (kvs & Ht & Hfst & Hin). rewrite Ht in H.
  destruct (flag_cases (shown kvs)) as [Hbad|(ps & Hne & Hok & Hw)].
  { pose proof (set_flag_bad ∅ _ Hbad) as Hf. by rewrite H in Hf. }
  destruct (set_flag_ok ∅ ps Hne Hok) as (m' & Hm' & Hby). rewrite <- Hw, H in Hm'. injection Hm' as <-.
  assert (Hps : forall k v, m !! k = Some v -> pair_ok (k, v)).
  { intros k v Hkv. apply Hby in Hkv as [(b & a & -> & _)|[_ Hkv]]; [|by rewrite lookup_empty in Hkv].
    apply Forall_app in Hok as [_ Hok]. by apply Forall_cons in Hok as [Hok _]. }
  assert (Hfree : without ","%char (shown kvs)).
  { unfold shown. apply join_free; [|done]. apply Forall_map, Forall_forall. intros [k v] Hkv. apply Hin in Hkv. apply Hps in Hkv as (H1 & H2 & H3). cbn in *.
    apply without_app; [by apply without_free|]. apply without_app; [done|]. apply without_app; [by apply without_free|done]. }
  unfold set_flag in H. rewrite <- chr_comma, split_chr_free in H by (by apply without_free). cbn [set_pairs] in H.
  destruct (cut_eq (shown kvs)) as [[k v]|] eqn:E; [|done]. injection H as Hm.
  assert (Hkv : m !! k = Some v) by (rewrite <- Hm; apply lookup_insert).
  assert (kvs = [(k, v)]) as ->.
  { destruct Hks as [Hnd Hks]. rewrite <- Hfst in Hnd. destruct kvs as [|[k1 v1] kvs]; [apply Hin, elem_of_nil in Hkv; done|].
    assert (Hone : forall k' v', (k', v') ∈ (k1, v1) :: kvs -> k' = k /\ v' = v).
    { intros k' v' Hi. apply Hin in Hi. rewrite <- Hm in Hi. apply lookup_insert_Some in Hi as [[-> ->]|[_ Hi]]; [done|by rewrite lookup_empty in Hi]. }
    destruct (Hone k1 v1) as [-> ->]; [left|]. destruct kvs as [|[k2 v2] kvs]; [done|].
    destruct (Hone k2 v2) as [-> ->]; [right; left|]. cbn in Hnd. apply NoDup_cons in Hnd as [Hnd _]. destruct Hnd. left. }
  destruct (Hps _ _ Hkv) as (Hk & _). cbn in Hk.
  change (shown [(k, v)]) with (("-" +:+ k) +:+ "=" +:+ v) in E. rewrite cut_eq_some in E.
  - injection E as E. apply (f_equal String.length) in E. cbn in E. clear -E. induction k; cbn in E; [done|]. injection E. auto.
  - apply without_app; [by apply without_free|done].
Qed.

From stdpp Require Import strings list gmap.
From Coq Require Import Ascii ZArith.
From Verif Require Import GoStr GoStrL Val Conv Load FlatL AvroRun SpecAvroRun AvroRunL.

Lemma two_cuts c a b a' b' : a +:+ String c b = a' +:+ String c b' <->
  (a = a' /\ b = b') \/ (exists w, a = a' +:+ String c w /\ b' = w +:+ String c b) \/ (exists w, a' = a +:+ String c w /\ b = w +:+ String c b').
Proof.
  split.
  - revert a'. induction a as [|x a IH]; intros a' E.
    + destruct a' as [|y a']; [rewrite !sapp_nil_l in E; injection E as ->; by left|].
      rewrite sapp_nil_l, sapp_cons in E. injection E as <- E. right. right. exists a'. by rewrite sapp_nil_l.
    + destruct a' as [|y a'].
      * rewrite sapp_nil_l, sapp_cons in E. injection E as -> E. right. left. exists a. by rewrite sapp_nil_l.
      * rewrite !sapp_cons in E. injection E as -> E. destruct (IH a' E) as [[-> ->]|[(w & -> & ->)|(w & -> & ->)]].
        -- by left.
        -- right. left. exists w. by rewrite sapp_cons.
        -- right. right. exists w. by rewrite sapp_cons.
  - intros [[-> ->]|[(w & -> & ->)|(w & -> & ->)]]; [done|..]; by rewrite <- app_assoc_s, sapp_cons.
Qed.
Lemma key_iff p t f p' t' f' : schema_key p t f = schema_key p' t' f' <-> f = f' /\
  ((p = p' /\ t = t') \/ (exists w, p = p' +:+ "|" +:+ w /\ t' = w +:+ "|" +:+ t) \/ (exists w, p' = p +:+ "|" +:+ w /\ t = w +:+ "|" +:+ t')).
Proof.
  assert (forall q u (b : bool), schema_key q u b = (q +:+ String "|" u) +:+ String "|" (if b then "true" else "false")) as Hk.
  { intros. unfold schema_key. rewrite <- app_assoc_s. done. }
  rewrite !Hk. split.
  - intros E. apply (last_chr_inj "|") in E as [E F]; [|by destruct f|by destruct f'].
    split; [by destruct f, f'|]. by apply (two_cuts "|") in E.
  - intros [-> E]. f_equal. by apply (two_cuts "|").
Qed.

Lemma wrap_far z : ~ (- 2 ^ 63 <= z < 2 ^ 63)%Z -> (2 ^ 64 <= Z.abs (wrap64 z - z))%Z.
Proof.
  intros H. unfold wrap64. pose proof (Z.div_mod (z + 2 ^ 63) (2 ^ 64) ltac:(lia)) as Hd.
  pose proof (Z.mod_pos_bound (z + 2 ^ 63) (2 ^ 64) ltac:(lia)) as Hm.
  set (q := ((z + 2 ^ 63) / 2 ^ 64)%Z) in *. set (r := ((z + 2 ^ 63) mod 2 ^ 64)%Z) in *.
  destruct (decide (q = 0)%Z) as [E|E]; [rewrite E in Hd; lia|].
  replace (r - 2 ^ 63 - z)%Z with (- (2 ^ 64 * q))%Z by lia. lia.
Qed.
Lemma avro_time_iff t : (Z.abs (avro_time t * 1000000 - nanoseconds t) < 1000000)%Z <-> representable t.
Proof.
  split; [|apply avro_time_within]. intros H. unfold representable.
  destruct (decide (- 2 ^ 63 <= nanoseconds t < 2 ^ 63)%Z) as [Hr|Hr]; [done|]. exfalso.
  pose proof (wrap_far _ Hr) as Hf. unfold avro_time in H. rewrite unix_nano_eq in H.
  set (w := wrap64 (nanoseconds t)) in *. pose proof (Z.quot_rem' w 1000000) as Hq.
  pose proof (Z.rem_bound_abs w 1000000 ltac:(lia)) as Hb. lia.
Qed.

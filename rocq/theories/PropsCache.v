(** C35, C36 and C38: loading through the cache, for any number of loads in any interleaving, any builder results
    and any loads made by builders. *)
From stdpp Require Import strings list gmap.
From Verif Require Import Cache SpecCache CacheL CacheT CacheP CacheR CaseCache.

(** C35. The builds of a key start only when none runs and none has succeeded. *)
Theorem C35_at_most_once {V E} deps (tr : list (event V E)) s k : exec deps tr s -> exists ph, phases k Idle tr ph.
Proof. intros H. destruct (phased deps tr s H k) as (ph & Hph & _). by exists ph. Qed.
Print Assumptions C35_at_most_once.
(** In particular, a key is built successfully at most once and not started again after that. *)
Theorem C35_no_second_build {V E} deps (tr tr1 tr2 : list (event V E)) s k l v : exec deps tr s -> tr = tr1 ++ End l k (OOk v) :: tr2 ->
  (forall l', ~ Start l' k ∈ tr2) /\ (forall l' r, ~ End l' k r ∈ tr2).
Proof. intros H ->. destruct (phased deps _ _ H k) as (ph & Hph & _). destruct (phases_end _ _ _ _ _ _ Hph) as (_ & H1 & H2). done. Qed.
Print Assumptions C35_no_second_build.
(** A load waits only for loads of its own key, or for what their builders load: whatever loads of other keys do. *)
Theorem C35_independent {V E} deps (tr : list (event V E)) s l ld : exec deps tr s -> s_loads s !! l = Some ld ->
  (exists l' ld' es s', s_loads s !! l' = Some ld' /\ l_key ld' = l_key ld /\ lstep deps s l' ld' es s') \/ nested s (l_key ld).
Proof. exact (key_free deps tr s l ld). Qed.
Print Assumptions C35_independent.
Example C35_case : (exists s, exec refs two_trace s) /\ exists tr1 tr2, two_trace = tr1 ++ End 3 "a" (OOk 7) :: tr2 /\ Ret 6 "a" (OOk 7) ∈ tr2 /\ Start 0 "a" ∈ tr1.
Proof.
  split; [exact two_runs|]. exists (take 18 two_trace), (drop 19 two_trace). vm_compute. split; [done|]. split; repeat (apply elem_of_list_here || apply elem_of_list_further).
Qed.

(** C36. What a load returns successfully is the value of the only successful build of its key, which has ended
    by then. *)
Theorem C36_value {V E} deps (tr tr1 tr2 : list (event V E)) s l k v : exec deps tr s -> tr = tr1 ++ Ret l k (OOk v) :: tr2 ->
  (exists l', End l' k (OOk v) ∈ tr1) /\ (forall l' v', End l' k (OOk v') ∈ tr -> v' = v).
Proof. exact (returned_value deps tr s tr1 tr2 l k v). Qed.
Print Assumptions C36_value.
(** A failure comes from the load's own build, or from the build of a load that had not returned when the load
    was called. *)
Theorem C36_failure {V E} deps (tr tr1 tr2 : list (event V E)) s l k r : exec deps tr s -> tr = tr1 ++ Ret l k r :: tr2 -> is_ok r = false ->
  (exists a b, tr1 = a ++ Call l k :: b) /\
  (End l k r ∈ tr1 \/ exists l' a b, End l' k r ∈ tr1 /\ tr1 = a ++ Call l k :: b /\ Ret l' k r ∈ b).
Proof. intros H Htr Hr. exact (failures_fresh deps tr s H tr1 tr2 l k r Htr Hr). Qed.
Print Assumptions C36_failure.
(** A load called after all earlier loads of its key have returned, none of them built successfully, returns only after
    building again. *)
Theorem C36_builds_again {V E} deps (tr a b : list (event V E)) s l k r : exec deps tr s -> tr = a ++ Call l k :: b ++ [Ret l k r] ->
  (forall l', Call l' k ∈ a -> exists r', Ret l' k r' ∈ a) -> (forall l' v, ~ End l' k (OOk v) ∈ a) -> exists l', Start l' k ∈ b.
Proof. exact (rebuilds deps tr s a b l k r). Qed.
Print Assumptions C36_builds_again.
(** Each load returns at most once, runs its builder at most once, and returns what its builder ended with. *)
Theorem C36_own_result {V E} deps (tr : list (event V E)) s l : exec deps tr s -> exists g, stages l New tr g.
Proof. intros H. destruct (staged deps tr s H l) as (g & Hg & _). by exists g. Qed.
Print Assumptions C36_own_result.
Example C36_case : (exists s, exec refs two_trace s) /\
  two_trace = take 21 two_trace ++ Ret 6 "a" (OOk 7) :: [] /\
  two_trace = take 9 two_trace ++ Ret 1 "a" (OErr 2) :: drop 10 two_trace /\ ~ End 1 "a" (OErr 2) ∈ two_trace.
Proof.
  split; [exact two_runs|]. split; [by vm_compute|]. split; [by vm_compute|]. vm_compute. intros H. repeat (apply elem_of_cons in H as [[=]|H]). by apply elem_of_nil in H.
Qed.
Example C36_case_again : (exists s, exec refs (take 20 two_trace) s) /\
  take 20 two_trace = take 10 two_trace ++ Call 3 "a" :: take 8 (drop 11 two_trace) ++ [Ret 3 "a" (OOk 7)] /\
  (forall l', Call l' "a" ∈ take 10 two_trace -> exists r', Ret l' "a" r' ∈ take 10 two_trace) /\
  (forall l' v, ~ End l' "a" (OOk v) ∈ take 10 two_trace).
Proof.
  split; [destruct (sched_trace refs (take 28 two)) as [s Hs]; [by vm_compute|]; exists s; exact Hs|]. split; [by vm_compute|]. vm_compute. split.
  - intros l' H. repeat (apply elem_of_cons in H as [[= ->]|H]; [exists (OErr 2); repeat (apply elem_of_list_here || apply elem_of_list_further)|] || apply elem_of_cons in H as [[=]|H]). by apply elem_of_nil in H.
  - intros l' v H. repeat (apply elem_of_cons in H as [[=]|H]). by apply elem_of_nil in H.
Qed.

(** C38. If no cycle of loads is possible (here: each key loads only keys of lower rank), then from any point the
    loads that have been called can together only take a bounded number of steps; and they can take one until they
    have all returned. *)
Theorem C38_returns_partial {V E} deps rk (tr : list (event V E)) s : (forall k d, d ∈ deps k -> rk d < rk k) -> exec deps tr s ->
  exists N, forall n tr' s', nmoves deps n s tr' s' -> n <= N /\
    ((forall es s2, ~ moves deps s' es s2) -> forall l k, Call l k ∈ tr ++ tr' -> exists r, Ret l k r ∈ tr ++ tr').
Proof.
  intros Hrk H. exists (total deps rk (s_loads s)). intros n tr' s' Hn. split; [exact (bounded deps rk Hrk tr s H n tr' s' Hn)|].
  intros Hstuck l k Hc. assert (H' : exec deps (tr ++ tr') s').
  { clear -H Hn. revert tr H. induction Hn as [s|n s es s1 tr' s2 Hm Hn IH]; intros tr H; [by rewrite app_nil_r|]. rewrite app_assoc. apply IH. by eapply exec_move. }
  destruct (called deps _ _ H' _ _ Hc) as [Hr|(ld & Hl & _)]; [done|]. rewrite (all_return deps rk Hrk _ _ H' Hstuck) in Hl. by rewrite lookup_empty in Hl.
Qed.
Print Assumptions C38_returns_partial.
Example C38_case : (forall k d, d ∈ refs k -> (fun k => if bool_decide (k = "a") then 1 else 0) d < (fun k => if bool_decide (k = "a") then 1 else 0) k) /\
  exists s, exec refs (take 8 two_trace) s.
Proof.
  split.
  - intros k d. unfold refs. destruct (decide (k = "a")) as [->|N]; [|rewrite bool_decide_eq_false_2 by done; by intros []%elem_of_nil]. cbn. intros ->%elem_of_list_singleton. vm_compute. lia.
  - destruct (sched_trace refs (take 11 two)) as [s Hs]; [by vm_compute|]. exists s. exact Hs.
Qed.
(** A load of a key that (first) loads another such key, and so on, never returns: so it is for files that reference
    each other. *)
Theorem C38_cycle_never {V E} deps (C : string -> Prop) (tr : list (event V E)) s l k r :
  (forall k, C k -> exists d ds, deps k = d :: ds /\ C d) -> exec deps tr s -> C k -> ~ Ret l k r ∈ tr.
Proof. intros HC H. destruct (cyclic_exec deps C HC tr s H) as [_ Hr]. apply Hr. Qed.
Print Assumptions C38_cycle_never.
(** Such a load ends in a deadlock: it is called, has not returned, and nothing can be done. *)
Theorem C38_returns_refuted : exists deps (tr : list (event nat nat)) s, exec deps tr s /\ Call 0 "a" ∈ tr /\
  (forall r, ~ Ret 0 "a" r ∈ tr) /\ forall es s', ~ moves deps s es s'.
Proof.
  exists ring, around_trace, around_state. split; [exact around_runs|]. split; [vm_compute; left|]. split; [|exact around_stuck].
  intros r H. vm_compute in H. repeat (apply elem_of_cons in H as [[=]|H]). by apply elem_of_nil in H.
Qed.
Print Assumptions C38_returns_refuted.
Example C38_cycle_case : forall k, (k = "a" \/ k = "b") -> exists d ds, ring k = d :: ds /\ (d = "a" \/ d = "b").
Proof. intros k [->| ->]; [exists "b", []|exists "a", []]; vm_compute; (split; [done|]); [by right|by left]. Qed.

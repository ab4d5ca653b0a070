(** Properties of rename flags: C52. *)
From stdpp Require Import strings list gmap.
From Coq Require Import Ascii.
From Verif Require Import GoStr Flags SpecFlags FlagsL.

(** C52. A flag `k=v,k2=v2` sets exactly these pairs, the last one for a key winning; a flag is an error if and only if
    a part has no "=". *)
Theorem C52_flag m s : ((set_flag m s).2 = false <-> malformed s) /\
  (forall kvs, kvs <> [] -> Forall pair_ok kvs -> s = written kvs -> exists m', set_flag m s = (m', true) /\ set_by m kvs m').
Proof. exact (set_flag_iff m s). Qed.
Print Assumptions C52_flag.
(** Every flag is one or the other. *)
Theorem C52_cases s : malformed s \/ exists kvs, kvs <> [] /\ Forall pair_ok kvs /\ s = written kvs.
Proof. exact (flag_cases s). Qed.
Print Assumptions C52_cases.
(** Several flags together set what they say one after the other. *)
Theorem C52_flags kss : Forall (fun kvs => kvs <> [] /\ Forall pair_ok kvs) kss -> forall m, exists m',
  set_flags m (map written kss) = Some m' /\ set_by m (List.concat kss) m'.
Proof. exact (set_flags_ok kss). Qed.
Print Assumptions C52_flags.
Theorem C52_error m ss : set_flags m ss = None <-> Exists malformed ss.
Proof. exact (set_flags_iff m ss). Qed.
Print Assumptions C52_error.
Example C52_case : written [("a", "b=c"); ("d", "")] = "a=b=c,d=" /\
  (fun m : gmap string string => (m !! "a", m !! "d", m !! "b")) <$> set_flags ∅ ["a=b=c,d="; "a=x"] = Some (Some "x", Some "", None) /\
  set_flags ∅ ["a=b"; "c"] = None /\ set_flag ∅ "" = (∅, false).
Proof. split_and!; vm_compute; reflexivity. Qed.
Example C52_pair_ok : pair_ok ("a", "b=c").
Proof. repeat split; intros (x & y & E); cbn in E; repeat (destruct x as [|? x]; cbn in E; try discriminate E; injection E as _ E). Qed.

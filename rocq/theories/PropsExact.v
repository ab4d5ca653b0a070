(** C37 and C45 exactly. *)
From stdpp Require Import strings list gmap.
From Coq Require Import ZArith.
From Verif Require Import GoStr Val Load AvroRun SpecAvroRun ExactL.

(** C37. Two requests share a cache key exactly if they agree in flattening and either in file and type, or one of the file names is the other
    followed by a vertical bar and a text with which, and a vertical bar, the other type begins. *)
Theorem C37_exactly p t f p' t' f' : schema_key p t f = schema_key p' t' f' <-> f = f' /\
  ((p = p' /\ t = t') \/ (exists w, p = p' +:+ "|" +:+ w /\ t' = w +:+ "|" +:+ t) \/ (exists w, p' = p +:+ "|" +:+ w /\ t = w +:+ "|" +:+ t')).
Proof. exact (key_iff p t f p' t' f'). Qed.
Print Assumptions C37_exactly.
Example C37_exactly_case : schema_key "/s/a|b" "c" true = schema_key "/s/a" "b|c" true /\ "/s/a|b" = "/s/a" +:+ "|" +:+ "b" /\ "b|c" = "b" +:+ "|" +:+ "c".
Proof. by vm_compute. Qed.

(** C45. AvroTime is less than a millisecond away from the instant exactly if its nanoseconds since 1970 are an int64. *)
Theorem C45_exactly t : (Z.abs (avro_time t * 1000000 - nanoseconds t) < 1000000)%Z <-> representable t.
Proof. exact (avro_time_iff t). Qed.
Print Assumptions C45_exactly.
Example C45_exactly_case : representable (GTime 1700000000 1 0) /\ ~ representable year_one.
Proof. split; [by vm_compute|]. intros [H _]. by vm_compute in H. Qed.

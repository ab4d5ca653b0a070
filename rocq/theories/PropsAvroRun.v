(** Properties of generated Avro code when it runs: C45, C48 and C49. *)
From stdpp Require Import strings list gmap.
From Coq Require Import ZArith.
From Verif Require Import GoStr Val Conv AvroRun SpecAvroRun AvroRunL.

(** C45. AvroTime is the time in milliseconds: less than one away, in the same order, exact for whole milliseconds. *)
Theorem C45_within_partial t : representable t -> (Z.abs (avro_time t * 1000000 - nanoseconds t) < 1000000)%Z.
Proof. exact (avro_time_within t). Qed.
Print Assumptions C45_within_partial.
Theorem C45_monotone_partial t u : representable t -> representable u -> (nanoseconds t <= nanoseconds u)%Z -> (avro_time t <= avro_time u)%Z.
Proof. exact (avro_time_mono t u). Qed.
Print Assumptions C45_monotone_partial.
Theorem C45_exact_partial t k : representable t -> nanoseconds t = (k * 1000000)%Z -> avro_time t = k.
Proof. exact (avro_time_exact t k). Qed.
Print Assumptions C45_exact_partial.
Example C45_case : let t := GTime (-2) 999999999 0 in representable t /\ nanoseconds t = (-1000000001)%Z /\ avro_time t = (-1000)%Z.
Proof. split_and!; [by vm_compute|reflexivity|reflexivity]. Qed.
(** Instants outside the years 1678 to 2262 are not covered: the zero time.Time, for one, is written as some time in 1754. *)
Theorem C45_zero_refuted : ~ (Z.abs (avro_time year_one * 1000000 - nanoseconds year_one) < 1000000)%Z /\ t_zero year_one = true.
Proof. split; [by vm_compute|reflexivity]. Qed.
Print Assumptions C45_zero_refuted.
Theorem C45_optional t : avro_optional_time t = match t with None => 0%Z | Some t => avro_time t end.
Proof. exact (avro_optional t). Qed.
Print Assumptions C45_optional.
Theorem C45_slice ts : length (avro_time_slice ts) = length ts /\ forall i t, ts !! i = Some t -> avro_time_slice ts !! i = Some (avro_time t).
Proof. exact (avro_slice ts). Qed.
Print Assumptions C45_slice.
Theorem C45_optional_slice ts l : avro_optional_time_slice ts = Some l <-> l = avro_time <$> omap id ts /\ l <> [].
Proof. exact (avro_optional_slice ts l). Qed.
Print Assumptions C45_optional_slice.
Theorem C45_optional_slice_nil ts : avro_optional_time_slice ts = None <-> Forall (fun t => t = None) ts.
Proof. exact (avro_optional_slice_none ts). Qed.
Print Assumptions C45_optional_slice_nil.
Example C45_slices : avro_time_slice [GTime 1 5000000 0; GTime 2 0 0] = [1005; 2000]%Z /\
  avro_optional_time_slice [None; Some (GTime 1 0 0); None; Some (GTime 0 1000000 0)] = Some [1000; 1]%Z /\ avro_optional_time_slice [None] = None.
Proof. split_and!; reflexivity. Qed.

Section C48.
Context {T F : Type} (mapping : T -> F) (zero : F) (now given : gtime).
Notation t := (write_time now given).
(** C48. In every run, the records written are those of the items received, in order, except perhaps the last one. *)
Theorem C48_order sent n s : brun mapping zero t b_init sent n s ->
  exists dn x, sent = dn ++ x ++ b_queue s /\ length x <= 1 /\ records (b_acts s) = map (item_record mapping zero t) dn.
Proof. exact (bulk_order mapping zero t sent n s). Qed.
(** If it has ended without an error, then the channel was closed, every item sent was written, and the file was finished. *)
Theorem C48_all sent n s : brun mapping zero t b_init sent n s -> b_pc s = BDone -> errors (b_acts s) = 0 ->
  b_closed s = true /\ records (b_acts s) = map (item_record mapping zero t) sent /\ exists p, b_acts s = p ++ [AFlush; AClose].
Proof. exact (bulk_all mapping zero t sent n s). Qed.
(** At most one error is reported, after which the error channel is closed and nothing else happens. *)
Theorem C48_one_error sent n s : brun mapping zero t b_init sent n s ->
  errors (b_acts s) <= 1 /\
  (errors (b_acts s) = 1 -> exists p, errors p = 0 /\ (b_acts s = p ++ [AError] \/ b_acts s = p ++ [AError; AClose])).
Proof. exact (bulk_errors mapping zero t sent n s). Qed.
(** The error channel is closed exactly once, as the last action. *)
Theorem C48_closed_last sent n s : brun mapping zero t b_init sent n s ->
  (b_pc s = BDone -> exists p, b_acts s = p ++ [AClose] /\ closes p = 0) /\ (b_pc s <> BDone -> closes (b_acts s) = 0).
Proof. exact (bulk_close mapping zero t sent n s). Qed.
(** It never blocks, except to wait for an item while the request channel is empty and open. *)
Theorem C48_never_blocks sent n s : brun mapping zero t b_init sent n s -> b_pc s <> BDone ->
  (exists s', gstep mapping zero t s s') \/ (b_pc s = BRecv /\ b_queue s = [] /\ b_closed s = false).
Proof. exact (bulk_progress mapping zero t sent n s). Qed.
(** After the request channel is closed, or a call failed, it takes a bounded number of steps, whatever the others do. *)
Theorem C48_ends s sent n s' : brun mapping zero t s sent n s' -> b_closed s = true -> n <= 5 + 2 * length (b_queue s).
Proof. exact (bulk_bound mapping zero t s sent n s'). Qed.
Theorem C48_ends_error s sent n s' : brun mapping zero t s sent n s' -> b_pc s = BReport -> n <= 2.
Proof. exact (bulk_bound_error mapping zero t s sent n s'). Qed.

(** C49. WriteAvroCF hands over one record that is not marked as deleted, WriteAvroDeletedCF one that is; both have the
    given time, or now if it is zero, and the fields of the value, and both report the failures of the container. *)
Theorem C49_write c x : let r := ARec (avro_time (if t_zero given then now else given)) false (mapping x) in
  write_cf mapping zero now c (Some x) given = (if c_new c && c_record c r then [r] else [], c_new c && c_record c r && c_flush c).
Proof. exact (write_cf_exact mapping zero now c x given). Qed.
Theorem C49_delete c x : let r := ARec (avro_time (if t_zero given then now else given)) true (mapping x) in
  write_deleted_cf mapping zero now c (Some x) given = (if c_new c && c_record c r then [r] else [], c_new c && c_record c r && c_flush c).
Proof. exact (write_deleted_exact mapping zero now c x given). Qed.
(** A nil receiver is an error and writes nothing. *)
Theorem C49_nil c : write_cf mapping zero now c None given = ([], false) /\ write_deleted_cf mapping zero now c None given = ([], false).
Proof. exact (write_nil mapping zero now c given). Qed.
End C48.
Print Assumptions C48_order.
Print Assumptions C48_all.
Print Assumptions C48_one_error.
Print Assumptions C48_closed_last.
Print Assumptions C48_never_blocks.
Print Assumptions C48_ends.
Print Assumptions C48_ends_error.
Print Assumptions C49_write.
Print Assumptions C49_delete.
Print Assumptions C49_nil.
(** two items are sent, the second is nil and sent while the first is written; the channel is closed *)
Example C48_case : exists s, brun (fun x : nat => x) 0 (GTime 5 0 0) b_init [Some 7; None] 8 s /\ b_pc s = BDone /\ errors (b_acts s) = 0 /\
  b_acts s = [AHeader; ARecord (ARec 5000 false 7); ARecord (ARec 5000 true 0); AFlush; AClose].
Proof. exact bulk_case. Qed.
(** the second write fails while a third item is waiting *)
Example C48_fail_case : exists s, brun (fun x : nat => x) 0 (GTime 5 0 0) b_init [Some 7; None; Some 8] 7 s /\ b_pc s = BDone /\ errors (b_acts s) = 1 /\
  b_queue s = [Some 8] /\ b_acts s = [AHeader; ARecord (ARec 5000 false 7); AError; AClose].
Proof. exact bulk_fail_case. Qed.
Example C49_case : let c := Container true (fun _ => true) true in
  write_cf (fun x : nat => x) 0 (GTime 9 0 0) c (Some 7) year_one = ([ARec 9000 false 7], true) /\
  write_deleted_cf (fun x : nat => x) 0 (GTime 9 0 0) c (Some 7) (GTime 3 0 0) = ([ARec 3000 true 7], true).
Proof. split; reflexivity. Qed.

(** What generated Avro code does when it runs: the time helpers of generate/avro_helpers.go and the functions of
    the template generate/avro_template.go. *)
From stdpp Require Import strings list gmap.
From Coq Require Import ZArith.
From Verif Require Import GoStr Val Conv.

(** time.Time.UnixNano: int64 arithmetic, which wraps *)
Definition unix_nano (t : gtime) : Z := wrap64 (wrap64 (t_sec t * 1000000000) + t_nsec t).
(** avro_helpers.go 58-60; Go's division truncates *)
Definition avro_time (t : gtime) : Z := Z.quot (unix_nano t) 1000000.
(** avro_helpers.go 63-69 *)
Definition avro_time_slice (ts : list gtime) : list Z := map avro_time ts.
(** avro_helpers.go 74-79; None is the nil pointer *)
Definition avro_optional_time (t : option gtime) : Z :=
  match t with None => 0%Z | Some t => Z.quot (unix_nano t) 1000000 end.
(** avro_helpers.go 83-95, the loop; then the result: None is the nil slice *)
Fixpoint optional_times (ts : list (option gtime)) (acc : list Z) : list Z :=
  match ts with
  | [] => acc
  | None :: ts' => optional_times ts' acc
  | Some t :: ts' => optional_times ts' (acc ++ [avro_time t])
  end.
Definition avro_optional_time_slice (ts : list (option gtime)) : option (list Z) :=
  match optional_times ts [] with [] => None | l => Some l end.

(** ** The generated methods. [T] is the generated struct, [F] the Avro fields the mapping code fills. *)
Section run.
Context {T F : Type} (mapping : T -> F) (zero : F).
(** a record of the generated Avro package *)
Record arec := ARec { r_time : Z; r_deleted : bool; r_fields : F }.

(** avro_template.go 63-75; None is the nil pointer *)
Definition convert_to_avro (z : option T) (t : gtime) : arec :=
  match z with
  | None => ARec (avro_time t) true zero
  | Some x => ARec (avro_time t) false (mapping x)
  end.
(** avro_template.go 26-28, 46-48, 85-87 *)
Definition write_time (now t : gtime) : gtime := if t_zero t then now else t.

(** The container writer of gogen-avro: whether NewWriter, WriteRecord and Flush fail *)
Record container := Container { c_new : bool; c_record : arec -> bool; c_flush : bool }.
(** avro_template.go 22-39 after the check for nil, and 49-60: the records handed to the container, and whether
    the call succeeds *)
Definition write_record (c : container) (r : arec) : list arec * bool :=
  if negb (c_new c) then ([], false)
  else if negb (c_record c r) then ([], false) else ([r], c_flush c).
(** avro_template.go 22-39 WriteAvroCF *)
Definition write_cf (now : gtime) (c : container) (z : option T) (t : gtime) : list arec * bool :=
  match z with
  | None => ([], false)
  | Some _ => write_record c (convert_to_avro z (write_time now t))
  end.
(** avro_template.go 42-61 WriteAvroDeletedCF *)
Definition write_deleted_cf (now : gtime) (c : container) (z : option T) (t : gtime) : list arec * bool :=
  match z with
  | None => ([], false)
  | Some _ =>
    let r := convert_to_avro z (write_time now t) in
    write_record c (ARec (r_time r) true (r_fields r))
  end.

(** ** The bulk writer, avro_template.go 84-112, as a machine.
    The goroutine is at one of these points. *)
Inductive bpc :=
| BNew                        (* line 93 *)
| BRecv                       (* line 99, waiting for an item *)
| BWrite (z : option T)       (* line 100 *)
| BFlush                      (* line 106 *)
| BReport                     (* lines 95, 101, 107: errors <- err *)
| BClose                      (* the deferred close(errors) *)
| BDone.
(** its actions on the error channel and the container *)
Inductive bact := AHeader | ARecord (r : arec) | AFlush | AError | AClose.
(** The request channel is a queue of any capacity; the error channel has capacity 1 (line 88): [b_errors] is
    the number of errors in its buffer. [b_acts]: what the goroutine has done, oldest first. *)
Record bst := BSt { b_pc : bpc; b_queue : list (option T); b_closed : bool; b_errors : nat; b_acts : list bact }.
Definition b_init : bst := BSt BNew [] false 0 [].

(** a step of the goroutine; the calls of the container may succeed or fail *)
Inductive gstep (t : gtime) : bst -> bst -> Prop :=
| g_new_ok q c e a : gstep t (BSt BNew q c e a) (BSt BRecv q c e (a ++ [AHeader]))
| g_new_fail q c e a : gstep t (BSt BNew q c e a) (BSt BReport q c e a)
| g_recv z q c e a : gstep t (BSt BRecv (z :: q) c e a) (BSt (BWrite z) q c e a)
| g_recv_closed e a : gstep t (BSt BRecv [] true e a) (BSt BFlush [] true e a)
| g_write_ok z q c e a : gstep t (BSt (BWrite z) q c e a) (BSt BRecv q c e (a ++ [ARecord (convert_to_avro z t)]))
| g_write_fail z q c e a : gstep t (BSt (BWrite z) q c e a) (BSt BReport q c e a)
| g_flush_ok q c e a : gstep t (BSt BFlush q c e a) (BSt BClose q c e (a ++ [AFlush]))
| g_flush_fail q c e a : gstep t (BSt BFlush q c e a) (BSt BReport q c e a)
| g_report q c e a : e < 1 -> gstep t (BSt BReport q c e a) (BSt BClose q c (S e) (a ++ [AError]))
| g_close q c e a : gstep t (BSt BClose q c e a) (BSt BDone q c e (a ++ [AClose])).
(** a step of the rest of the program: send an item, close the request channel, receive an error *)
Inductive estep : bst -> option (option T) -> bst -> Prop :=
| e_send z pc q e a : estep (BSt pc q false e a) (Some z) (BSt pc (q ++ [z]) false e a)
| e_close pc q e a : estep (BSt pc q false e a) None (BSt pc q true e a)
| e_recv pc q c e a : estep (BSt pc q c (S e) a) None (BSt pc q c e a).
(** runs: the state, the items sent so far, and the number of steps of the goroutine *)
Inductive brun (t : gtime) : bst -> list (option T) -> nat -> bst -> Prop :=
| run_nil s : brun t s [] 0 s
| run_g s sent n s1 s2 : brun t s sent n s1 -> gstep t s1 s2 -> brun t s sent (S n) s2
| run_send s sent n s1 z s2 : brun t s sent n s1 -> estep s1 (Some z) s2 -> brun t s (sent ++ [z]) n s2
| run_env s sent n s1 s2 : brun t s sent n s1 -> estep s1 None s2 -> brun t s sent n s2.
End run.

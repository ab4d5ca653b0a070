(** What Avro code should do when it runs. *)
From stdpp Require Import strings list gmap.
From Coq Require Import ZArith.
From Verif Require Import Val AvroRun.

(** the instant in nanoseconds since 1970 *)
Definition nanoseconds (t : gtime) : Z := (t_sec t * 1000000000 + t_nsec t)%Z.
(** instants whose nanoseconds are an int64: the years 1678 to 2262 *)
Definition representable (t : gtime) : Prop := (- 2 ^ 63 <= nanoseconds t < 2 ^ 63)%Z.
(** the zero time.Time *)
Definition year_one : gtime := GTime (-62135596800) 0 0.

Section spec.
Context {T F : Type}.
(** the records a goroutine wrote, the errors it reported, the times it closed the error channel *)
Definition records (a : list (@bact F)) : list (@arec F) := omap (fun x => match x with ARecord r => Some r | _ => None end) a.
Definition errors (a : list (@bact F)) : nat := length (List.filter (fun x => match x with AError => true | _ => false end) a).
Definition closes (a : list (@bact F)) : nat := length (List.filter (fun x => match x with AClose => true | _ => false end) a).
(** the record of an item: a nil item becomes a delete record *)
Definition item_record (mapping : T -> F) (zero : F) (t : gtime) (z : option T) : @arec F :=
  ARec (avro_time t) (match z with None => true | Some _ => false end) (match z with None => zero | Some x => mapping x end).
End spec.

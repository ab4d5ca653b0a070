(** Runs in which calls that write files fail, stated without the model of the generator. *)
From stdpp Require Import strings list.
From Verif Require Import Avro Crash Fault.

(** the calls whose errors may go unnoticed: closing a Go file, and writing a piece of an Avro schema *)
Definition unnoticed (c : call) : Prop := match c with GoClose _ | AvscPiece _ => True | _ => False end.
(** [t] is the beginning of [whole] *)
Definition beginning (t whole : string) : Prop := exists rest, whole = t +:+ rest.

(** a field of a struct with one name, and a type that is a number, a text, a truth value or a time *)
Definition plain (f : afield) : Prop :=
  exists go, af_names f = [go] /\ ((exists id p, af_type f = EIdent id /\ prim_name id = Some p) \/ exists pk, af_type f = ESel pk "Time").

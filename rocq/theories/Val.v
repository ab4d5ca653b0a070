(** Go values handled by package transform, seen through a one-level view, and the oracles that stand
    for the libraries the package calls. *)
From stdpp Require Import strings list gmap.
From Coq Require Import Ascii Floats.SpecFloat ZArith.
From Verif Require Import GoStr.

(** time.Time: an instant (Unix seconds and nanoseconds) and its zone offset in seconds. *)
Record gtime := GTime { t_sec : Z; t_nsec : Z; t_off : Z }.

(** Scalar dynamic types an interface{} can hold here. uint64, float32, int8, int16 and int32 occur in
    type switches of /repo/transform/utils.go 77-170 and operations.go 376-455 but no code of the package produces them, so they are left out. *)
Inductive scal :=
| SNil                       (* the nil interface *)
| SBool (b : bool)
| SInt (z : Z)               (* int *)
| SI64 (z : Z)               (* int64 *)
| SF (f : spec_float)        (* float64 *)
| SStr (s : string)
| STime (t : gtime).

(** One level of a Go value. Nodes are *xmlquery.Node pointers, named by numbers. *)
Inductive vw (V : Type) :=
| WS (s : scal)
| WArr (l : list V)          (* []interface{} *)
| WMap (m : gmap string V)   (* map[string]interface{} *)
| WNode (n : nat)            (* *xmlquery.Node *)
| WNodes (l : list nat).     (* []*xmlquery.Node *)
Arguments WS {V} s.
Arguments WArr {V} l.
Arguments WMap {V} m.
Arguments WNode {V} n.
Arguments WNodes {V} l.

Definition vw_map {A B} (f : A -> B) (w : vw A) : vw B :=
  match w with
  | WS s => WS s
  | WArr l => WArr (f <$> l)
  | WMap m => WMap (f <$> m)
  | WNode n => WNode n
  | WNodes l => WNodes l
  end.

(** Values in flight inside an instruction: an existing value, a new scalar, a new slice of values, or
    a slice of XML nodes. *)
Inductive gval (V : Type) :=
| GV (v : V)
| GS (s : scal)
| GL (l : list (gval V))
| GN (l : list nat).
Arguments GV {V} v.
Arguments GS {V} s.
Arguments GL {V} l.
Arguments GN {V} l.

Definition gview {V} (view : V -> vw V) (g : gval V) : vw (gval V) :=
  match g with
  | GV v => vw_map GV (view v)
  | GS s => WS s
  | GL l => WArr l
  | GN l => WNodes l
  end.

Fixpoint gjoin {V} (g : gval (gval V)) : gval V :=
  match g with
  | GV g' => g'
  | GS s => GS s
  | GL l => GL (gjoin <$> l)
  | GN l => GN l
  end.

(** The libraries. Nothing is assumed about an oracle unless a theorem says so. *)
Record oracles := Oracles {
  (* strconv.ParseFloat(s, 64): None = error *)
  o_parse_float : string -> option spec_float;
  (* strconv.FormatFloat(f, 'f', -1, 64) *)
  o_fmt_float : spec_float -> string;
  (* int64(f) for NaN and values outside the int64 range (implementation specific in Go) *)
  o_f2i : spec_float -> Z;
  (* time.Parse(layout, s): None = error *)
  o_parse_time : string -> string -> option gtime;
  (* Time.Format(layout) *)
  o_fmt_time : string -> gtime -> string;
  (* time.Now(); one reading per run, so two runs are compared at equal clock readings *)
  o_now : gtime;
  (* strings.ToLower, ToUpper, Title on strings with non-ASCII characters *)
  o_lower : string -> string;
  o_upper : string -> string;
  o_title : string -> string;
  (* regexp.Compile succeeds / ReplaceAllString(regex, in, new) *)
  o_re_ok : string -> bool;
  o_re_replace : string -> string -> string -> string;
  (* bluemonday Sanitize, html.UnescapeString *)
  o_sanitize : string -> string;
  o_unescape : string -> string;
  (* jsonpath.Get for every path that is not a plain one (filters, wildcards, ranges, scripts).
     It sees values only through their view. Results that follow Go's map iteration order
     (wildcards over objects) are given some fixed order. *)
  o_jpath : forall V : Type, (V -> vw V) -> string -> V -> option (gval V);
  (* xmlquery.Find(node, path): None = panic (invalid expression), Some [] = nil; Node.InnerText *)
  o_xfind : nat -> string -> option (list nat);
  o_text : nat -> string;
  (* recursion depth the goroutine stack allows; beyond it Go aborts *)
  o_stack : nat;
  (* capacity append chooses when it must grow a slice to the given length *)
  o_grow : nat -> nat
}.

(** JSON documents (and, with the other scalars and XML nodes, Go values without sharing). Objects list
    their members in document order. *)
Inductive tree :=
| TS (s : scal)
| TArr (l : list tree)
| TObj (kvs : list (string * tree))
| TNode (n : nat)
| TNodes (l : list nat).

Definition tmap (kvs : list (string * tree)) : gmap string tree := list_to_map kvs.
Definition tview (t : tree) : vw tree :=
  match t with
  | TS s => WS s
  | TArr l => WArr l
  | TObj kvs => WMap (tmap kvs)
  | TNode n => WNode n
  | TNodes l => WNodes l
  end.

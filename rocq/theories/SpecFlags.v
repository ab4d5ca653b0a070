(** What rename flags say. *)
From stdpp Require Import strings list gmap.
From Coq Require Import Ascii.
From Verif Require Import GoStr.

(** [s] does not contain the character [c] *)
Definition without (c : ascii) (s : string) : Prop := ~ exists a b, s = a +:+ String c b.
(** a pair `key=value`: the key has no "=" and neither contains a comma *)
Definition pair_ok (kv : string * string) : Prop := without "="%char kv.1 /\ without ","%char kv.1 /\ without ","%char kv.2.
(** `k=v,k2=v2` *)
Definition written (kvs : list (string * string)) : string := join "," (map (fun kv => kv.1 +:+ "=" +:+ kv.2) kvs).
(** [m'] is [m] changed by the pairs, of which the last one for a key counts *)
Definition set_by (m : gmap string string) (kvs : list (string * string)) (m' : gmap string string) : Prop :=
  forall k v, m' !! k = Some v <->
    (exists before after, kvs = before ++ (k, v) :: after /\ k ∉ after.*1) \/ (k ∉ kvs.*1 /\ m !! k = Some v).
(** a part between commas without "=" *)
Definition malformed (s : string) : Prop :=
  exists parts p, s = join "," parts /\ Forall (without ","%char) parts /\ p ∈ parts /\ without "="%char p.

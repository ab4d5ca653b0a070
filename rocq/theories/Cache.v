(** Cache.Load with singleflight, as a machine of any number of loads in any interleaving. *)
From stdpp Require Import strings list gmap.

Section cache.
(** values and errors of builders *)
Context {V E : Type}.
(** The loads a builder makes, in order: schema.go 103-161 makes one for each reference to another file
    (reference.go 196, through schemaFromFile). The builder gives up at the first that fails. *)
Context (deps : string -> list string).

(** what a builder, and so a Load, ends with *)
Inductive outcome := OOk (v : V) | OErr (e : E) | OPanic.
Definition is_ok (r : outcome) : bool := match r with OOk _ => true | _ => false end.

(** Where a Load is. [c] is the singleflight call it has made (as the leader) or joined. *)
Inductive pc :=
| PEnter                                   (* cache.go 21: before flight.Do looks up the key *)
| PLead (c : nat)                          (* cache.go 22: in the function, before data.Load *)
| PBuild (c : nat) (ds : list string) (ok : bool)  (* cache.go 27: in builder; [ds] are still to be loaded, [ok]: none failed *)
| PNest (c : nat) (ds : list string)       (* in builder, waiting for a load it has made *)
| PStore (c : nat) (v : V)                 (* cache.go 33: before data.Store *)
| PFin (c : nat) (r : outcome)             (* back in singleflight, before the call is completed and forgotten *)
| PWait (c : nat).                         (* waiting for another's call *)
Record load := Load { l_key : string; l_up : option nat; l_pc : pc }.
(** [s_data] is Cache.data, [s_flight] the singleflight group's map, [s_calls] its calls with their results,
    [s_loads] the loads that have not returned. A load made by a builder names the load that runs the
    builder, so chains of loads are goroutine stacks. *)
Record state := State {
  s_data : gmap string V;
  s_flight : gmap string nat;
  s_calls : list (string * option outcome);
  s_loads : gmap nat load;
  s_next : nat
}.
Definition init : state := State ∅ ∅ [] ∅ 0.

(** What can be observed: a Load is called, its builder starts, its builder ends, it returns. *)
Inductive event :=
| Call (l : nat) (k : string)
| Start (l : nat) (k : string)
| End (l : nat) (k : string) (r : outcome)
| Ret (l : nat) (k : string) (r : outcome).

Definition at_pc (p : pc) (ld : load) : load := Load (l_key ld) (l_up ld) p.
Definition go (l : nat) (ld : load) (p : pc) (s : state) : state :=
  State (s_data s) (s_flight s) (s_calls s) (<[l := at_pc p ld]> (s_loads s)) (s_next s).
(** a new load *)
Definition enter (k : string) (up : option nat) (s : state) : state :=
  State (s_data s) (s_flight s) (s_calls s) (<[s_next s := Load k up PEnter]> (s_loads s)) (S (s_next s)).
(** the load returns [r], to the builder that made it if any *)
Definition resume (r : outcome) (ld : load) : load :=
  match l_pc ld with PNest c ds => at_pc (PBuild c ds (is_ok r)) ld | _ => ld end.
Definition leave (l : nat) (ld : load) (r : outcome) (m : gmap nat load) : gmap nat load :=
  match l_up ld with None => delete l m | Some p => alter (resume r) p (delete l m) end.

(** cache.go 20-45 and x/sync/singleflight Group.Do: what the load [l] can do next. Group.Do's critical sections
    are single steps: looking up the call and joining or creating it; and setting its result, releasing those
    who wait, and removing it. *)
Inductive lstep (s : state) (l : nat) (ld : load) : list event -> state -> Prop :=
| step_join c : l_pc ld = PEnter -> s_flight s !! l_key ld = Some c ->
    lstep s l ld [] (go l ld (PWait c) s)
| step_lead : l_pc ld = PEnter -> s_flight s !! l_key ld = None ->
    lstep s l ld [] (State (s_data s) (<[l_key ld := length (s_calls s)]> (s_flight s)) (s_calls s ++ [(l_key ld, None)])
                     (<[l := at_pc (PLead (length (s_calls s))) ld]> (s_loads s)) (s_next s))
| step_hit c v : l_pc ld = PLead c -> s_data s !! l_key ld = Some v ->
    lstep s l ld [] (go l ld (PFin c (OOk v)) s)
| step_miss c : l_pc ld = PLead c -> s_data s !! l_key ld = None ->
    lstep s l ld [Start l (l_key ld)] (go l ld (PBuild c (deps (l_key ld)) true) s)
| step_nest c d ds : l_pc ld = PBuild c (d :: ds) true ->
    lstep s l ld [Call (s_next s) d] (enter d (Some l) (go l ld (PNest c ds) s))
| step_built c v : l_pc ld = PBuild c [] true ->
    lstep s l ld [End l (l_key ld) (OOk v)] (go l ld (PStore c v) s)
| step_failed c ds ok r : l_pc ld = PBuild c ds ok -> ds = [] \/ ok = false -> is_ok r = false ->
    lstep s l ld [End l (l_key ld) r] (go l ld (PFin c r) s)
| step_store c v : l_pc ld = PStore c v ->
    lstep s l ld [] (State (<[l_key ld := v]> (s_data s)) (s_flight s) (s_calls s) (<[l := at_pc (PFin c (OOk v)) ld]> (s_loads s)) (s_next s))
| step_fin c r : l_pc ld = PFin c r ->
    lstep s l ld [Ret l (l_key ld) r]
      (State (s_data s) (delete (l_key ld) (s_flight s)) (<[c := (l_key ld, Some r)]> (s_calls s)) (leave l ld r (s_loads s)) (s_next s))
| step_wait c k r : l_pc ld = PWait c -> s_calls s !! c = Some (k, Some r) ->
    lstep s l ld [Ret l (l_key ld) r]
      (State (s_data s) (s_flight s) (s_calls s) (leave l ld r (s_loads s)) (s_next s)).
(** a load that has not returned does something *)
Definition moves (s : state) (es : list event) (s' : state) : Prop :=
  exists l ld, s_loads s !! l = Some ld /\ lstep s l ld es s'.
(** what has happened from the start: at any time Load may be called (by another goroutine), or a load does
    something *)
Inductive exec : list event -> state -> Prop :=
| exec_init : exec [] init
| exec_call tr s k : exec tr s -> exec (tr ++ [Call (s_next s) k]) (enter k None s)
| exec_move tr s es s' : exec tr s -> moves s es s' -> exec (tr ++ es) s'.
End cache.
Arguments outcome : clear implicits.
Arguments pc : clear implicits.
Arguments load : clear implicits.
Arguments state : clear implicits.
Arguments event : clear implicits.

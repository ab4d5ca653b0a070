(** What a cache may do, in terms of its events. *)
From stdpp Require Import strings list gmap.
From Verif Require Import Cache.

Section spec.
Context {V E : Type}.
(** For one key: nothing is built, the builder of a load runs, or a value has been built. *)
Inductive phase := Idle | Running (l : nat) | Built (v : V).
Definition key_of (e : event V E) : string := match e with Call _ k | Start _ k | End _ k _ | Ret _ k _ => k end.
Inductive phase_step (k : string) : phase -> event V E -> phase -> Prop :=
| ph_start l : phase_step k Idle (Start l k) (Running l)
| ph_built l v : phase_step k (Running l) (End l k (OOk v)) (Built v)
| ph_failed l r : is_ok r = false -> phase_step k (Running l) (End l k r) Idle
| ph_value l v : phase_step k (Built v) (Ret l k (OOk v)) (Built v)
| ph_error l r p : is_ok r = false -> phase_step k p (Ret l k r) p
| ph_call l p : phase_step k p (Call l k) p
| ph_other e p : key_of e <> k -> phase_step k p e p.
(** the events [tr] take the key [k] from one phase to another *)
Inductive phases (k : string) : phase -> list (event V E) -> phase -> Prop :=
| phases_nil p : phases k p [] p
| phases_snoc p tr p' e p'' : phases k p tr p' -> phase_step k p' e p'' -> phases k p (tr ++ [e]) p''.
(** One load: it is called, may run its builder once, and returns once; if it has run its builder it returns
    what that ended with. *)
Inductive stage := New | Called (k : string) | Building (k : string) | Ended (k : string) (r : outcome V E) | Gone.
Definition load_of (e : event V E) : nat := match e with Call l _ | Start l _ | End l _ _ | Ret l _ _ => l end.
Inductive stage_step (l : nat) : stage -> event V E -> stage -> Prop :=
| stg_call k : stage_step l New (Call l k) (Called k)
| stg_start k : stage_step l (Called k) (Start l k) (Building k)
| stg_end k r : stage_step l (Building k) (End l k r) (Ended k r)
| stg_ret k r : stage_step l (Ended k r) (Ret l k r) Gone
| stg_told k r : stage_step l (Called k) (Ret l k r) Gone
| stg_other e g : load_of e <> l -> stage_step l g e g.
Inductive stages (l : nat) : stage -> list (event V E) -> stage -> Prop :=
| stages_nil g : stages l g [] g
| stages_snoc g tr g' e g'' : stages l g tr g' -> stage_step l g' e g'' -> stages l g (tr ++ [e]) g''.
(** a load of [k] is waiting for a load its builder has made *)
Definition nested (s : state V E) (k : string) : Prop :=
  exists l ld c ds, s_loads s !! l = Some ld /\ l_key ld = k /\ l_pc ld = PNest c ds.
(** [n] moves of the loads that have been called, with no further calls from outside *)
Inductive nmoves (deps : string -> list string) : nat -> state V E -> list (event V E) -> state V E -> Prop :=
| nmoves_0 s : nmoves deps 0 s [] s
| nmoves_S n s es s1 tr s2 : moves deps s es s1 -> nmoves deps n s1 tr s2 -> nmoves deps (S n) s (es ++ tr) s2.
End spec.
Arguments phase : clear implicits.
Arguments stage : clear implicits.

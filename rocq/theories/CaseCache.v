(** Schedules for the examples and refutations of PropsCache. *)
From stdpp Require Import strings list gmap.
From Verif Require Import Cache SpecCache.

Section sched.
Context {V E : Type} (deps : string -> list string).
(** a scheduler's choices; a move of a load in its builder ends it with the given outcome if it has nothing to load *)
Inductive act := ACall (k : string) | AMove (l : nat) (r : outcome V E).
Definition move (s : state V E) (l : nat) (r : outcome V E) : option (list (event V E) * state V E) :=
  match s_loads s !! l with
  | None => None
  | Some ld =>
    match l_pc ld with
    | PEnter =>
      match s_flight s !! l_key ld with
      | Some c => Some ([], go l ld (PWait c) s)
      | None => Some ([], State (s_data s) (<[l_key ld := length (s_calls s)]> (s_flight s)) (s_calls s ++ [(l_key ld, None)])
                     (<[l := at_pc (PLead (length (s_calls s))) ld]> (s_loads s)) (s_next s))
      end
    | PLead c =>
      match s_data s !! l_key ld with
      | Some v => Some ([], go l ld (PFin c (OOk v)) s)
      | None => Some ([Start l (l_key ld)], go l ld (PBuild c (deps (l_key ld)) true) s)
      end
    | PBuild c (d :: ds) true => Some ([Call (s_next s) d], enter d (Some l) (go l ld (PNest c ds) s))
    | PBuild c [] true =>
      match r with
      | OOk v => Some ([End l (l_key ld) (OOk v)], go l ld (PStore c v) s)
      | _ => Some ([End l (l_key ld) r], go l ld (PFin c r) s)
      end
    | PBuild c _ false => match r with OOk _ => None | _ => Some ([End l (l_key ld) r], go l ld (PFin c r) s) end
    | PNest _ _ => None
    | PStore c v => Some ([], State (<[l_key ld := v]> (s_data s)) (s_flight s) (s_calls s) (<[l := at_pc (PFin c (OOk v)) ld]> (s_loads s)) (s_next s))
    | PFin c r => Some ([Ret l (l_key ld) r], State (s_data s) (delete (l_key ld) (s_flight s)) (<[c := (l_key ld, Some r)]> (s_calls s)) (leave l ld r (s_loads s)) (s_next s))
    | PWait c =>
      match s_calls s !! c with
      | Some (_, Some r) => Some ([Ret l (l_key ld) r], State (s_data s) (s_flight s) (s_calls s) (leave l ld r (s_loads s)) (s_next s))
      | _ => None
      end
    end
  end.
Lemma move_moves s l r es s' : move s l r = Some (es, s') -> moves deps s es s'.
Proof.
  unfold move. destruct (s_loads s !! l) as [ld|] eqn:Hl; [|done]. intros H. exists l, ld. split; [done|].
  destruct (l_pc ld) as [|c|c ds ok|c ds|c v|c r'|c] eqn:Hp.
  - destruct (s_flight s !! l_key ld) eqn:Hf; injection H as <- <-; by constructor.
  - destruct (s_data s !! l_key ld) eqn:Hf; injection H as <- <-; [by eapply step_hit|by eapply step_miss].
  - destruct ds as [|d ds], ok; [destruct r| destruct r| |destruct r]; try done; injection H as <- <-;
      try (by eapply step_nest); try (by eapply step_built); eapply step_failed; try done; first [by left|by right].
  - done.
  - injection H as <- <-. by eapply step_store.
  - injection H as <- <-. by eapply step_fin.
  - destruct (s_calls s !! c) as [[k [r'|]]|] eqn:Hc; try done. injection H as <- <-. by eapply step_wait.
Qed.
Fixpoint sched (acts : list act) (s : state V E) : option (list (event V E) * state V E) :=
  match acts with
  | [] => Some ([], s)
  | ACall k :: acts' => match sched acts' (enter k None s) with Some (tr, s') => Some (Call (s_next s) k :: tr, s') | None => None end
  | AMove l r :: acts' =>
    match move s l r with
    | Some (es, s1) => match sched acts' s1 with Some (tr, s') => Some (es ++ tr, s') | None => None end
    | None => None
    end
  end.
Lemma sched_exec acts tr0 s tr s' : exec deps tr0 s -> sched acts s = Some (tr, s') -> exec deps (tr0 ++ tr) s'.
Proof.
  revert tr0 s tr. induction acts as [|[k|l r] acts IH]; intros tr0 s tr H; cbn [sched].
  - intros [= <- <-]. by rewrite app_nil_r.
  - destruct (sched acts (enter k None s)) as [[tr1 s1]|] eqn:E1; [|done]. intros [= <- <-].
    change (Call (s_next s) k :: tr1) with ([Call (s_next s) k] ++ tr1). rewrite app_assoc. eapply IH; [|done]. by constructor.
  - destruct (move s l r) as [[es s2]|] eqn:Em; [|done]. destruct (sched acts s2) as [[tr1 s1]|] eqn:E1; [|done]. intros [= <- <-].
    rewrite app_assoc. eapply IH; [|done]. eapply exec_move; [done|]. by eapply move_moves.
Qed.
Definition trace_of (acts : list act) : list (event V E) := match sched acts init with Some (tr, _) => tr | None => [] end.
Lemma sched_trace acts : match sched acts init with Some _ => True | None => False end -> exists s, exec deps (trace_of acts) s.
Proof.
  intros H. unfold trace_of. destruct (sched acts init) as [[tr s]|] eqn:E1; [|done]. exists s. apply (sched_exec acts [] init); [constructor|done].
Qed.
End sched.

(** two goroutines load the same file, which references another; the first build of that other file fails *)
Definition refs (k : string) : list string := if bool_decide (k = "a") then ["b"] else [].
Definition two : list (act (V := nat) (E := nat)) :=
  let m l := AMove l (OOk 5) in
  [ACall "a"; ACall "a"; m 0; m 1; m 0; m 0; m 2; m 2; AMove 2 (OErr 1); m 2; AMove 0 (OErr 2); m 0; m 1;
   ACall "a"; ACall "b"; m 3; m 3; m 4; m 3; m 4; m 5; m 4; m 4; m 4; m 5; AMove 3 (OOk 7); m 3; m 3; ACall "a"; m 6; m 6; m 6].
Definition two_trace := trace_of refs two.
Lemma two_runs : exists s, exec refs two_trace s.
Proof. apply sched_trace. vm_compute. done. Qed.
(** files that reference each other, loaded from both sides *)
Definition ring (k : string) : list string := if bool_decide (k = "a") then ["b"] else if bool_decide (k = "b") then ["a"] else [].
Definition around : list (act (V := nat) (E := nat)) :=
  let m l := AMove l (OOk 5) in
  [ACall "a"; m 0; m 0; m 0; m 1; m 1; m 1; m 2].
Definition around_trace := trace_of ring around.
Definition around_state := match sched ring around init with Some (_, s) => s | None => init end.
Lemma around_runs : exec ring around_trace around_state.
Proof. apply (sched_exec ring around [] init); [constructor|]. vm_compute. done. Qed.
Lemma around_stuck es s : ~ moves ring around_state es s.
Proof.
  intros (l & ld & Hl & Hst).
  assert (Hin : (l, ld) ∈ map_to_list (s_loads around_state)) by (by apply elem_of_map_to_list).
  vm_compute in Hin. repeat (apply elem_of_cons in Hin as [[= -> ->]|Hin]; [inversion Hst; cbn in *; try done; simplify_eq; try (by vm_compute in *); match goal with H : _ !! _ = _ |- _ => by vm_compute in H end|]).
  by apply elem_of_nil in Hin.
Qed.

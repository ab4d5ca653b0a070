(** A pure reading of transformers in which objects outside arrays have defaults: it gives the value and the transformer
    with the defaults as they are afterwards. The code computes it. *)
From stdpp Require Import strings list gmap.
From Coq Require Import Ascii ZArith Lia.
From Verif Require Import GoStr GoStrL Val Conv Instr Heap Den Param HeapL Refine SpecDef.

Section dden.
Context (W : oracles) (f : fmt).
(** the node an object is made from; [none]: the answer when there is none *)
Definition with_node {A} (ts : option ptis) (input : tree) (m : modifier) (none empty : A) (run : tree -> option A) : option A :=
  match f, ts with
  | FXml, Some _ =>
    v ← run_ptis W f ts input "object" m;
    match v with
    | TS SNil => Some none
    | TS (SStr "") => Some empty
    | TNode n => run (TNode n)
    | TNodes (n :: _) => run (TNode n)
    | TNodes [] => run input
    | _ => None
    end
  | _, _ => run input
  end.
Fixpoint dden (p : pitr) (input : tree) (m : modifier) : option (tree * pitr) :=
  match p with
  | PObj q None ts cs =>
    with_node ts input m (TS SNil, p) (TS SNil, p) (fun input =>
      r ← all_of (List.map (fun kc => match kc with (k, c) => pair k <$> dden c input m end) cs);
      Some (obj_of (List.map (fun kr : string * (tree * pitr) => (kr.1, kr.2.1)) r),
            PObj q None ts (List.map (fun kr : string * (tree * pitr) => (kr.1, kr.2.2)) r)))
  | PObj q (Some kvs) ts cs =>
    with_node ts input m (TObj kvs, p) (TS SNil, p) (fun input =>
      r ← all_of (List.map (fun kc => match kc with (k, c) => pair k <$> den W f c input m end) cs);
      Some (obj_or_nil (overlay kvs r), PObj q (Some (overlay kvs r)) ts cs))
  | _ => t ← den W f p input m; Some (t, p)
  end.
Fixpoint dpure (p : pitr) : Prop :=
  match p with
  | PObj q None ts cs => pure_ts ts /\ (f = FJson -> ts = None) /\
    (fix all (cs : list (string * pitr)) : Prop := match cs with [] => True | (_, c) :: cs' => dpure c /\ all cs' end) cs
  | PObj q (Some kvs) ts cs => pure_ts ts /\ (f = FJson -> ts = None) /\
    (fix all (cs : list (string * pitr)) : Prop := match cs with [] => True | (_, c) :: cs' => pure f c /\ all cs' end) cs
  | _ => pure f p
  end.
End dden.

(** where the defaults are *)
Fixpoint defs (i : itr) : list nat :=
  match i with
  | IObj _ None _ cs => List.concat (List.map (fun kc => match kc with (_, c) => defs c end) cs)
  | IObj _ (Some a) _ _ => [a]
  | _ => []
  end.
(** [H]: the heap; [h]: the part of it that never changes *)
Section drel.
Context (H h : gmap nat cell) (fr : gmap nat (list instr)).
Fixpoint drel (i : itr) (p : pitr) {struct p} : Prop :=
  match p, i with
  | PObj q None ts cs, IObj q' None ts' cs' =>
    q' = q /\ tsrel fr ts' ts /\
    (fix all (cs : list (string * pitr)) (cs' : list (string * itr)) {struct cs} : Prop :=
       match cs, cs' with
       | [], [] => True
       | (k, c) :: cs, (k', c') :: cs' => (k' = k /\ drel c' c) /\ all cs cs'
       | _, _ => False
       end) cs cs'
  | PObj q (Some kvs) ts cs, IObj q' (Some a) ts' cs' =>
    q' = q /\ tsrel fr ts' ts /\
    (exists mm, H !! a = Some (CMap mm) /\ h !! a = None /\ NoDup kvs.*1 /\
       forall k, option_Forall2 (repr h) (mm !! k) (tmap kvs !! k)) /\
    Forall2 (fun kc' kc => kc'.1 = kc.1 /\ irel h fr kc'.2 kc.2) cs' cs
  | PObj _ _ _ _, _ => False
  | _, _ => irel h fr i p
  end.
End drel.
Lemma drel_obj H h fr q ts cs q' ts' cs' : drel H h fr (IObj q' None ts' cs') (PObj q None ts cs) <->
  q' = q /\ tsrel fr ts' ts /\ Forall2 (fun kc' kc => kc'.1 = kc.1 /\ drel H h fr kc'.2 kc.2) cs' cs.
Proof.
  cbn [drel]. do 2 apply and_iff_compat_l. revert cs'. induction cs as [|[k c] cs IH]; intros [|[k' c'] cs'].
  - split; [constructor|done].
  - split; [done|]. intros HF. inversion HF.
  - split; [done|]. intros HF. inversion HF.
  - rewrite IH. split; [intros [[-> ?] ?]; by constructor|]. intros HF. inversion HF as [|? ? ? ? [? ?] ?]; subst. done.
Qed.
Lemma drel_path H h fr i p : drel H h fr i p -> it_path i = p_path p.
Proof.
  destruct p as [q jt d ts|q d ts cs|q d ts c], i as [q' jt' d' ts'|q' d' ts' cs'|q' d' ts' c']; cbn [drel]; try done;
    try (by intros Hi; apply irel_path in Hi); destruct d; try done.
  - destruct d'; [|done]. by intros (-> & _).
  - destruct d'; [done|]. by intros (-> & _).
Qed.
(** other parts of the heap do not matter *)
Lemma drel_mono H H' h h' fr i p : h ⊆ h' -> (forall a, a ∈ defs i -> H' !! a = H !! a /\ h' !! a = None) ->
  drel H h fr i p -> drel H' h' fr i p.
Proof.
  intros Hh. revert i. induction p as [q jt d ts|q d ts cs IH|q d ts c IH] using pitr_ind'; intros i Ha Hi.
  - cbn [drel] in *. by eapply irel_mono.
  - destruct i as [|q' d' ts' cs'|]; [by destruct d|..|by destruct d]. destruct d as [kvs|], d' as [a|]; try done.
    + destruct Hi as (-> & Hts & (mm & H1 & H2 & H3 & H4) & HF). split; [done|]. split; [done|].
      destruct (Ha a) as [A1 A2]; [by left|]. split.
      * exists mm. rewrite A1. split; [done|]. split; [done|]. split; [done|]. intros k. destruct (H4 k); constructor. by eapply repr_mono.
      * eapply Forall2_impl; [exact HF|]. intros x y [? ?]. split; [done|]. by eapply irel_mono.
    + apply drel_obj in Hi as (-> & Hts & HF). apply drel_obj. split; [done|]. split; [done|].
      cbn [defs] in Ha. clear Hts. induction HF as [|[k' c'] [k c] cs' cs [Hk Hc] HF IHF]; [constructor|].
      inversion IH as [|? ? IH1 IH2]; subst. constructor.
      * split; [done|]. apply IH1; [|done]. intros a Hin. apply Ha. cbn. apply elem_of_app. by left.
      * apply IHF; [done|]. intros a Hin. apply Ha. cbn. apply elem_of_app. by right.
  - cbn [drel] in *. by eapply irel_mono.
Qed.
Lemma drel_defs H h fr i p a : drel H h fr i p -> a ∈ defs i -> (exists mm, H !! a = Some (CMap mm)) /\ h !! a = None.
Proof.
  revert i. induction p as [q jt d ts|q d ts cs IH|q d ts c IH] using pitr_ind'; intros i Hi Ha.
  - destruct i; try done. by apply elem_of_nil in Ha.
  - destruct i as [|q' d' ts' cs'|]; [by destruct d|..|by destruct d]. destruct d as [kvs|], d' as [b|]; try done.
    + destruct Hi as (_ & _ & (mm & H1 & H2 & _) & _). cbn in Ha. apply elem_of_list_singleton in Ha as ->. eauto.
    + apply drel_obj in Hi as (_ & _ & HF). cbn [defs] in Ha.
      induction HF as [|[k' c'] [k c] cs' cs [Hk Hc] HF IHF]; [by apply elem_of_nil in Ha|].
      inversion IH as [|? ? IH1 IH2]; subst. cbn in Ha. apply elem_of_app in Ha as [Ha|Ha]; [by eapply IH1|by apply IHF].
  - destruct i as [| |q' d' ts' c']; try done. by apply elem_of_nil in Ha.
Qed.
Lemma map_sub_r {A} (m1 m2 m : gmap nat A) : m1 ⊆ m -> m2 ⊆ m -> m2 ⊆ m1 ∪ m2.
Proof.
  intros H1 H2. apply map_subseteq_spec. intros i x Hx. apply lookup_union_Some_raw.
  destruct (m1 !! i) as [y|] eqn:E; [left|right; done]. 
  pose proof (lookup_weaken _ _ _ _ E H1). pose proof (lookup_weaken _ _ _ _ Hx H2). congruence.
Qed.

(** what a run that may change the cells in [D] does *)
Definition dstep (D : list nat) (s s' : st) : Prop :=
  stok s' /\ nxt s <= nxt s' /\ froms s' = froms s /\ forall l c, hp s !! l = Some c -> l ∉ D -> hp s' !! l = Some c.
Definition dvis (D : list nat) (s s' : st) (h hA hB : gmap nat cell) : Prop :=
  h ⊆ hA /\ hA ⊆ hB /\ hB ⊆ hp s' /\ (forall l, is_Some (hA !! l) -> is_Some (h !! l) \/ nxt s <= l) /\
  (forall l, is_Some (hB !! l) -> is_Some (h !! l) \/ nxt s <= l \/ l ∈ D).
Definition dres (i : itr) (s : st) (h : gmap nat cell) (r : st * res val) (o : option (tree * pitr)) : Prop :=
  dstep (defs i) s r.1 /\
  match o with
  | Some (t, p') => exists v hA hB, r.2 = Ok v /\ dvis (defs i) s r.1 h hA hB /\ repr hB v t /\ drel (hp r.1) hA (froms s) i p'
  | None => r.2 = Err \/ r.2 = Panic
  end.
Lemma step_dstep D s s' : step s s' -> dstep D s s'.
Proof. intros (H1 & H2 & H3 & H4). split; [done|]. split; [done|]. split; [done|]. intros l c Hl _. by eapply lookup_weaken. Qed.
Lemma dres_after i s s1 h h1 r o : step s s1 -> vis s s1 h h1 -> dres i s1 h1 r o -> dres i s h r o.
Proof.
  intros (A1 & A2 & A3 & A4) (B1 & B2 & B3) [(C1 & C2 & C3 & C4) Ho]. split.
  - split; [done|]. split; [lia|]. split; [congruence|]. intros l c Hl Hn. apply C4; [|done]. by eapply lookup_weaken.
  - destruct o as [[t p']|]; [|done]. destruct Ho as (v & hA & hB & -> & (D1 & D2 & D3 & D4 & D5) & Hr & Hd).
    exists v, hA, hB. split; [done|]. split; [|by rewrite <- A4]. split; [by etrans|]. split; [done|]. split; [done|]. split.
    + intros l Hl. destruct (D4 l Hl) as [Hl'|Hl']; [|right; lia]. destruct (B3 l Hl'); auto.
    + intros l Hl. destruct (D5 l Hl) as [Hl'|[Hl'|Hl']]; [|right; left; lia|auto]. destruct (B3 l Hl'); auto.
Qed.

Section loop.
Context (W : oracles) (f : fmt) (I : tree -> Prop) (perm : nat -> nat -> list nat).
Definition dexec_ok (i : itr) (p : pitr) : Prop := forall s h input it m, stok s -> h ⊆ hp s ->
  drel (hp s) h (froms s) i p -> NoDup (defs i) -> repr h input it -> I it ->
  dres i s h (exec W perm f i input m s) (dden W f p it m).
Notation kid := ((string * itr) * (string * pitr))%type.
Definition kid_act (x : kid) : string * (val -> modifier -> M val) := (it_path x.1.2, exec W perm f x.1.2).
Definition kid_ok (q : string) (x : kid) : Prop :=
  it_path x.1.2 = q +:+ "." +:+ x.2.1 /\ name_ok x.2.1 /\ dexec_ok x.1.2 x.2.2.
Definition kdefs (P : list kid) : list nat := List.concat (List.map (fun x : kid => defs x.1.2) P).

Lemma dsave_children q l input it m P : Forall (kid_ok q) P -> forall s hA hB mm tm,
  stok s -> hA ⊆ hB -> hB ⊆ hp s -> repr hA input it -> I it -> hp s !! l = Some (CMap mm) -> hB !! l = None ->
  l ∉ kdefs P -> NoDup (kdefs P) -> Forall (fun x : kid => drel (hp s) hA (froms s) x.1.2 x.2.2) P ->
  (forall a, a ∈ kdefs P -> hB !! a = None) ->
  (forall k, option_Forall2 (repr hB) (mm !! k) (tm !! k)) ->
  let r := save_children W q l (List.map kid_act P) input m s in
  stok r.1 /\ nxt s <= nxt r.1 /\ froms r.1 = froms s /\
  (forall a c, hp s !! a = Some c -> a ∉ kdefs P -> a <> l -> hp r.1 !! a = Some c) /\
  match all_of (List.map (fun x : kid => pair x.2.1 <$> dden W f x.2.2 it m) P) with
  | Some rs => r.2 = Ok tt /\ exists hA' hB' mm', hp r.1 !! l = Some (CMap mm') /\ hB' !! l = None /\
      hA ⊆ hA' /\ hA' ⊆ hB' /\ hB ⊆ hB' /\ hB' ⊆ hp r.1 /\
      (forall a, is_Some (hA' !! a) -> is_Some (hA !! a) \/ nxt s <= a) /\
      (forall a, is_Some (hB' !! a) -> is_Some (hB !! a) \/ nxt s <= a \/ a ∈ kdefs P) /\
      (forall k, option_Forall2 (repr hB') (mm' !! k) (foldl put tm (List.map (fun kr : string * (tree * pitr) => (kr.1, kr.2.1)) rs) !! k)) /\
      (forall x t p', x ∈ P -> dden W f x.2.2 it m = Some (t, p') -> drel (hp r.1) hA' (froms s) x.1.2 p')
  | None => r.2 = Err \/ r.2 = Panic
  end.
Proof.
  induction 1 as [|[[k' c'] [k c]] P [Hp [Hname Hex]] HF IH];
    intros s hA hB mm tm Hs HAB HB Hin Hit Hm HBl Hl Hnd Hd HBd Hmm; cbn [save_children List.map all_of kid_act fst snd] in *.
  - cbn. do 4 (split; [done|]). split; [done|]. exists hA, hB, mm. do 8 (split; [by auto|]).
    split; [done|]. intros x t p' Hx. by apply elem_of_nil in Hx.
  - inversion Hd as [|? ? Hd1 Hd2]; subst. cbn [fst snd] in Hd1.
    change (kdefs (((k', c'), (k, c)) :: P)) with (defs c' ++ kdefs P) in *.
    apply NoDup_app in Hnd as (Hnd1 & Hndx & Hnd2).
    assert (Hlx : l ∉ defs c' /\ l ∉ kdefs P) by (by rewrite elem_of_app in Hl; split; intros ?; apply Hl; [left|right]).
    destruct Hlx as [Hl1 Hl2].
    destruct (Hex s hA input it m Hs ltac:(by etrans) Hd1 Hnd1 Hin Hit) as [(S1 & S2 & S3 & S4) Hres].
    cbv zeta. unfold Heap.mbind. unfold kid_act at 1. cbn [fst snd]. destruct (exec W perm f c' input m s) as [s1 r1]. cbn [fst snd] in *.
    destruct (dden W f c it m) as [[t p']|] eqn:Ed; cbn; cycle 1.
    { destruct Hres as [-> | ->]; cbn; (split; [done|]); (split; [done|]); (split; [done|]); (split; [|auto]);
        intros a c0 Ha Hn _; (apply S4; [done|]); intros Hx; apply Hn, elem_of_app; by left. }
    destruct Hres as (v & hA1 & hBx & -> & (V1 & V2 & V3 & V4 & V5) & Hv & Hdx).
    rewrite Hp, save_member by done.
    set (hB1 := hB ∪ hBx).
    assert (HB1 : hB ⊆ hp s1).
    { apply map_subseteq_spec. intros a ca Ha. apply S4; [by eapply lookup_weaken|]. intros Hx.
      rewrite (HBd a) in Ha; [done|]. apply elem_of_app. by left. }
    assert (Hsub1 : hB ⊆ hB1) by apply map_union_subseteq_l.
    assert (Hsub2 : hBx ⊆ hB1) by exact (map_sub_r _ _ _ HB1 V3).
    assert (HB1s : hB1 ⊆ hp s1) by (by apply map_union_least).
    assert (Hls : forall a ca, hp s !! a = Some ca -> a < nxt s) by (intros a ca Ha; apply Hs; by eexists).
    assert (HB1d : forall a, is_Some (hB1 !! a) -> is_Some (hB !! a) \/ nxt s <= a \/ a ∈ defs c').
    { intros a [ca Ha]. apply lookup_union_Some_raw in Ha as [Ha|[_ Ha]]; [left; by eexists|].
      destruct (V5 a) as [[cb Hb]|[Hb|Hb]]; [by eexists| |auto|auto]. left. exists cb. by eapply lookup_weaken. }
    assert (HB1l : hB1 !! l = None).
    { destruct (hB1 !! l) eqn:E; [|done]. destruct (HB1d l) as [[? ?]|[Hc|Hc]]; [by eexists|congruence| |done].
      apply Hls in Hm. lia. }
    assert (Hm1 : hp s1 !! l = Some (CMap mm)) by (by apply S4).
    assert (HBd1 : forall a, a ∈ kdefs P -> hB1 !! a = None).
    { intros a Ha. destruct (hB1 !! a) eqn:E; [|done]. destruct (HB1d a) as [[? Hc]|[Hc|Hc]]; [by eexists| | |].
      - rewrite (HBd a) in Hc; [done|]. apply elem_of_app. by right.
      - assert (exists mm0, hp s !! a = Some (CMap mm0)) as [mm0 H0].
        { unfold kdefs in Ha. apply elem_of_list_In, in_concat in Ha as (D & HD & Ha). apply in_map_iff in HD as (x & <- & Hx).
          rewrite Forall_forall in Hd2. apply elem_of_list_In in Hx. apply elem_of_list_In in Ha.
          apply (drel_defs _ _ _ _ _ _ (Hd2 x Hx) Ha). }
        apply Hls in H0. lia.
      - by destruct (Hndx a Hc). }
    assert (HA1n : forall a, a ∈ kdefs P -> hA1 !! a = None).
    { intros a Ha. destruct (hA1 !! a) as [c0|] eqn:E; [|done]. pose proof (lookup_weaken _ _ _ _ E V2) as E1.
      pose proof (lookup_weaken _ _ _ _ E1 Hsub2). rewrite (HBd1 a Ha) in *. done. }
    assert (Hmm1 : forall k, option_Forall2 (repr hB1) (mm !! k) (tm !! k)).
    { intros k0. destruct (Hmm k0); constructor. eapply repr_mono; [exact Hsub1|done]. }
    assert (Hv1 : repr hB1 v t) by (eapply repr_mono; [exact Hsub2|done]).
    (* the state after the member is stored, or not *)
    assert (Hgo : forall s2 mm2, stok s2 -> nxt s2 = nxt s1 -> froms s2 = froms s1 -> hp s2 !! l = Some (CMap mm2) ->
      (forall a, a <> l -> hp s2 !! a = hp s1 !! a) ->
      (forall k0, option_Forall2 (repr hB1) (mm2 !! k0) (put tm (k, t) !! k0)) ->
      let r := save_children W q l (List.map kid_act P) input m s2 in
      stok r.1 /\ nxt s <= nxt r.1 /\ froms r.1 = froms s /\
      (forall a c, hp s !! a = Some c -> a ∉ defs c' ++ kdefs P -> a <> l -> hp r.1 !! a = Some c) /\
      match all_of (List.map (fun x : kid => pair x.2.1 <$> dden W f x.2.2 it m) P) with
      | Some rs => r.2 = Ok tt /\ exists hA' hB' mm', hp r.1 !! l = Some (CMap mm') /\ hB' !! l = None /\
          hA ⊆ hA' /\ hA' ⊆ hB' /\ hB ⊆ hB' /\ hB' ⊆ hp r.1 /\
          (forall a, is_Some (hA' !! a) -> is_Some (hA !! a) \/ nxt s <= a) /\
          (forall a, is_Some (hB' !! a) -> is_Some (hB !! a) \/ nxt s <= a \/ a ∈ defs c' ++ kdefs P) /\
          (forall k0, option_Forall2 (repr hB') (mm' !! k0) (foldl put (put tm (k, t)) (List.map (fun kr : string * (tree * pitr) => (kr.1, kr.2.1)) rs) !! k0)) /\
          (forall x t p', x ∈ ((k', c'), (k, c)) :: P -> dden W f x.2.2 it m = Some (t, p') -> drel (hp r.1) hA' (froms s) x.1.2 p')
      | None => r.2 = Err \/ r.2 = Panic
      end).
    { intros s2 mm2 T1 T2 T3 T4 T5 T6. cbv zeta.
      destruct (IH s2 hA1 hB1 mm2 (put tm (k, t))) as (R1 & R2 & R3 & R4 & R5); try done.
      { by etrans. }
      { apply map_subseteq_spec. intros a ca Ha. rewrite T5; [by eapply lookup_weaken|]. intros ->. congruence. }
      { eapply repr_mono; [|exact Hin]. done. }
      { rewrite Forall_forall in Hd2 |- *. intros x Hx. eapply drel_mono; [exact V1| |rewrite T3, S3; apply Hd2, Hx].
        intros a Ha. assert (Hk : a ∈ kdefs P).
        { unfold kdefs. apply elem_of_list_In, in_concat. exists (defs x.1.2). split; [|by apply elem_of_list_In].
          apply in_map_iff. exists x. split; [done|by apply elem_of_list_In]. }
        destruct (drel_defs _ _ _ _ _ _ (Hd2 x Hx) Ha) as [[mm0 H0] _]. split; [|by apply HA1n].
        rewrite T5 by (by intros ->). rewrite H0. apply S4; [done|]. intros Hc. by destruct (Hndx a Hc). }
      split; [done|]. split; [lia|]. split; [congruence|]. split.
      { intros a ca Ha Hn Hne. rewrite elem_of_app in Hn. apply R4; [rewrite T5 by done; apply S4; [done|]|..]; auto. }
      destruct (all_of _) as [rs|]; [|done]. destruct R5 as (-> & hA' & hB' & mm' & Q1 & Q2 & Q3 & Q4 & Q5 & Q6 & Q7 & Q8 & Q9 & Q10).
      split; [done|]. exists hA', hB', mm'. split; [done|]. split; [done|]. split; [by etrans|]. split; [done|]. split; [by etrans|]. split; [done|].
      split. { intros a Ha. destruct (Q7 a Ha) as [Ha'|]; [|right; lia]. by apply V4. }
      split. { intros a Ha. destruct (Q8 a Ha) as [Ha'|[|]]; [|right; left; lia|right; right; apply elem_of_app; by right].
        destruct (HB1d a Ha') as [|[|]]; [auto|auto|]. right. right. apply elem_of_app. by left. }
      split; [done|]. intros x t0 p0 Hx Hxd. apply elem_of_cons in Hx as [->|Hx].
      - cbn [fst snd] in *. rewrite Ed in Hxd. injection Hxd as <- <-. eapply drel_mono; [exact Q3| |exact Hdx].
        intros a Ha. destruct (drel_defs _ _ _ _ _ _ Hdx Ha) as [[mm0 H0] H1].
        assert (Hal : a <> l) by (by intros ->).
        split.
        + rewrite H0. apply R4; [by rewrite T5|by apply Hndx|done].
        + destruct (hA' !! a) eqn:E; [|done]. destruct (Q7 a) as [[? ?]|Hc]; [by eexists|congruence|].
          assert (a < nxt s1) by (apply S1; by eexists). lia.
      - rewrite <- S3, <- T3. by eapply Q10. }
    rewrite (repr_vnil _ _ _ Hv). destruct (tnil t) eqn:Et.
    + cbn. assert (Ep : put tm (k, t) = tm) by (unfold put; cbn; by rewrite Et).
      specialize (Hgo s1 mm S1 eq_refl eq_refl Hm1 ltac:(done)). rewrite Ep in Hgo. specialize (Hgo Hmm1). cbv zeta in Hgo.
      destruct (all_of (List.map _ P)) as [rs|]; [|exact Hgo]. cbn [base.mbind option_bind foldl List.map fst snd]. rewrite Ep. exact Hgo.
    + set (s2 := St (<[l := CMap (<[k := v]> (hmap (hp s1) l))]> (hp s1)) (nxt s1) (froms s1) (tick s1)).
      change (map_set l k v s1) with (s2, Ok tt). cbv beta iota zeta.
      assert (Hhm : hmap (hp s1) l = mm) by (unfold hmap; by rewrite Hm1).
      assert (Ep : put tm (k, t) = <[k := t]> tm) by (unfold put; cbn; by rewrite Et).
      assert (Hg2 := Hgo s2 (<[k := v]> mm)). cbv zeta in Hg2.
      assert (Hg3 := Hg2). clear Hgo Hg2.
      destruct (all_of (List.map _ P)) as [rs|]; cbn [base.mbind option_bind foldl List.map fst snd]; apply Hg3; try done.
      1, 5: (intros x [cx Hx]; cbn in *; destruct (decide (x = l)) as [->|Hne]; [apply Hls in Hm; lia|];
             rewrite lookup_insert_ne in Hx by done; apply S1; by eexists).
      1, 4: (cbn; rewrite Hhm; apply lookup_insert).
      1, 3: (intros a Hne; cbn; by rewrite lookup_insert_ne).
      all: rewrite Ep; intros k0; destruct (decide (k0 = k)) as [->|Hne];
        [rewrite !lookup_insert; by constructor|rewrite !lookup_insert_ne by done; apply Hmm1].
Qed.
End loop.

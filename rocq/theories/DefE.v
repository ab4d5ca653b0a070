(** The code computes the reading with object defaults of DefD.v. *)
From stdpp Require Import strings list gmap.
From Coq Require Import Ascii ZArith Lia.
From Verif Require Import GoStr GoStrL Val Conv Instr Heap Den Param HeapL Refine ArrE SpecDef DefD.

Lemma overlay_map kvs new : NoDup new.*1 -> tmap (overlay kvs new) = foldl put (tmap kvs) new.
Proof.
  intros Hnd. rewrite put_all by done. unfold overlay, tmap. rewrite list_to_map_app. apply map_eq. intros k.
  set (n := filter (fun kv : string * tree => tnil kv.2 = false) new).
  destruct ((list_to_map n : gmap string tree) !! k) as [v|] eqn:E.
  { by rewrite !(lookup_union_Some_l _ _ _ _ E). }
  rewrite !lookup_union_r by done. apply not_elem_of_list_to_map in E.
  induction kvs as [|[k' v'] kvs IH]; [done|]. rewrite filter_cons. cbn. case_decide as Hd; cbn.
  - destruct (decide (k' = k)) as [->|Hne]; [by rewrite !lookup_insert|by rewrite !lookup_insert_ne].
  - destruct (decide (k' = k)) as [->|Hne]; [done|by rewrite !lookup_insert_ne].
Qed.
Lemma overlay_NoDup kvs new : NoDup kvs.*1 -> NoDup new.*1 -> NoDup (overlay kvs new).*1.
Proof.
  intros H1 H2. unfold overlay. rewrite fmap_app. apply NoDup_app. split; [by apply filter_keys|]. split; [|by apply filter_keys].
  intros k Hk Hc. apply elem_of_list_fmap in Hc as ([k' v] & -> & Hx). apply elem_of_list_filter in Hx as [Hx _]. done.
Qed.

Section body.
Context (W : oracles) (f : fmt) (I : tree -> Prop).
Context (perm : nat -> nat -> list nat) (Hperm : forall t n, perm t n ≡ₚ seq 0 n).
Notation kid := ((string * itr) * (string * pitr))%type.
Notation kout := (fun kr : string * (tree * pitr) => (kr.1, kr.2.1)).

Lemma omap_map {A B} (g : A -> B) (l : list A) is :
  omap (fun i => List.map g l !! i) is = List.map g (omap (fun i => l !! i) is).
Proof.
  induction is as [|i is IH]; [done|]. cbn. change (List.map g l) with (g <$> l) at 1. rewrite list_lookup_fmap.
  destruct (l !! i); cbn; by rewrite IH.
Qed.
Lemma kdefs_perm P P' : P ≡ₚ P' -> kdefs P ≡ₚ kdefs P'.
Proof.
  unfold kdefs. induction 1; cbn; [done|by f_equiv| |by etrans].
  rewrite !app_assoc. f_equiv. apply Permutation_app_comm.
Qed.
Lemma all_of_keys (P : list kid) it m rs :
  all_of (List.map (fun x : kid => pair x.2.1 <$> dden W f x.2.2 it m) P) = Some rs ->
  rs.*1 = List.map (fun x : kid => x.2.1) P.
Proof.
  revert rs. induction P as [|x P IH]; cbn; intros rs; [by intros [= <-]|].
  destruct (dden W f x.2.2 it m) as [t|]; cbn; [|done]. destruct (all_of _) as [r'|]; cbn; [|done].
  intros [= <-]. cbn. f_equal. by apply IH.
Qed.
Lemma kout_keys rs : (List.map kout rs).*1 = rs.*1.
Proof. induction rs as [|[k [t p]] rs IH]; [done|]. cbn. by rewrite IH. Qed.

Lemma dbody s h q l P input it m mm kvs : stok s -> h ⊆ hp s -> hp s !! l = Some (CMap mm) -> h !! l = None ->
  NoDup kvs.*1 -> (forall k, option_Forall2 (repr h) (mm !! k) (tmap kvs !! k)) ->
  Forall (kid_ok W f I perm q) P -> NoDup (kdefs P) -> l ∉ kdefs P ->
  Forall (fun x : kid => drel (hp s) h (froms s) x.1.2 x.2.2) P -> NoDup (List.map (fun x : kid => x.2.1) P) ->
  repr h input it -> I it ->
  let r := (acts' <-- shuffle perm (List.map (kid_act W f perm) P) ;; save_children W q l acts' input m ;;; finish_obj l) s in
  stok r.1 /\ nxt s <= nxt r.1 /\ froms r.1 = froms s /\
  (forall a c, hp s !! a = Some c -> a ∉ kdefs P -> a <> l -> hp r.1 !! a = Some c) /\
  match all_of (List.map (fun x : kid => pair x.2.1 <$> dden W f x.2.2 it m) P) with
  | Some rs => let new := overlay kvs (List.map kout rs) in
      exists hA hB mm', hp r.1 !! l = Some (CMap mm') /\ hB !! l = None /\
      h ⊆ hA /\ hA ⊆ hB /\ hB ⊆ hp r.1 /\
      (forall a, is_Some (hA !! a) -> is_Some (h !! a) \/ nxt s <= a) /\
      (forall a, is_Some (hB !! a) -> is_Some (h !! a) \/ nxt s <= a \/ a ∈ kdefs P) /\
      NoDup new.*1 /\ (forall k, option_Forall2 (repr hB) (mm' !! k) (tmap new !! k)) /\
      r.2 = Ok (match new with [] => VS SNil | _ => VMap l end) /\
      (forall x t p', x ∈ P -> dden W f x.2.2 it m = Some (t, p') -> drel (hp r.1) hA (froms s) x.1.2 p')
  | None => r.2 = Err \/ r.2 = Panic
  end.
Proof.
  intros Hs Hh Hl Hhl Hkvs Hmm HK Hnd Hlk Hd Hkeys Hin Hit. cbv zeta.
  set (s1 := St (hp s) (nxt s) (froms s) (S (tick s))).
  set (is := perm (tick s) (length P)). set (P' := omap (fun i => P !! i) is).
  assert (HP : P' ≡ₚ P) by apply (omap_perm perm Hperm).
  assert (E : (acts' <-- shuffle perm (List.map (kid_act W f perm) P) ;; save_children W q l acts' input m ;;; finish_obj l) s
    = (save_children W q l (List.map (kid_act W f perm) P') input m ;;; finish_obj l) s1).
  { unfold Heap.mbind at 1. unfold shuffle. cbn [fst snd]. rewrite map_length, omap_map. done. }
  rewrite E. clear E.
  pose proof (kdefs_perm _ _ HP) as HPd.
  destruct (dsave_children W f I perm q l input it m P' ltac:(by rewrite HP) s1 h h mm (tmap kvs))
    as (R1 & R2 & R3 & R4 & R5); try done.
  { by rewrite HPd. }
  { by rewrite HPd. }
  { cbn. by rewrite HP. }
  { intros a Ha. rewrite HPd in Ha. unfold kdefs in Ha. apply elem_of_list_In, in_concat in Ha as (D & HD & Ha).
    apply in_map_iff in HD as (x & <- & Hx). rewrite Forall_forall in Hd. apply elem_of_list_In in Hx. apply elem_of_list_In in Ha.
    apply (drel_defs _ _ _ _ _ _ (Hd x Hx) Ha). }
  pose proof (all_of_perm _ _ (Permutation_map (fun x : kid => pair x.2.1 <$> dden W f x.2.2 it m) HP)) as Hao.
  unfold Heap.mbind. destruct (save_children W q l (List.map (kid_act W f perm) P') input m s1) as [s2 r2]. cbn [fst snd] in *.
  destruct (all_of (List.map _ P')) as [rs'|] eqn:E'; cycle 1.
  { destruct (all_of (List.map _ P)) as [rs|]; [done|].
    assert (Hfr : forall a c, hp s !! a = Some c -> a ∉ kdefs P -> a <> l -> hp s2 !! a = Some c).
    { intros a c Ha Hn. apply R4; [done|]. by rewrite HPd. }
    destruct R5 as [-> | ->]; cbn; repeat (split; [done|]); auto. }
  destruct (all_of (List.map _ P)) as [rs|] eqn:Ers; [|done].
  destruct R5 as (-> & hA' & hB' & mm' & Q1 & Q2 & Q3 & Q4 & Q5 & Q6 & Q7 & Q8 & Q9 & Q10).
  set (outs := List.map kout rs).
  assert (Hko : NoDup outs.*1). { unfold outs. rewrite kout_keys, (all_of_keys P it m rs Ers). done. }
  assert (Htm : foldl put (tmap kvs) (List.map kout rs') = tmap (overlay kvs outs)).
  { assert (HPo : List.map kout rs' ≡ₚ outs) by (by apply Permutation_map).
    rewrite overlay_map by done. rewrite !put_all by (by rewrite ?HPo). f_equal.
    apply list_to_map_proper; [apply filter_keys; by rewrite HPo|by rewrite HPo]. }
  rewrite Htm in Q9. set (new := overlay kvs outs) in *.
  assert (Hfo : finish_obj l s2 = (s2, Ok (match new with [] => VS SNil | _ => VMap l end))).
  { unfold finish_obj, Heap.mbind, mheap. cbn. unfold hmap. rewrite Q1. case_decide as Hem; subst.
    - destruct new as [|[k t] new]; [done|]. exfalso. specialize (Q9 k). unfold tmap in Q9. cbn in Q9.
      rewrite lookup_insert, lookup_empty in Q9. inversion Q9.
    - destruct new as [|[k t] new]; [|done]. exfalso. apply Hem. apply map_empty. intros k. specialize (Q9 k).
      unfold tmap in Q9. cbn in Q9. rewrite lookup_empty in Q9. by inversion Q9. }
  rewrite Hfo. cbn [fst snd].
  split; [done|]. split; [done|]. split; [done|]. split.
  { intros a c Ha Hn. apply R4; [done|]. by rewrite HPd. }
  exists hA', hB', mm'. repeat (split; [done|]). split.
  { intros a Ha. destruct (Q8 a Ha) as [?|[?|Hx]]; auto. rewrite HPd in Hx. auto. }
  split; [by apply overlay_NoDup|]. split; [done|]. split; [done|].
  intros x t p' Hx. apply Q10. by rewrite HP.
Qed.
End body.

Section pure.
Context (W : oracles) (f : fmt).
Lemma pure_dden p : pure f p -> forall it m, dden W f p it m = (fun t => (t, p)) <$> den W f p it m.
Proof.
  induction p as [q jt d ts|q d ts cs IH|q d ts c IH] using pitr_ind'; intros Hp it m.
  - cbn [dden]. by destruct (den _ _ _ _ _).
  - cbn [pure] in Hp. destruct Hp as (_ & -> & _ & Hpc). cbn [dden den]. unfold with_node, den_obj.
    assert (Hrun : forall it,
      (r ← all_of (List.map (fun kc : string * pitr => match kc with (k, c) => pair k <$> dden W f c it m end) cs);
      Some (obj_of (List.map (fun kr : string * (tree * pitr) => (kr.1, kr.2.1)) r),
            PObj q None ts (List.map (fun kr : string * (tree * pitr) => (kr.1, kr.2.2)) r))) =
      (fun t => (t, PObj q None ts cs)) <$> (obj_of <$> all_of (List.map
        (fun kd : string * (tree -> modifier -> option tree) => pair kd.1 <$> kd.2 it m)
        (List.map (fun kc : string * pitr => match kc with (k, c) => (k, den W f c) end) cs)))).
    { intros i. 
      assert (Hall : all_of (List.map (fun kc : string * pitr => match kc with (k, c) => pair k <$> dden W f c i m end) cs) =
        (fun r => zip_with (fun kt kc => (kt.1, (kt.2, kc.2))) r cs) <$> all_of (List.map
        (fun kd : string * (tree -> modifier -> option tree) => pair kd.1 <$> kd.2 i m)
        (List.map (fun kc : string * pitr => match kc with (k, c) => (k, den W f c) end) cs))).
      { clear -IH Hpc. induction cs as [|[k c] cs IHc]; [done|]. inversion IH as [|? ? IH1 IH2]; subst. destruct Hpc as [H1 H2].
        cbn. rewrite (IH1 H1). cbn. destruct (den W f c i m); cbn; [|done]. rewrite (IHc IH2 H2).
        match goal with |- context [all_of ?x] => destruct (all_of x) end; cbn; [|done]. done. }
      rewrite Hall. match goal with |- context [all_of ?x] => destruct (all_of x) as [r|] eqn:E end; cbn; [|done].
      assert (Hlen : length r = length cs /\ r.*1 = cs.*1).
      { clear -E. revert r E. induction cs as [|[k c] cs IHc]; cbn; intros r; [by intros [= <-]|].
        destruct (den W f c i m); cbn; [|done]. destruct (all_of _) as [r'|]; cbn; [|done]. intros [= <-].
        destruct (IHc r' eq_refl) as [E1 E2]. cbn. by rewrite E1, E2. }
      destruct Hlen as [Hlen Hk]. do 2 f_equal.
      - f_equal. clear -Hlen Hk. revert cs Hlen Hk. induction r as [|[k t] r IHr]; intros [|[k' c] cs]; cbn; try done.
        intros [= Hl] [= -> Hk]. by rewrite IHr.
      - f_equal. clear -Hlen Hk. revert cs Hlen Hk. induction r as [|[k t] r IHr]; intros [|[k' c] cs]; cbn; try done.
        intros [= Hl] [= -> Hk]. by rewrite IHr. }
    destruct f eqn:Ef, ts as [ts|]; try apply Hrun.
    destruct (run_ptis _ _ _ _ _ _) as [v|]; cbn; [|done].
    destruct v as [[| | | | |[|]|]| | |n|[|n l]]; try done; apply Hrun.
  - cbn [dden]. by destruct (den _ _ _ _ _).
Qed.
Lemma pure_drel H h fr p : pure f p -> forall i, irel h fr i p -> drel H h fr i p /\ defs i = [].
Proof.
  induction p as [q jt d ts|q d ts cs IH|q d ts c IH] using pitr_ind'; intros Hp i Hi.
  - destruct i; done.
  - cbn [pure] in Hp. destruct Hp as (_ & -> & _ & Hpc). destruct i as [|q' d' ts' cs'|]; try done.
    cbn [irel] in Hi. destruct Hi as (-> & Hts & Hdd & Hcs). destruct d'; [done|].
    rewrite drel_obj. cbn [defs].
    assert (HF : Forall2 (fun kc' kc => kc'.1 = kc.1 /\ drel H h fr kc'.2 kc.2) cs' cs /\
      List.concat (List.map (fun kc : string * itr => match kc with (_, c) => defs c end) cs') = []).
    { clear Hdd Hts. revert cs' Hcs. induction cs as [|[k c] cs IHc]; intros [|[k' c'] cs'] Hcs; try done.
      inversion IH as [|? ? IH1 IH2]; subst. destruct Hpc as [H1 H2]. destruct Hcs as [[-> Hc] Hcs].
      destruct (IH1 H1 _ Hc) as [A1 A2]. destruct (IHc IH2 H2 _ Hcs) as [B1 B2]. cbn in *. rewrite A2, B2. split; [|done].
      constructor; done. }
    destruct HF as [HF ->]. done.
  - destruct i; done.
Qed.
Lemma pure_dpure p : pure f p -> dpure f p.
Proof.
  induction p as [q jt d ts|q d ts cs IH|q d ts c IH] using pitr_ind'; intros Hp; try done.
  cbn [pure] in Hp. destruct Hp as (H1 & -> & H2 & Hpc). cbn [dpure]. split; [done|]. split; [done|].
  induction cs as [|[k c] cs IHc]; [done|]. inversion IH as [|? ? IH1 IH2]; subst. destruct Hpc as [P1 P2]. split; [by apply IH1|by apply IHc].
Qed.
End pure.

Local Instance any_wild : wild := True.
Section exec.
Context (W : oracles) (HW : jpath_parametric W) (f : fmt).
Context (I : tree -> Prop) (HI : f = FXml -> forall n, I (TNode n)).
Context (perm : nat -> nat -> list nat) (Hperm : forall t n, perm t n ≡ₚ seq 0 n).
Notation kid := ((string * itr) * (string * pitr))%type.

Lemma drel_step s s' h h' i p : stok s -> step s s' -> vis s s' h h' -> drel (hp s) h (froms s) i p ->
  drel (hp s') h' (froms s') i p.
Proof.
  intros Hs (A1 & A2 & A3 & A4) (B1 & B2 & B3) Hd. rewrite A4. eapply drel_mono; [exact B1| |exact Hd].
  intros a Ha. destruct (drel_defs _ _ _ _ _ _ Hd Ha) as [[mm Hm] Hn]. split.
  - rewrite Hm. by eapply lookup_weaken.
  - destruct (h' !! a) eqn:E; [|done]. destruct (B3 a) as [[? ?]|Hc]; [by eexists|congruence|].
    assert (a < nxt s) by (apply Hs; by eexists). lia.
Qed.
Lemma dres_ret i p s h v t : stok s -> h ⊆ hp s -> drel (hp s) h (froms s) i p -> repr h v t -> dres i s h (s, Ok v) (Some (t, p)).
Proof.
  intros Hs Hh Hd Hr. split; [by apply step_dstep, step_refl|]. exists v, h, h. split; [done|]. split; [|done].
  repeat split; try done; by left.
Qed.
Lemma dres_fail i s h r : stok s -> r = Err \/ r = Panic -> dres i s h (s, r) None.
Proof. intros Hs Hr. split; [by apply step_dstep, step_refl|done]. Qed.
Lemma spec_dres i p s h (c : M val) o : stok s -> drel (hp s) h (froms s) i p -> spec s h c o (fun t v h => repr h v t) ->
  dres i s h (c s) ((fun t => (t, p)) <$> o).
Proof.
  intros Hs Hd [Hst Ho]. split; [by apply step_dstep|]. destruct o as [t|]; cbn; [|by destruct Ho as [|[_ ?]]; auto].
  destruct Ho as (v & h2 & Hv & Hvis & Hr). exists v, h2, h2. split; [done|].
  pose proof (drel_step _ _ _ _ _ _ Hs Hst Hvis Hd) as Hd2. rewrite (proj2 (proj2 (proj2 Hst))) in Hd2.
  split; [|done]. destruct Hvis as (V1 & V2 & V3). repeat split; try done. intros l Hl. destruct (V3 l Hl); auto.
Qed.
Lemma pure_ok i p : wf_paths p -> pure f p -> forall s h input it m, stok s -> h ⊆ hp s ->
  irel h (froms s) i p -> repr h input it -> I it -> dres i s h (exec W perm f i input m s) (dden W f p it m).
Proof.
  intros Hwf Hp s h input it m Hs Hh Hi Hin Hit. rewrite pure_dden by done.
  apply spec_dres; [done|by apply (pure_drel f)|].
  apply (exec_den W HW f (fun t _ => I t) (fun Hf _ _ n _ => HI Hf n) (fun _ _ _ _ H => H) perm Hperm p Hwf Hp (or_introl Logic.I)); done.
Qed.

(** the kids of an object *)
Lemma kids_of (R : itr -> pitr -> Prop) cs' cs : Forall2 (fun (kc' : string * itr) (kc : string * pitr) => kc'.1 = kc.1 /\ R kc'.2 kc.2) cs' cs ->
  exists P : list kid, List.map fst P = cs' /\ List.map snd P = cs /\ Forall (fun x : kid => R x.1.2 x.2.2) P.
Proof.
  induction 1 as [|x y cs' cs [Hk Hr] HF (P & <- & <- & HP)]; [by exists []|].
  exists ((x, y) :: P). split; [done|]. split; [done|]. by constructor.
Qed.
Lemma kid_outs P it m rs q ts H h fr :
  all_of (List.map (fun x : kid => pair x.2.1 <$> dden W f x.2.2 it m) P) = Some rs ->
  Forall (fun x : kid => x.1.1 = x.2.1) P -> tsrel fr ts q ->
  (forall x t p', x ∈ P -> dden W f x.2.2 it m = Some (t, p') -> drel H h fr x.1.2 p') ->
  Forall2 (fun kc' kc => kc'.1 = kc.1 /\ drel H h fr kc'.2 kc.2) (List.map fst P)
    (List.map (fun kr : string * (tree * pitr) => (kr.1, kr.2.2)) rs).
Proof.
  intros E Hk _ Hd. revert rs E Hd. induction Hk as [|x P Hx Hk IH]; cbn; intros rs E Hd; [injection E as <-; constructor|].
  destruct (dden W f x.2.2 it m) as [[t p']|] eqn:Ex; cbn in E; [|done].
  destruct (all_of (List.map _ P)) as [rs'|]; cbn in E; [|done]. injection E as <-. cbn. constructor.
  - split; [done|]. cbn. eapply Hd; [by left|exact Ex].
  - apply IH; [done|]. intros y t0 p0 Hy. apply Hd. by right.
Qed.

Theorem exec_dden p : wf_paths p -> dpure f p -> forall i, dexec_ok W f I perm i p.
Proof.
  induction p as [q jt d ts|q d ts cs IH|q d ts c IH] using pitr_ind'; intros Hwf Hp i s h input it m Hs Hh Hi Hndi Hin Hit.
  - apply pure_ok; done.
  - destruct i as [|q' d' ts' cs'|]; [by destruct d|..|by destruct d].
    assert (exists P : list kid, List.map fst P = cs' /\ List.map snd P = cs /\ q' = q /\ tsrel (froms s) ts' ts /\
      Forall (fun x : kid => x.1.1 = x.2.1) P /\ (f = FJson -> ts = None) /\ pure_ts ts /\ Forall (kid_ok W f I perm q) P /\
      NoDup (List.map (fun x : kid => x.2.1) P) /\ kdefs P = match d with None => defs (IObj q' d' ts' cs') | _ => [] end /\
      (d <> None -> Forall (fun x : kid => pure f x.2.2) P) /\
      forall s1 h1, step s s1 -> vis s s1 h h1 -> Forall (fun x : kid => drel (hp s1) h1 (froms s1) x.1.2 x.2.2) P)
      as (P & EP1 & EP2 & -> & Hts & Hkk & Hcl & Hpts & HK & Hkeys & Hkd & Hpk & HdP).
    { destruct Hwf as [Hnd Hwf]. destruct d as [kvs|], d' as [a|]; try done.
      - destruct Hi as (-> & Hts & _ & HF). destruct Hp as (Hpts & Hcl & Hpc).
        destruct (kids_of (fun i p => irel h (froms s) i p) cs' cs HF) as (P & <- & <- & HP).
        exists P. split; [done|]. split; [done|]. split; [done|]. split; [done|].
        split. { clear -HF. induction P as [|x P IHP]; constructor; inversion HF; subst; naive_solver. }
        split; [done|]. split; [done|].
        assert (Hpp : Forall (fun x : kid => pure f x.2.2) P).
        { clear -Hpc. induction P as [|[x [k c]] P IHP]; constructor; [apply Hpc|apply IHP, Hpc]. }
        split.
        { apply Forall_forall. intros x Hx. rewrite Forall_forall in HP.
          assert (Hx3 : (name_ok x.2.1 /\ p_path x.2.2 = q +:+ "." +:+ x.2.1 /\ wf_paths x.2.2) /\ pure f x.2.2).
          { split; [|rewrite Forall_forall in Hpp; by apply Hpp]. clear -Hwf Hx. induction P as [|[y [k c]] P IHP]; [by apply elem_of_nil in Hx|].
            apply elem_of_cons in Hx as [->|Hx]; [apply Hwf|apply IHP; [apply Hwf|done]]. }
          destruct Hx3 as [(Hn & Hpath & Hwx) Hpx]. split; [by rewrite (irel_path _ _ _ _ (HP x Hx))|]. split; [done|].
          intros s1 h1 input1 it1 m1 B1 B2 B3 B4 B5 B6. pose proof (HP x Hx) as Hix.
          rewrite pure_dden by done. apply spec_dres; [done|done|].
          apply (exec_den W HW f (fun t _ => I t) (fun Hf _ _ n _ => HI Hf n) (fun _ _ _ _ H => H) perm Hperm _ Hwx Hpx (or_introl Logic.I)); try done.
          clear -B3 Hpx. (* irel back from drel *)
          revert B3. generalize (x.1.2). generalize (hp s1) as H. revert Hpx. generalize (x.2.2). intros p Hp H. 
          induction p as [q jt d ts|q d ts cs IH|q d ts c IH] using pitr_ind'; intros i Hi; [done| |done].
          destruct Hp as (_ & -> & _ & Hpc). destruct i as [|q' d' ts' cs'|]; try done. destruct d'; [done|].
          apply drel_obj in Hi as (-> & Hts & HF). cbn [irel]. split; [done|]. split; [done|]. split; [done|].
          clear Hts. revert cs' HF. induction cs as [|[k c] cs IHc]; intros [|[k' c'] cs'] HF; try by inversion HF.
          inversion HF as [|? ? ? ? [E1 E2] HF']; subst. inversion IH as [|? ? IH1 IH2]; subst. destruct Hpc as [P1 P2].
          split; [split; [done|by apply IH1]|by apply IHc]. }
        split. { change (List.map (fun x : kid => x.2.1) P) with ((fun x : kid => x.2.1) <$> P).
          change (List.map snd P) with (snd <$> P) in Hnd. by rewrite <- list_fmap_compose in Hnd. }
        split.
        { unfold kdefs. clear -HP Hpp. induction P as [|x P IHP]; [done|]. inversion HP; inversion Hpp; subst. cbn.
          rewrite IHP by done. by rewrite (proj2 (pure_drel f ∅ _ _ _ H5 _ H1)). }
        split; [done|]. intros s1 h1 Hst Hv. rewrite Forall_forall in HP |- *. rewrite Forall_forall in Hpp. intros x Hx.
        apply (pure_drel f); [by apply Hpp|]. rewrite (proj2 (proj2 (proj2 Hst))). eapply irel_mono; [apply Hv|by apply HP].
      - apply drel_obj in Hi as (-> & Hts & HF). destruct Hp as (Hpts & Hcl & Hpc).
        destruct (kids_of (fun i p => drel (hp s) h (froms s) i p) cs' cs HF) as (P & <- & <- & HP).
        exists P. split; [done|]. split; [done|]. split; [done|]. split; [done|].
        split. { clear -HF. induction P as [|x P IHP]; constructor; inversion HF; subst; naive_solver. }
        split; [done|]. split; [done|].
        split.
        { apply Forall_forall. intros x Hx. rewrite Forall_forall in HP.
          assert (Hx3 : (name_ok x.2.1 /\ p_path x.2.2 = q +:+ "." +:+ x.2.1 /\ wf_paths x.2.2) /\ dpure f x.2.2 /\
            (wf_paths x.2.2 -> dpure f x.2.2 -> forall i, dexec_ok W f I perm i x.2.2)).
          { split; [|split].
            - clear -Hwf Hx. induction P as [|[y [k c]] P IHP]; [by apply elem_of_nil in Hx|].
              apply elem_of_cons in Hx as [->|Hx]; [apply Hwf|apply IHP; [apply Hwf|done]].
            - clear -Hpc Hx. induction P as [|[y [k c]] P IHP]; [by apply elem_of_nil in Hx|].
              apply elem_of_cons in Hx as [->|Hx]; [apply Hpc|apply IHP; [apply Hpc|done]].
            - rewrite Forall_forall in IH. apply IH. apply elem_of_list_In, in_map, elem_of_list_In. done. }
          destruct Hx3 as ((Hn & Hpath & Hwx) & Hpx & Hex). split; [by rewrite (drel_path _ _ _ _ _ (HP x Hx))|]. split; [done|].
          by apply Hex. }
        split. { change (List.map (fun x : kid => x.2.1) P) with ((fun x : kid => x.2.1) <$> P).
          change (List.map snd P) with (snd <$> P) in Hnd. by rewrite <- list_fmap_compose in Hnd. }
        split. { cbn [defs]. unfold kdefs. rewrite map_map. clear. induction P as [|[[k c] y] P IHP]; [done|]. cbn. by rewrite IHP. }
        split; [done|]. intros s1 h1 Hst Hv. rewrite Forall_forall in HP |- *. intros x Hx.
        by eapply drel_step; [exact Hs|..|apply HP]. }
    subst cs' cs. cbn [exec].
    assert (Eacts : List.map (fun kc : string * itr => let '(_, c) := kc in (it_path c, exec W perm f c)) (List.map fst P) = List.map (kid_act W f perm) P).
    { rewrite map_map. clear. induction P as [|[[k c] y] P IHP]; [done|]. cbn. by rewrite IHP. }
    rewrite Eacts.
    assert (Erun : forall it, List.map (fun kc : string * pitr => match kc with (k, c) => pair k <$> dden W f c it m end) (List.map snd P) =
      List.map (fun x : kid => pair x.2.1 <$> dden W f x.2.2 it m) P).
    { intros i1. rewrite map_map. clear. induction P as [|[x [k c]] P IHP]; [done|]. cbn. by rewrite IHP. }
    set (i := IObj q d' ts' (List.map fst P)) in *.
    (* the part after the transforms *)
    assert (Hrun : forall s1 h1 input1 it1, step s s1 -> vis s s1 h h1 -> repr h1 input1 it1 -> I it1 ->
      dres i s1 h1 ((l <-- (match d' with Some d => mret d | None => alloc (CMap ∅) end) ;;
        acts' <-- shuffle perm (List.map (kid_act W f perm) P) ;; save_children W q l acts' input1 m ;;; finish_obj l) s1)
       (match d with
        | None => r ← all_of (List.map (fun kc => match kc with (k, c) => pair k <$> dden W f c it1 m end) (List.map snd P));
                  Some (obj_of (List.map (fun kr : string * (tree * pitr) => (kr.1, kr.2.1)) r),
                        PObj q None ts (List.map (fun kr : string * (tree * pitr) => (kr.1, kr.2.2)) r))
        | Some kvs => r ← all_of (List.map (fun kc => match kc with (k, c) => pair k <$> den W f c it1 m end) (List.map snd P));
                  Some (obj_or_nil (overlay kvs r), PObj q (Some (overlay kvs r)) ts (List.map snd P))
        end)).
    { intros s1 h1 input1 it1 Hst Hv Hin1 Hit1. pose proof (HdP s1 h1 Hst Hv) as HdP1.
      pose proof (drel_step _ _ _ _ _ _ Hs Hst Hv Hi) as Hi1.
      destruct Hst as (S1 & S2 & S3 & S4). destruct Hv as (V1 & V2 & V3).
      destruct d as [kvs|].
      - (* with a default *)
        destruct d' as [a|]; [|done].
        destruct Hi1 as (_ & Hts1 & (mm & M1 & M2 & M3 & M4) & HF1).
        assert (Eden : all_of (List.map (fun kc => match kc with (k, c) => pair k <$> den W f c it1 m end) (List.map snd P)) =
          List.map (fun kr : string * (tree * pitr) => (kr.1, kr.2.1)) <$>
            all_of (List.map (fun x : kid => pair x.2.1 <$> dden W f x.2.2 it1 m) P)).
        { specialize (Hpk ltac:(done)). clear -Hpk. induction Hpk as [|[x [k c]] P Hx Hk IHk]; [done|]. cbn in *.
          rewrite IHk, pure_dden by done. destruct (den W f c it1 m); cbn; [|done].
          match goal with |- context [all_of ?x] => destruct (all_of x) end; done. }
        rewrite Eden.
        destruct (dbody W f I perm Hperm s1 h1 q a P input1 it1 m mm kvs S1 V2 M1 M2 M3 M4 HK) as (R1 & R2 & R3 & R4 & R5);
          try done; [rewrite Hkd; constructor|rewrite Hkd; apply not_elem_of_nil|].
        set (r := (l <-- mret a ;; acts' <-- shuffle perm (List.map (kid_act W f perm) P) ;; save_children W q l acts' input1 m ;;; finish_obj l) s1).
        change ((acts' <-- shuffle perm (List.map (kid_act W f perm) P) ;; save_children W q a acts' input1 m ;;; finish_obj a) s1) with r in *.
        clearbody r. rewrite Hkd in *. split.
        { split; [done|]. split; [done|]. split; [done|]. intros l c Hl Hn. apply R4; [done|apply not_elem_of_nil|].
          intros ->. apply Hn. by left. }
        destruct (all_of (List.map _ P)) as [rs|]; cbn; [|done].
        destruct R5 as (hA & hB & mm' & Q1 & Q2 & Q3 & Q4 & Q5 & Q6 & Q7 & Q8 & Q9 & Q10 & Q11).
        set (new := overlay kvs (List.map (fun kr : string * (tree * pitr) => (kr.1, kr.2.1)) rs)) in *.
        assert (Hd2 : drel (hp r.1) hB (froms s1) i (PObj q (Some new) ts (List.map snd P))).
        { split; [done|]. split; [done|]. split; [exists mm'; done|]. eapply Forall2_impl; [exact HF1|].
          intros x y [? ?]. split; [done|]. eapply irel_mono; [|done]. by etrans. }
        assert (HhB : forall l, is_Some (hB !! l) -> is_Some (h1 !! l) \/ nxt s1 <= l).
        { intros l Hl. destruct (Q7 l Hl) as [|[|Hx]]; auto. by apply elem_of_nil in Hx. }
        exists (match new with [] => VS SNil | _ => VMap a end), hB, (<[a := CMap mm']> hB). split; [done|]. split; [|split; [|done]].
        + split; [by etrans|]. split; [by apply insert_subseteq|]. split.
          { rewrite <- (insert_id (hp r.1) a (CMap mm')) by done. by apply insert_mono. }
          split; [done|]. intros l [c Hl]. destruct (decide (l = a)) as [->|Hne]; [right; right; by left|].
          rewrite lookup_insert_ne in Hl by done. destruct (HhB l); [by eexists|auto|auto].
        + unfold obj_or_nil. destruct new as [|kv new']; [done|]. apply repr_obj. exists a, mm'. split; [done|].
          split; [apply lookup_insert|]. split; [done|]. intros k. destruct (Q9 k); constructor.
          eapply repr_mono; [by apply insert_subseteq|done].
      - (* without *)
        destruct d' as [a|]; [done|]. rewrite Erun.
        set (l := nxt s1). set (s2 := St (<[l := CMap ∅]> (hp s1)) (S l) (froms s1) (tick s1)).
        assert (Hfree : hp s1 !! l = None).
        { destruct (hp s1 !! l) eqn:E; [|done]. assert (l < nxt s1) by (apply S1; by eexists). unfold l in *. lia. }
        assert (Hs2 : stok s2).
        { intros x [c Hx]. cbn in *. destruct (decide (x = l)) as [->|Hne]; [lia|].
          rewrite lookup_insert_ne in Hx by done. assert (x < nxt s1) by (apply S1; by eexists). unfold l. lia. }
        assert (Hhl : h1 !! l = None) by (by eapply lookup_weaken_None).
        assert (Hkl : l ∉ kdefs P).
        { rewrite Hkd. intros Hx. destruct (drel_defs _ _ _ _ _ _ Hi1 Hx) as [[mm Hm] _]. congruence. }
        destruct (dbody W f I perm Hperm s2 h1 q l P input1 it1 m ∅ []) as (R1 & R2 & R3 & R4 & R5); try done.
        { cbn. by apply insert_subseteq_r. }
        { cbn. apply lookup_insert. }
        { constructor. }
        { intros k. unfold tmap. cbn. rewrite !lookup_empty. constructor. }
        { by rewrite Hkd. }
        { rewrite Forall_forall in HdP1 |- *. intros x Hx. eapply drel_mono; [reflexivity| |exact (HdP1 x Hx)].
          intros a Ha. destruct (drel_defs _ _ _ _ _ _ (HdP1 x Hx) Ha) as [[mm Hm] Hn]. split; [|done]. cbn.
          rewrite lookup_insert_ne; [done|]. intros <-. congruence. }
        set (r := (l <-- alloc (CMap ∅) ;; acts' <-- shuffle perm (List.map (kid_act W f perm) P) ;; save_children W q l acts' input1 m ;;; finish_obj l) s1).
        change ((acts' <-- shuffle perm (List.map (kid_act W f perm) P) ;; save_children W q l acts' input1 m ;;; finish_obj l) s2) with r in *.
        clearbody r. split.
        { split; [done|]. split; [cbn in R2; unfold l in *; lia|]. split; [done|]. intros a c Ha Hn.
          assert (Hne : a <> l) by (intros ->; congruence).
          apply R4; [cbn; by rewrite lookup_insert_ne|by rewrite Hkd|done]. }
        destruct (all_of (List.map _ P)) as [rs|] eqn:Ers; cbn; [|done].
        destruct R5 as (hA & hB & mm' & Q1 & Q2 & Q3 & Q4 & Q5 & Q6 & Q7 & Q8 & Q9 & Q10 & Q11). cbn in Q6, Q7.
        set (outs := List.map (fun kr : string * (tree * pitr) => (kr.1, kr.2.1)) rs) in *.
        assert (Eo : obj_of outs = obj_or_nil (overlay [] outs)).
        { unfold obj_of, obj_or_nil, overlay. cbn. rewrite app_nil_r. by destruct (filter _ outs). }
        rewrite Eo. set (new := overlay [] outs) in *.
        exists (match new with [] => VS SNil | _ => VMap l end), hA, (<[l := CMap mm']> hB). split; [done|]. split; [|split].
        + split; [done|]. split; [etrans; [exact Q4|by apply insert_subseteq]|]. split.
          { rewrite <- (insert_id (hp r.1) l (CMap mm')) by done. by apply insert_mono. }
          split; [intros a Ha; destruct (Q6 a Ha); [by left|right; unfold l in *; lia]|].
          intros a [c Hl]. destruct (decide (a = l)) as [->|Hne]; [right; left; unfold l; lia|].
          rewrite lookup_insert_ne in Hl by done. rewrite Hkd in Q7. destruct (Q7 a) as [|[|]]; [by eexists|by auto|right; left; unfold l in *; lia|by auto].
        + unfold obj_or_nil. destruct new as [|kv new']; [done|]. apply repr_obj. exists l, mm'. split; [done|].
          split; [apply lookup_insert|]. split; [done|]. intros k. destruct (Q9 k); constructor.
          eapply repr_mono; [by apply insert_subseteq|done].
        + apply drel_obj. apply drel_obj in Hi1 as (_ & Hts1 & _). split; [done|]. split; [done|].
          by eapply kid_outs. }
    cbn [dden].
    assert (Hrun0 := Hrun s h input it (step_refl s Hs) (vis_refl s h Hh) Hin Hit).
    destruct f eqn:Ef.
    + (* JSON *)
      specialize (Hcl eq_refl). subst ts. destruct ts'; [done|]. unfold obj_json, with_node. destruct d, d'; exact Hrun0.
    + destruct ts' as [t'|], ts as [[[me delim] from]|]; try done.
      assert (Hsp : spec s h (run_tis W FXml t' input "object" m) (run_ptis W FXml (@Some ptis (me, delim, from)) it "object" m) (fun t v h => repr h v t)).
      { rewrite <- Ef. apply (run_tis_spec W HW f (fun t _ => I t)); try done. by left; exact Logic.I. }
      unfold obj_xml, with_node. cbv zeta. unfold Heap.mbind at 1.
      destruct Hsp as [Hst Hsp]. destruct (run_tis W FXml t' input "object" m s) as [s1 r1]. cbn [fst snd] in *.
      destruct (run_ptis W FXml (@Some ptis (me, delim, from)) it "object" m) as [t|]; cycle 1.
      { destruct Hsp as [-> | [_ ->]], d; (split; [by apply step_dstep|cbn; by auto]). }
      destruct Hsp as (v & h1 & -> & Hv & Hr). cbv beta iota.
      assert (Hin1 : repr h1 input it) by (eapply repr_mono; [apply Hv|done]).
      assert (HS1 : stok s1) by apply Hst. assert (Hh1 : h1 ⊆ hp s1) by apply Hv.
      pose proof (drel_step _ _ _ _ _ _ Hs Hst Hv Hi) as Hi1.
      apply (dres_after i s s1 h h1); [done|done|].
      assert (Hnil : dres i s1 h1 (s1, Ok (VS SNil)) (Some (TS SNil, PObj q d (Some (me, delim, from)) (List.map snd P)))) by (by apply dres_ret).
      destruct t as [sc|lt|kvs|n|l].
      * leaf Hr. destruct sc as [|b|z|z|fl|str|tm]; try (destruct d; apply dres_fail; by auto).
        -- destruct d as [kvs|], d' as [a|]; try done. cbn. 
           split; [by apply step_dstep, step_refl|]. pose proof Hi1 as (_ & _ & (mm & M1 & M2 & M3 & M4) & _).
           exists (VMap a), h1, (<[a := CMap mm]> h1). split; [done|]. split; [|split; [|done]].
           ++ split; [done|]. split; [by apply insert_subseteq|]. split.
              { cbn. rewrite <- (insert_id (hp s1) a (CMap mm)) by done. by apply insert_mono. }
              split; [by left|]. intros l [c Hl]. destruct (decide (l = a)) as [->|Hne]; [right; right; by left|].
              rewrite lookup_insert_ne in Hl by done. left. by eexists.
           ++ apply repr_obj. exists a, mm. split; [done|]. split; [apply lookup_insert|]. split; [done|]. intros k. destruct (M4 k); constructor.
              eapply repr_mono; [by apply insert_subseteq|done].
        -- destruct str; [|destruct d; apply dres_fail; by auto]. destruct d; exact Hnil.
      * apply repr_arr in Hr as (a & n & b & -> & _). destruct d; apply dres_fail; by auto.
      * apply repr_obj in Hr as (a & n & -> & _). destruct d; apply dres_fail; by auto.
      * leaf Hr. pose proof (Hrun s1 h1 (VNode n) (TNode n) Hst Hv eq_refl (HI eq_refl n)) as Hx. destruct d; exact Hx.
      * leaf Hr. destruct l as [|n l].
        -- pose proof (Hrun s1 h1 input it Hst Hv Hin1 Hit) as Hx. destruct d; exact Hx.
        -- pose proof (Hrun s1 h1 (VNode n) (TNode n) Hst Hv eq_refl (HI eq_refl n)) as Hx. destruct d; exact Hx.
  - apply pure_ok; done.
Qed.
End exec.

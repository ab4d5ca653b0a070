(** NewTransformer gives every object its own default: no two share one, and nothing else refers to it. *)
From stdpp Require Import strings list gmap.
From Coq Require Import Ascii ZArith Lia.
From Verif Require Import GoStr GoStrL Val Conv Instr Heap Schema Build Api SpecPath PathL Den Param HeapL Refine Top
  SpecSchema BuildL SpecProj ProjL SpecRun RunL DefD.

(** the maps a cell refers to *)
Definition refs (c : cell) (l : nat) : Prop :=
  match c with CMap m => exists k, m !! k = Some (VMap l) | CArr b => VMap l ∈ b end.
Definition tight (s : st) : Prop := stok s /\ forall a c l, hp s !! a = Some c -> refs c l -> l < nxt s.
(** a step that only adds cells, which refer to nothing that was there *)
Definition lstep (s s' : st) : Prop :=
  tight s' /\ hp s ⊆ hp s' /\ nxt s <= nxt s' /\
  forall a c l, hp s' !! a = Some c -> refs c l -> hp s !! a = Some c \/ nxt s <= l.
Lemma lstep_refl s : tight s -> lstep s s.
Proof. intros H. split; [done|]. split; [done|]. split; [done|]. auto. Qed.
Lemma lstep_trans s1 s2 s3 : lstep s1 s2 -> lstep s2 s3 -> lstep s1 s3.
Proof.
  intros (A1 & A2 & A3 & A4) (B1 & B2 & B3 & B4). split; [done|]. split; [by etrans|]. split; [lia|].
  intros a c l H1 H2. destruct (B4 a c l H1 H2) as [H|H]; [by eapply A4|right; lia].
Qed.
Lemma lstep_alloc s c : tight s -> forall s0, nxt s0 <= nxt s -> (forall l, refs c l -> nxt s0 <= l < nxt s) ->
  lstep s0 s -> lstep s0 (alloc c s).1.
Proof.
  intros Ht s0 Hn Hc (A1 & A2 & A3 & A4). destruct Ht as [Hs Ht]. unfold alloc. cbn.
  assert (Hfree : hp s !! nxt s = None).
  { destruct (hp s !! nxt s) eqn:E; [|done]. assert (nxt s < nxt s) by (apply Hs; by eexists). lia. }
  split; [split|].
  - intros x [c' Hx]. cbn in *. destruct (decide (x = nxt s)) as [->|Hne]; [lia|].
    rewrite lookup_insert_ne in Hx by done. assert (x < nxt s) by (apply Hs; by eexists). lia.
  - cbn. intros a c' l Ha Hl. destruct (decide (a = nxt s)) as [->|Hne].
    + rewrite lookup_insert in Ha. injection Ha as <-. destruct (Hc l Hl). lia.
    + rewrite lookup_insert_ne in Ha by done. specialize (Ht a c' l Ha Hl). lia.
  - cbn. split; [etrans; [exact A2|by apply insert_subseteq]|]. split; [lia|].
    intros a c' l Ha Hl. destruct (decide (a = nxt s)) as [->|Hne].
    + rewrite lookup_insert in Ha. injection Ha as <-. right. by destruct (Hc l Hl).
    + rewrite lookup_insert_ne in Ha by done. by eapply A4.
Qed.

Definition owned (s s' : st) (l : nat) : Prop := nxt s <= l < nxt s' /\ forall a c, hp s' !! a = Some c -> ~ refs c l.
Lemma load_own t : forall s, tight s -> exists v, (load t s).2 = Ok v /\ lstep s (load t s).1 /\
  forall l, v = VMap l -> owned s (load t s).1 l.
Proof.
  induction t as [sc|ts IH|kvs IH|n|l] using tree_ind'; intros s Hs; cbn [load];
    try (eexists; split; [done|]; split; [by apply lstep_refl|done]).
  - set (go := (fix go (l : list tree) : M (list val) :=
              match l with
              | [] => mret []
              | t :: l' => v <-- load t ;; vs <-- go l' ;; mret (v :: vs)
              end)).
    assert (Hgo : exists vs, (go ts s).2 = Ok vs /\ lstep s (go ts s).1 /\ forall l, VMap l ∈ vs -> nxt s <= l < nxt (go ts s).1).
    { revert s Hs. induction IH as [|t ts Ht HF IHF]; intros s Hs; cbn [go].
      - exists []. split; [done|]. split; [by apply lstep_refl|]. intros l Hl. by apply elem_of_nil in Hl.
      - destruct (Ht s Hs) as (v & E1 & L1 & O1). unfold Heap.mbind at 1 3 5. destruct (load t s) as [s1 r1]. cbn in E1, L1, O1. subst r1. cbv beta iota.
        destruct (IHF s1 (proj1 L1)) as (vs & E2 & L2 & O2). unfold Heap.mbind. fold go. destruct (go ts s1) as [s2 r2]. cbn in E2, L2, O2. subst r2. cbn.
        exists (v :: vs). split; [done|]. split; [by eapply lstep_trans|]. intros l Hl. apply elem_of_cons in Hl as [Hl|Hl].
        + destruct (O1 l (eq_sym Hl)) as [? _]. destruct L2 as (_ & _ & ? & _). lia.
        + specialize (O2 l Hl). destruct L1 as (_ & _ & ? & _). lia. }
    destruct Hgo as (vs & E1 & L1 & O1). unfold Heap.mbind at 1 3 5. destruct (go ts s) as [s1 r1]. cbn in E1, L1, O1. subst r1. cbv beta iota.
    exists (VArr (Some (nxt s1)) (length vs)). split; [done|]. split; [|done].
    apply (lstep_alloc s1 (CArr vs)); [apply L1|apply L1| |done]. intros l Hl. by apply O1.
  - set (go := (fix go (l : list (string * tree)) : M (gmap string val) :=
             match l with
             | [] => mret ∅
             | (k, t) :: l' => v <-- load t ;; m <-- go l' ;; mret (<[k := v]> m)
             end)).
    assert (Hgo : exists m, (go kvs s).2 = Ok m /\ lstep s (go kvs s).1 /\ forall k l, m !! k = Some (VMap l) -> nxt s <= l < nxt (go kvs s).1).
    { revert s Hs. induction IH as [|[k t] kvs Ht HF IHF]; intros s Hs; cbn [go].
      - exists ∅. split; [done|]. split; [by apply lstep_refl|]. intros k l Hl. by rewrite lookup_empty in Hl.
      - destruct (Ht s Hs) as (v & E1 & L1 & O1). cbn [snd] in *. unfold Heap.mbind at 1 3 5. destruct (load t s) as [s1 r1]. cbn in E1, L1, O1. subst r1. cbv beta iota.
        destruct (IHF s1 (proj1 L1)) as (m & E2 & L2 & O2). unfold Heap.mbind. fold go. destruct (go kvs s1) as [s2 r2]. cbn in E2, L2, O2. subst r2. cbn.
        exists (<[k := v]> m). split; [done|]. split; [by eapply lstep_trans|]. intros k' l Hl. destruct (decide (k' = k)) as [->|Hne].
        + rewrite lookup_insert in Hl. injection Hl as Hl. destruct (O1 l Hl) as [? _]. destruct L2 as (_ & _ & ? & _). lia.
        + rewrite lookup_insert_ne in Hl by done. specialize (O2 k' l Hl). destruct L1 as (_ & _ & ? & _). lia. }
    destruct Hgo as (m & E1 & L1 & O1). unfold Heap.mbind at 1 3 5. destruct (go kvs s) as [s1 r1]. cbn in E1, L1, O1. subst r1. cbv beta iota.
    exists (VMap (nxt s1)). split; [done|].
    assert (HL : lstep s (alloc (CMap m) s1).1).
    { apply (lstep_alloc s1 (CMap m)); [apply L1|apply L1| |done]. intros l [k Hl]. by eapply O1. }
    split; [exact HL|]. intros l [= <-]. split; [destruct L1 as (_ & _ & ? & _); cbn; lia|].
    intros a c Ha Hr. cbn in Ha. destruct L1 as ([_ Ht] & _). destruct (decide (a = nxt s1)) as [->|Hne].
    + rewrite lookup_insert in Ha. injection Ha as <-. destruct Hr as [k Hr]. specialize (O1 k _ Hr). lia.
    + rewrite lookup_insert_ne in Ha by done. specialize (Ht a c _ Ha Hr). lia.
Qed.

(** the maps the defaults of a transformer are *)
Fixpoint maps (i : itr) : list nat :=
  match i with
  | IScal _ _ (VMap l) _ => [l]
  | IScal _ _ _ _ => []
  | IObj _ d _ cs => match d with Some a => [a] | None => [] end ++
                     List.concat (List.map (fun kc => match kc with (_, c) => maps c end) cs)
  | IArr _ _ _ (Some c) => maps c
  | IArr _ _ _ None => []
  end.
Definition cmaps (cs : list (string * itr)) : list nat :=
  List.concat (List.map (fun kc : string * itr => match kc with (_, c) => maps c end) cs).
Lemma set_child_maps k c cs : exists rest, cmaps (set_child k c cs) ++ rest ≡ₚ cmaps cs ++ maps c.
Proof.
  induction cs as [|[n c'] cs [rest IH]]; cbn [set_child].
  - exists []. unfold cmaps. cbn. by rewrite !app_nil_r.
  - case_decide.
    + exists (maps c'). unfold cmaps. cbn. rewrite (Permutation_app_comm (maps c')). rewrite <- !app_assoc.
      rewrite (Permutation_app_comm (maps c)). rewrite <- !app_assoc. f_equiv; try apply Permutation_app_comm.
    + exists rest. unfold cmaps in *. cbn. rewrite <- !app_assoc. by f_equiv.
Qed.
Lemma get_child_maps k n n' cs : get_child k cs = Some n -> cmaps (set_child k n' cs) ++ maps n ≡ₚ cmaps cs ++ maps n'.
Proof.
  induction cs as [|[m c'] cs IH]; cbn [get_child set_child]; [done|]. case_decide.
  - intros [= ->]. unfold cmaps. cbn. rewrite (Permutation_app_comm (maps n)). rewrite <- !app_assoc.
    rewrite (Permutation_app_comm (maps n')). rewrite <- !app_assoc. f_equiv; try apply Permutation_app_comm.
  - intros H'. unfold cmaps in *. cbn. rewrite <- !app_assoc. f_equiv. by apply IH.
Qed.
Lemma insert_maps steps n c n' : insert_at steps n c = Ok n' -> exists rest, maps n' ++ rest ≡ₚ maps n ++ maps c.
Proof.
  revert n n'. induction steps as [|s steps IH]; intros n n'; cbn [insert_at].
  - destruct n as [p jt d ts|p d ts cs|p d ts ch]; cbn [add_child].
    + intros [= <-]. by exists (maps c).
    + case_decide; [|done]. intros [= <-]. destruct (set_child_maps (List.last (split (it_path c) ".") "") c cs) as [rest Hr].
      exists rest. cbn [maps]. rewrite <- !app_assoc. f_equiv. exact Hr.
    + intros [= <-]. exists (match ch with Some c' => maps c' | None => [] end). destruct ch; cbn [maps]; [apply Permutation_app_comm|by rewrite app_nil_r].
  - case_decide.
    + destruct n as [| |p d ts [n1|]]; try done. unfold rbind. destruct (insert_at steps n1 c) as [n2| |] eqn:E; try done.
      intros [= <-]. by apply IH in E.
    + destruct n as [|p d ts cs|]; try done. destruct (get_child s cs) as [n1|] eqn:Eg; [|done].
      unfold rbind. destruct (insert_at steps n1 c) as [n2| |] eqn:E; try done. intros [= <-].
      apply IH in E as [rest Hr]. exists rest. cbn [maps]. rewrite <- !app_assoc. f_equiv.
      pose proof (get_child_maps s n1 n2 cs Eg) as Hg.
      apply (Permutation_app_inv_r (maps n1)). change (cmaps (set_child s n2 cs) ++ rest ++ maps n1 ≡ₚ (cmaps cs ++ maps c) ++ maps n1) || idtac.
      change (List.concat (List.map (fun kc : string * itr => match kc with (_, c) => maps c end) (set_child s n2 cs))) with (cmaps (set_child s n2 cs)).
      change (List.concat (List.map (fun kc : string * itr => match kc with (_, c) => maps c end) cs)) with (cmaps cs).
      rewrite <- !app_assoc. rewrite (Permutation_app_comm rest). rewrite app_assoc, Hg. rewrite <- app_assoc. f_equiv.
      rewrite Hr. apply Permutation_app_comm.
Qed.
Lemma attach_maps n c n' : attach n c = Ok n' -> exists rest, maps n' ++ rest ≡ₚ maps n ++ maps c.
Proof.
  unfold attach. destruct (split _ _) as [|s0 rest]; [done|]. case_decide; [done|]. destruct rest; [done|]. apply insert_maps.
Qed.

(** nothing in the heap refers to the maps of the transformer *)
Definition apart (s : st) (i : itr) : Prop :=
  tight s /\ NoDup (maps i) /\ forall l, l ∈ maps i -> l < nxt s /\ forall a c, hp s !! a = Some c -> ~ refs c l.
Lemma apart_lstep s s' i : lstep s s' -> apart s i -> apart s' i.
Proof.
  intros (A1 & A2 & A3 & A4) (_ & B2 & B3). split; [done|]. split; [done|]. intros l Hl. destruct (B3 l Hl) as [C1 C2].
  split; [lia|]. intros a c Ha Hr. destruct (A4 a c l Ha Hr) as [H|H]; [by eapply C2|lia].
Qed.

Section node.
Context (W : oracles) (tid : string).
Lemma extract_lstep raw path k s : tight s -> lstep s (extract_tis W raw tid path k s).1.
Proof.
  intros Hs. unfold extract_tis. destruct (jlookup "transform" raw) as [tr|]; [|by apply lstep_refl].
  destruct (jlookup tid tr) as [t|]; [|by apply lstep_refl].
  assert (HC : lstep s (Heap.mbind (mlift (dec_tis W t))
     (fun x : meth * string * list (option instr) => let '(me, delim, from) := x in
      match all_some from with
      | Some is => fun s0 : st =>
          (St (hp s0) (S (nxt s0)) (<[nxt s0:=rebase (parent_path path k) <$> is]> (froms s0)) (tick s0),
           Ok (Some {| ti_id := nxt s0; ti_meth := me; ti_delim := delim |}))
      | None => mpanic
      end) s).1).
  { unfold Heap.mbind, mlift. destruct (dec_tis W t) as [[[me delim] from]| |]; cbn; try by apply lstep_refl.
    destruct (all_some from) as [is|]; cbn; [|by apply lstep_refl].
    destruct Hs as [H1 H2]. split; [split|].
    - intros x Hx. specialize (H1 x Hx). cbn. lia.
    - cbn. intros a c l Ha Hl. specialize (H2 a c l Ha Hl). lia.
    - cbn. split; [done|]. split; [lia|]. auto. }
  destruct t as [[|b|z|z|fl|str|tm]|l|kvs|n|l]; try exact HC.
  destruct str; [by apply lstep_refl|exact HC].
Qed.
Lemma default_own raw s : tight s -> exists v, (schema_default raw s).2 = Ok v /\ lstep s (schema_default raw s).1 /\
  forall l, v = VMap l -> owned s (schema_default raw s).1 l.
Proof.
  intros Hs. unfold schema_default. destruct (jlookup "default" raw) as [t|]; [by apply load_own|].
  exists (VS SNil). split; [done|]. split; [by apply lstep_refl|done].
Qed.
Lemma new_node_own path raw s s' r : tight s -> new_node W tid path raw s = (s', r) -> lstep s s' /\
  forall c, r = Ok c -> NoDup (maps c) /\ forall l, l ∈ maps c -> owned s s' l.
Proof.
  intros Hs.
  assert (Hx : forall k (g : option tis -> val -> M itr),
    (forall ts d st, (g ts d st).1 = st /\ forall c, (g ts d st).2 = Ok c -> maps c = [] \/ exists l, d = VMap l /\ maps c = [l]) ->
    (ts <-- extract_tis W raw tid path k ;; d <-- schema_default raw ;; g ts d) s = (s', r) ->
    lstep s s' /\ forall c, r = Ok c -> NoDup (maps c) /\ forall l, l ∈ maps c -> owned s s' l).
  { intros k g Hg. unfold Heap.mbind at 1. pose proof (extract_lstep raw path k s Hs) as L1.
    destruct (extract_tis W raw tid path k s) as [s1 [ts| |]]; cbn [fst] in L1; [|by intros [= <- <-]|by intros [= <- <-]].
    destruct (default_own raw s1 (proj1 L1)) as (v & E2 & L2 & O2). unfold Heap.mbind. destruct (schema_default raw s1) as [s2 r2]. cbn [fst snd] in *. subst r2.
    destruct (Hg ts v s2) as [G1 G2]. destruct (g ts v s2) as [s3 r3]. cbn [fst snd] in *. subst s3. intros [= <- <-].
    split; [by eapply lstep_trans|]. intros c Hc. destruct (G2 c Hc) as [Em|(l & -> & Em)]; rewrite Em.
    - split; [constructor|]. intros l Hl. by apply elem_of_nil in Hl.
    - split; [apply NoDup_singleton|]. intros l' Hl. apply elem_of_list_singleton in Hl as ->.
      destruct (O2 l eq_refl) as [O3 O4]. split; [|done]. destruct L1 as (_ & _ & ? & _). lia. }
  assert (Hscal : forall jt, new_scalar_tr W path tid raw jt s = (s', r) ->
    lstep s s' /\ forall c, r = Ok c -> NoDup (maps c) /\ forall l, l ∈ maps c -> owned s s' l).
  { intros jt. unfold new_scalar_tr. unfold Heap.mbind at 1.
    assert (Hgo : forall jt', (ts <-- extract_tis W raw tid path KScalar ;; d <-- schema_default raw ;; mret (IScal path jt' d ts)) s = (s', r) ->
      lstep s s' /\ forall c, r = Ok c -> NoDup (maps c) /\ forall l, l ∈ maps c -> owned s s' l).
    { intros jt'. apply (Hx KScalar (fun ts d => mret (IScal path jt' d ts))). intros ts d st. split; [done|].
      intros c [= <-]. destruct d; cbn; try by left. right. by eexists. }
    assert (Hbad : (s, r) = (s', r) -> r <> Err -> True) by done.
    case_decide; [|apply Hgo]. destruct (jlookup "format" raw) as [[[| | | | |fm|]| | | |]|]; cbn -[Heap.mbind]; try (intros [= <- <-]; split; [by apply lstep_refl|done]); apply Hgo. }
  unfold new_node. unfold Heap.mbind at 1, mlift. destruct (field_type raw) as [[ty nl]| |]; cbn [fst]; try (intros [= <- <-]; split; [by apply lstep_refl|done]).
  case_decide.
  - destruct (jlookup "properties" raw) as [v|]; [|intros [= <- <-]; split; [by apply lstep_refl|done]].
    assert (Ho : new_object_tr W path tid raw s = (s', r) ->
      lstep s s' /\ forall c, r = Ok c -> NoDup (maps c) /\ forall l, l ∈ maps c -> owned s s' l).
    { apply (Hx KObject). intros ts d st. destruct d as [[]| | | |]; cbn; try done.
      - split; [done|]. intros c [= <-]. by left.
      - split; [done|]. intros c [= <-]. right. by eexists. }
    destruct v as [| |[|]| |]; try exact Ho. apply Hscal.
  - case_decide; [|apply Hscal]. apply (Hx KArray). intros ts d st. destruct d as [[]| | | |]; cbn; try done;
      (split; [done|]; intros c [= <-]; by left).
Qed.
Lemma walker_apart path v (x : st * itr) : apart x.1 x.2 -> apart (walker W tid path v x).1.1 (walker W tid path v x).1.2.
Proof.
  destruct x as [s root]. cbn [fst snd]. intros Ha. unfold walker. cbn [fst snd].
  destruct (new_node W tid path v s) as [s' r] eqn:En. destruct (new_node_own _ _ _ _ _ (proj1 Ha) En) as [L O].
  pose proof (apart_lstep _ _ _ L Ha) as Ha'. destruct r as [c| |]; try done. destruct (O c eq_refl) as [O1 O2].
  destruct (attach root c) as [root'| |] eqn:Ea; cbn; try done.
  apply attach_maps in Ea as [rest Hr]. destruct Ha' as (T & N & F). split; [done|].
  assert (Hnd : NoDup (maps root ++ maps c)).
  { apply NoDup_app. split; [done|]. split; [|done]. intros l Hl Hc. destruct (O2 l Hc) as [[? _] _].
    destruct Ha as (_ & _ & F0). destruct (F0 l Hl). lia. }
  rewrite <- Hr in Hnd. apply NoDup_app in Hnd as (Hnd & _ & _). split; [done|]. intros l Hl.
  assert (Hin : l ∈ maps root ++ maps c) by (rewrite <- Hr; apply elem_of_app; by left).
  apply elem_of_app in Hin as [Hin|Hin]; [by apply F|]. destruct (O2 l Hin) as [[? ?] ?]. done.
Qed.
Lemma new_apart ps s i : new_transformer W tid (Some ps) None st0 = (s, Ok i) -> apart s i.
Proof.
  unfold new_transformer, walk_raw_schema. change (default [] (Some ps)) with ps. unfold Schema.seq.
  pose proof (walk_each_inv (walker W tid) (fun x => apart x.1 x.2) (fun p v x => walker_apart p v x) "$" ps (st0, IObj "$" None None [])) as H.
  destruct (walk_each _ _ _ _) as [[s1 r1] [[]| |]]; cbn [fst snd] in *; [|done|done]. cbn. intros [= <- <-]. apply H.
  split; [split|].
  - intros x [c Hx]. cbn in Hx. by rewrite lookup_empty in Hx.
  - intros a c l Ha. cbn in Ha. by rewrite lookup_empty in Ha.
  - cbn. split; [constructor|]. intros l Hl. by apply elem_of_nil in Hl.
Qed.
End node.

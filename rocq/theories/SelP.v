(** Whole JSON transforms with transforms of objects: from the raw schema to the document. *)
From stdpp Require Import strings list gmap.
From Coq Require Import ZArith Lia.
From Verif Require Import GoStr GoStrL Val Conv Instr Heap Schema Build Api SpecPath PathL Den SpecSchema Param HeapL Refine Top BuildL
  SpecProj ProjL SpecRun RunL SpecArr ArrT ArrH ArrW ArrD ArrE ArrP ArrQ SelH SelD SelE SpecSel.
From Verif Require Import SpecDef.

(** ** one document *)
Section top.
Context (W : oracles) (HW : jpath_parametric W).
Context (perm : nat -> nat -> list nat) (Hperm : orders perm).
Context (ws wr : wheres) (doc : tree).
Context (Hws : forall w w', w ∈ ws -> w' ∈ ws -> w = w' \/ apart w w').
Context (Hwr : forall d, d ∈ wr -> exists w k, w ∈ ws /\ d = w ++ [k]).
Context (Hdist : distinct_keys doc).
Context (Harr : forall w l, w ∈ ws -> getp w doc <> Some (TArr l)).
Lemma json_transform_oden i p s : wf_paths p -> ook ws wr [] p [] -> stok s ->
  irel (hp s) (froms s) i p ->
  let r := base_json_transform W perm FJson i doc s in
  step s r.1 /\ outcome W (oden W doc p []) r.2.
Proof.
  intros Hwf Hj Hs Hi. cbv zeta. unfold base_json_transform, Heap.mbind.
  destruct (load_inv doc (up ws) (up_up ws) ltac:(intros p'; destruct (up_dec ws p'); auto) s (hp s) Hdist Hs ltac:(done))
    as (Hst & v & G & h & Hv & Hvis & Hinv & HG).
  destruct (load doc s) as [s1 r1]. cbn [fst snd] in *. subst r1.
  assert (Hi1 : irel h (froms s1) i p).
  { destruct Hst as (_ & _ & _ & ->). eapply irel_mono; [apply Hvis|done]. }
  assert (Hh : hinv ws wr G v doc [] [] s1 h).
  { destruct Hinv as [A1 A2 A3 A4 A5 A6 A7]. split; try done.
    - intros q l Hq. destruct (A4 q l Hq) as (_ & m & kvs & B1 & B2 & B3). exists m, kvs. split; [done|]. split; [done|]. intros k _. apply B3.
    - intros q l Hq _. by destruct (A4 q l Hq).
    - intros d Hd. by apply elem_of_nil in Hd.
    - intros d Hd. by apply elem_of_nil in Hd. }
  destruct (exec_oden W HW perm Hperm ws wr G v doc Hws Hwr Hdist Harr p Hwf [] i [] [] s1 h [] Hj Hi1 Hh (free_nil [] []))
    as [Hfr Hres]; [intros w _; apply not_elem_of_nil|].
  destruct (exec W perm FJson i v [] s1) as [s2 r2]. cbn [fst snd] in *.
  assert (Hstep : step s s2).
  { destruct Hst as (A1 & A2 & A3 & A4), Hfr as (B1 & B2 & B3 & B4). split; [done|]. split; [|split; [lia|congruence]].
    apply map_subseteq_spec. intros x c Hx. apply B4; [by eapply lookup_weaken|]. intros q _ Hq. apply HG in Hq.
    assert (x < nxt s); [|lia]. apply Hs. by eexists. }
  destruct (oden W doc p []) as [t|].
  - destruct Hres as (a & h' & D' & -> & _ & Hinv' & _ & Hr). rewrite (marshal_spec W s2 a t); [done|].
    eapply repr_mono; [|exact Hr]. apply Hinv'.
  - destruct Hres as [-> | ->]; cbn; auto.
Qed.
End top.

(** ** the relation to the schema *)
Inductive orel : list string -> list string -> osch -> pitr -> Prop :=
| orel_leaf ρ ρp jt d ts pt : tsr (loc ρp) ts pt -> orel ρ ρp (OLeaf jt d ts) (PScal (path_of (loc ρ)) jt d pt)
| orel_lst ρ ρp c c' : prel (loc ρ ++ [Star]) (loc ρ ++ [Star]) c c' -> orel ρ ρp (OLst c) (PArr (path_of (loc ρ)) None None c')
| orel_rec ρ ρp sel cs pt cs' : orel_all ρ cs cs' -> NoDup cs.*1 ->
    match sel with None => pt = None | Some x => by_names x /\ exists dl, tsr (loc ρp) (Some (MFirst, dl, [(x, [])])) pt end ->
    orel ρ ρp (ORec sel cs) (PObj (path_of (loc ρ)) None pt cs')
with orel_all : list string -> list (string * osch) -> list (string * pitr) -> Prop :=
| orel_nil ρ : orel_all ρ [] []
| orel_cons ρ k c cs c' cs' : ident k = true -> orel (ρ ++ [k]) ρ c c' -> orel_all ρ cs cs' ->
    orel_all ρ ((k, c) :: cs) ((k, c') :: cs').
Scheme orel_ind2 := Induction for orel Sort Prop with orel_all_ind2 := Induction for orel_all Sort Prop.
Combined Scheme orel_mutind from orel_ind2, orel_all_ind2.

Notation idents := (Forall (fun k => ident k = true)).
Lemma names_loc τ : Forall (fun s => exists k, s = Nm k /\ ident k = true) τ -> loc (name_of <$> τ) = τ /\ idents (name_of <$> τ).
Proof.
  induction 1 as [|s τ (k & -> & Hk) _ [IH1 IH2]]; [split; [done|constructor]|]. split; [|by constructor].
  cbn. f_equal. exact IH1.
Qed.
Lemma goal_spec ρp x : idents ρp -> by_names x ->
  idents (goal ρp x) /\ goal ρp x <> [] /\ path_of (loc (goal ρp x)) = src_path (loc ρp) x /\
  loc (goal ρp x) = match x with Rel τ => loc ρp ++ τ | Abs τ => τ end.
Proof.
  intros Hp Hx. destruct x as [τ|τ]; destruct Hx as [Hne Hτ]; destruct (names_loc τ Hτ) as [E1 E2]; cbn [goal src_path].
  - assert (E : loc (ρp ++ (name_of <$> τ)) = loc ρp ++ τ). { unfold loc in *. by rewrite fmap_app, E1. }
    split; [by apply Forall_app|]. split; [intros H; apply app_eq_nil in H as [_ H]; by apply fmap_nil_inv in H|].
    rewrite E. split; [by rewrite path_of_app|done].
  - rewrite E1. split; [done|]. split; [intros H; by apply fmap_nil_inv in H|done].
Qed.
Lemma prel_sels : (forall σ σp s p, prel σ σp s p -> sels p = []) /\
  (forall σ cs cs', prel_all σ cs cs' -> csels cs' = []).
Proof. apply prel_mutind; try done. intros σ k c cs c' cs' _ _ IH1 _ IH2. unfold csels. cbn [List.map List.concat]. by rewrite IH1. Qed.
Lemma goal_ts ρp x dl pt : idents ρp -> by_names x -> tsr (loc ρp) (Some (MFirst, dl, [(x, [])])) pt ->
  exists i, pt = Some (MFirst, dl, [i]) /\ i_ops i = [] /\ i_jpath i = path_of (Nm <$> goal ρp x).
Proof.
  intros Hp Hx Ht. destruct pt as [[[me' dl'] is]|]; [|done]. destruct Ht as (-> & -> & _ & HF).
  inversion HF as [|? i ? ? (H1 & H2 & _) HF']; subst. inversion HF'; subst. exists i. split; [done|]. split; [done|].
  rewrite H1. cbn [fst]. symmetry. apply (goal_spec ρp x Hp Hx).
Qed.
Lemma orel_sels :
  (forall ρ ρp s p, orel ρ ρp s p -> idents ρ -> idents ρp -> sels p = selections s ρ ρp) /\
  (forall ρ cs cs', orel_all ρ cs cs' -> idents ρ ->
     csels cs' = List.concat (List.map (fun kc => match kc with (k, c) => selections c (ρ ++ [k]) ρ end) cs)).
Proof.
  apply orel_mutind.
  - done.
  - intros ρ ρp c c' Hc _ _. cbn [sels selections]. by apply (proj1 prel_sels _ _ _ _ Hc).
  - intros ρ ρp sel cs pt cs' _ IH Hnd Hsel Hid Hidp. cbn [sels selections]. fold (csels cs'). rewrite IH by done. f_equal.
    destruct sel as [x|]; [|by subst]. destruct Hsel as [Hx [dl Ht]]. destruct (goal_ts _ _ _ _ Hidp Hx Ht) as (i & -> & _ & E).
    cbn. rewrite E, plain_names; [done|]. by apply goal_spec.
  - done.
  - intros ρ k c cs c' cs' Hk _ IHc _ IHcs Hid. unfold csels in *. cbn [List.map List.concat]. rewrite IHc; [|by apply Forall_app; split; [done|constructor]|done].
    by rewrite IHcs.
Qed.

(** ** places *)
Section ok.
Context (ws wr : wheres).
Context (Hidw : forall w, w ∈ ws -> idents w) (Hidr : forall d, d ∈ wr -> idents d).
Context (Hwr : forall d, d ∈ wr -> exists w k, w ∈ ws /\ d = w ++ [k]).
Lemma oreads_at o τ : Forall concrete τ -> clear ws wr o τ -> oreads ws wr o (path_of τ).
Proof.
  intros Hτ [H1 H2]. exists (seg_key <$> τ). split; [by apply plain_path_of|]. split.
  - unfold up. rewrite Exists_exists. intros (w & Hw & Hp). apply (H1 w Hw). apply prefix_keys_l in Hp; [done|by apply Hidw|done].
  - intros d Hd Ho Hp. apply (H2 d Hd Ho). apply prefix_keys in Hp; [done|by apply Hidr|done].
Qed.
Lemma clear_app o ρ τ : clear ws wr o (loc ρ) -> clear ws wr o (loc ρ ++ τ).
Proof.
  intros [H1 H2]. split.
  - intros w Hw Hp. apply (H1 w Hw). etrans; [|exact Hp]. by apply prefix_app_r.
  - intros d Hd Ho Hp. destruct (Hwr d Hd) as (w & k & Hw & ->).
    destruct (prefix_weak_total (Nm <$> (w ++ [k])) (loc ρ) (loc ρ ++ τ)) as [H|H]; [done|by apply prefix_app_r|by apply (H2 _ Hd Ho)|].
    rewrite fmap_app in H. cbn in H. destruct H as [r Hr]. destruct r as [|z r _] using rev_ind.
    + rewrite app_nil_r in Hr. apply (H2 _ Hd Ho). rewrite fmap_app. cbn. by rewrite Hr.
    + rewrite app_assoc in Hr. apply app_inj_tail in Hr as [Hr _]. apply (H1 w Hw). by exists r.
Qed.
Lemma tsr_ots o σp ρp ts pt m : tsr σp ts pt -> nested m σp ρp -> Forall concrete ρp ->
  (forall xo, xo ∈ (match ts with Some (_, _, from) => from | None => [] end) -> src_ok xo.1 ->
     oreads ws wr o (path_of (match xo.1 with Rel τ => ρp ++ τ | Abs τ => τ end))) -> ots ws wr o pt m.
Proof.
  intros Ht Hn Hρ H. unfold tsr in Ht. destruct ts as [[[me dl] from]|], pt as [[[me' dl'] is]|]; try done.
  destruct Ht as (_ & _ & _ & HF). cbn. intros x Hx. apply elem_of_list_lookup in Hx as [j Hj].
  destruct (Forall2_lookup_r _ _ _ _ _ HF Hj) as (xo & Hxo & E & _ & Hs). apply elem_of_list_lookup_2 in Hxo. specialize (H xo Hxo Hs). rewrite E.
  destruct xo as [[τ|τ] ops]; cbn [fst src_path src_ok] in *.
  - by rewrite (nested_paths _ _ _ _ Hn), <- path_of_app.
  - by rewrite (nested_abs _ _ _ _ Hn).
Qed.
Notation oall o := (fix all (cs : list (string * pitr)) : Prop := match cs with [] => True | (_, c) :: cs' => ook ws wr o c _ /\ all cs' end).

(** the schemas of items *)
Lemma prel_ook o ρ0 : (forall τ, Forall concrete τ -> oreads ws wr o (path_of (ρ0 ++ τ))) ->
  (forall σ σp s p, prel σ σp s p -> forall m τ τp, nested m σ (ρ0 ++ τ) -> nested m σp (ρ0 ++ τp) -> Forall concrete ρ0 -> Forall concrete τ -> Forall concrete τp ->
     (forall τ', τ' ∈ abs_places s -> Forall concrete τ' -> oreads ws wr o (path_of τ')) -> ook ws wr o p m) /\
  (forall σ cs cs', prel_all σ cs cs' -> forall m τ, nested m σ (ρ0 ++ τ) -> Forall concrete ρ0 -> Forall concrete τ ->
     (forall τ', τ' ∈ abs_places (Rec cs) -> Forall concrete τ' -> oreads ws wr o (path_of τ')) ->
     (fix all (cs : list (string * pitr)) : Prop := match cs with [] => True | (_, c) :: cs' => ook ws wr o c m /\ all cs' end) cs').
Proof.
  intros H0. apply prel_mutind.
  - intros σ σp jt d ts pt Ht m τ τp Hn Hnp H00 Hτ Hτp Ha. cbn [ook]. split; [by eapply tsr_pure|]. split.
    + rewrite (nested_path _ _ _ Hn). by apply H0.
    + eapply tsr_ots; [done|done|by apply Forall_app|]. intros xo Hxo Hs. destruct ts as [[[me dl] from]|]; [|by apply elem_of_nil in Hxo].
      destruct xo as [[r|r] ops]; cbn [fst src_ok] in *.
      * rewrite <- app_assoc. apply H0. apply Forall_app. by destruct Hs.
      * apply Ha; [|done]. cbn [abs_places]. apply elem_of_list_bind. exists (Abs r, ops). split; [by left|done].
  - intros σ σp cs cs' Hall IH Hnd m τ τp Hn Hnp H00 Hτ Hτp Ha. cbn [ook]. split; [done|].
    split; [|by eapply IH]. cbn [sels sel_of app]. fold (csels cs'). rewrite (proj2 prel_sels _ _ _ Hall). constructor.
  - intros σ σp c c' Hc IH m τ τp Hn Hnp H00 Hτ Hτp Ha. cbn [ook]. cbv zeta. split; [by apply (proj1 prel_sels _ _ _ _ Hc)|].
    split; [done|]. split; [done|]. rewrite (nested_path _ _ _ Hn). split; [by apply H0|].
    intros i. assert (Hn' : nested (path_replace (path_of (ρ0 ++ τ) +:+ "[*]") (path_of (ρ0 ++ τ) +:+ idx_str i) m) (σ ++ [Star]) (ρ0 ++ (τ ++ [Ix i]))).
    { rewrite app_assoc. rewrite <- (nested_path _ _ _ Hn). by apply nested_item. }
    assert (Hτ' : Forall concrete (τ ++ [Ix i])) by (apply Forall_app; split; [done|]; constructor; [exact I|constructor]).
    by eapply IH.
  - done.
  - intros σ k c cs c' cs' Hk Hc IHc Hcs IHcs m τ Hn H00 Hτ Ha. split.
    + apply (IHc m (τ ++ [Nm k]) τ); [rewrite app_assoc; by constructor|done|done| |done|].
      * apply Forall_app; split; [done|]; constructor; [exact Hk|constructor].
      * intros τ' Hτ'. apply Ha. cbn [abs_places List.map List.concat]. apply elem_of_app. by left.
    + eapply IHcs; [done|done|done|]. intros τ' Hτ'. apply Ha. cbn [abs_places List.map List.concat] in *. apply elem_of_app. by right.
Qed.

Lemma orel_ook :
  (forall ρ ρp s p, orel ρ ρp s p -> forall o, idents ρ -> idents ρp -> NoDup (selections s ρ ρp) ->
     (forall w, w ∈ selections s ρ ρp -> w ∈ ws) -> (forall d, d ∈ replaced s ρ ρp -> d ∈ wr) -> undisturbed ws wr o s ρ ρp -> ook ws wr o p []) /\
  (forall ρ cs cs', orel_all ρ cs cs' -> forall own o, idents ρ ->
     let sl := List.concat (List.map (fun kc => match kc with (k, c) => selections c (ρ ++ [k]) ρ end) cs) in
     NoDup sl -> (forall w, w ∈ sl -> w ∈ ws) ->
     (forall d, d ∈ List.concat (List.map (fun kc => match kc with (k, c) => replaced c (ρ ++ [k]) ρ end) cs) -> d ∈ wr) ->
     Forall (fun kc => undisturbed ws wr (oadd own kc.1 o) kc.2 (ρ ++ [kc.1]) ρ) cs ->
     Forall (fun kc => ook ws wr (oadd own kc.1 o) kc.2 []) cs').
Proof.
  apply orel_mutind.
  - intros ρ ρp jt d ts pt Ht o Hid Hidp _ _ _ Hun. cbn [ook]. split; [by eapply tsr_pure|]. split.
    + change (apply_mod [] ?x) with x. apply oreads_at; [by apply loc_concrete|]. apply Hun. by left.
    + eapply tsr_ots; [exact Ht|apply nested_loc|by apply loc_concrete|]. intros xo Hxo Hs. destruct ts as [[[me dl] from]|]; [|by apply elem_of_nil in Hxo].
      apply oreads_at.
      * destruct xo as [[r|r] ops]; cbn [fst src_ok] in *; [|done]. apply Forall_app. split; [by apply loc_concrete|apply Hs].
      * apply Hun. right. by apply places_in.
  - intros ρ ρp c c' Hc o Hid Hidp _ _ _ Hun. cbn [ook]. cbv zeta. split; [by apply (proj1 prel_sels _ _ _ _ Hc)|].
    change (apply_mod [] ?x) with x. split; [done|]. split; [done|].
    assert (Hcl : clear ws wr o (loc ρ)) by (apply Hun; by left).
    split; [by apply oreads_at; [apply loc_concrete|]|]. intros i.
    assert (Hn' : nested (path_replace (path_of (loc ρ) +:+ "[*]") (path_of (loc ρ) +:+ idx_str i) []) (loc ρ ++ [Star]) (loc ρ ++ [Ix i])).
    { pose proof (nested_item [] (loc ρ) (loc ρ) i (nested_loc ρ)) as H. exact H. }
    eapply (proj1 (prel_ook o (loc ρ) _)); [exact Hc|exact Hn'|exact Hn'|by apply loc_concrete|by repeat constructor|by repeat constructor|].
    intros τ' Hτ' Hcc. apply oreads_at; [done|]. apply Hun. by right.
    Unshelve. intros τ Hτ. apply oreads_at; [apply Forall_app; split; [by apply loc_concrete|done]|]. by apply clear_app.
  - intros ρ ρp sel cs pt cs' Hall IH Hnd Hsel o Hid Hidp Hsl Hin Hrp Hun. cbn [ook]. split; [done|].
    cbn [selections replaced] in *. apply NoDup_app in Hsl as (Hs1 & Hs2 & Hs3).
    assert (Hc : Forall (fun kc => ook ws wr (oadd (goal ρp <$> sel) kc.1 o) kc.2 []) cs').
    { apply IH; [done|done| | |].
      - intros w Hw. apply Hin, elem_of_app. by right.
      - intros d Hd. apply Hrp, elem_of_app. by right.
      - clear -Hun. induction cs as [|[k c] cs IHc]; constructor; [|by apply IHc, Hun]. destruct sel; apply Hun. }
    split.
    { cbn [sels]. fold (csels cs'). rewrite (proj2 orel_sels _ _ _ Hall Hid). apply NoDup_app. split; [|split; [|done]].
      - destruct sel as [x|]; [|subst; constructor]. destruct Hsel as [Hx [dl Ht]]. destruct (goal_ts _ _ _ _ Hidp Hx Ht) as (i & -> & _ & E). apply NoDup_singleton.
      - intros w Hw. apply Hs2. destruct sel as [x|]; [|by subst]. destruct Hsel as [Hx [dl Ht]]. destruct (goal_ts _ _ _ _ Hidp Hx Ht) as (i & -> & _ & E).
        cbn in Hw |- *. rewrite E, plain_names in Hw; [done|]. by apply goal_spec. }
    destruct sel as [x|]; [|subst pt; clear -Hc; induction cs' as [|[k c] cs' IHc]; [done|]; inversion Hc; subst; by split; [|apply IHc]].
    destruct Hsel as [Hx [dl Ht]]. destruct (goal_ts _ _ _ _ Hidp Hx Ht) as (i & -> & E1 & E2). destruct (goal_spec ρp x Hidp Hx) as (G1 & G2 & _).
    exists (goal ρp x), dl, i. split; [done|]. split; [done|]. split; [apply Hin; cbn; by left|]. split; [done|]. split; [done|]. split; [done|]. split; [done|].
    assert (Hk : Forall (fun k => goal ρp x ++ [k] ∈ wr) cs'.*1).
    { assert (E : cs'.*1 = cs.*1). { clear -Hall. induction Hall; cbn; [done|by f_equal]. } rewrite E.
      apply Forall_forall. intros k Hk. apply elem_of_list_fmap in Hk as ([k0 c] & -> & Hkc). apply Hrp, elem_of_app. left.
      apply elem_of_list_In, in_map_iff. exists (k0, c). split; [done|]. by apply elem_of_list_In. }
    clear -Hc Hk. induction cs' as [|[k c] cs' IHc]; [done|]. cbn in Hk. inversion Hc; subst. inversion Hk; subst. split; [by split|by apply IHc].
  - constructor.
  - intros ρ k c cs c' cs' Hk Hc IHc Hcs IHcs own o Hid sl Hsl Hin Hrp Hun. unfold sl in *. cbn [List.map List.concat] in *. inversion Hun as [|? ? U1 U2]; subst. cbn [fst snd] in *.
    apply NoDup_app in Hsl as (Hs1 & Hs2 & Hs3). constructor.
    + cbn [fst snd]. apply IHc; [apply Forall_app; split; [done|by constructor]|done|done| |  |done].
      * intros w Hw. apply Hin, elem_of_app. by left.
      * intros d Hd. apply Hrp, elem_of_app. by left.
    + apply IHcs; [done|done| | |done].
      * intros w Hw. apply Hin, elem_of_app. by right.
      * intros d Hd. apply Hrp, elem_of_app. by right.
Qed.
End ok.

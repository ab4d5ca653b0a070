From stdpp Require Import strings list gmap relations.
From Coq Require Import Ascii ZArith.
From Verif Require Import GoStr GoStrL Val Schema Inst Load SpecLoad SpecRef SpecExp FlatL RefL DerefL TermL ExpL ExpT LoadL SpecRing.
From Verif Require Den HeapL.

Lemma file_ref_cut f τ : file_part f -> (τ = [] \/ simple_path τ) -> (cut_hash (file_ref f τ)).1 = f.
Proof.
  intros (Hf1 & Hf2 & Hf3) [->|Hτ]; [cbn [file_ref]; by rewrite cut_hash_none|].
  assert (E : file_ref f τ = f +:+ local_ref τ) by (destruct Hτ as [Hne _]; by destruct τ). rewrite E.
  destruct (frag_local f τ Hf2 Hτ) as [H1 H2]. by rewrite H1.
Qed.

Section ring.
Context (F : files) (lf : string -> option (res instance)) (path : string).
Lemma expand_keeps rp q data data' s : (exists dest, rp = dest ++ ["$ref"] /\ ~ exists ρ, q = dest ++ ρ) ->
  pget q data = Some (TS s) -> expand_ref F lf path rp data = Some (Ok data') -> pget q data' = Some (TS s).
Proof.
  intros (dest & -> & Hq) Hg He.
  assert (exists r, pget (dest ++ ["$ref"]) data = Some (TS (SStr r))) as (r & Hv).
  { unfold expand_ref in He. destruct (pget (dest ++ ["$ref"]) data) as [[[]| | | |]|]; try done. by eexists. }
  destruct (pget_ref _ _ _ Hv) as (o & Ho & Hr). rewrite (expand_ref_eq F lf path dest data r o Ho Hr) in He.
  destruct (resolve F lf r data path) as [[resolved| |]|] eqn:Hres; try done.
  destruct (decide (dest = [])) as [->|Hne]; [destruct Hq; by exists q|].
  assert (exists T, resolved = TObj T) as [T ->].
  { rewrite resolve_eq in Hres. destruct (source_of F lf r data path) as [[src| |]|]; try done.
    destruct (pget (frag_path r) src) as [[]|]; try done. injection Hres as <-. by eexists. }
  destruct (pset dest _ data) as [d|] eqn:Hs; [|done]. injection He as <-.
  rewrite (pset_apart dest _ data d q Hs); [done|by eexists|].
  destruct (apart_or dest q) as [H|[(x & -> & Hx)|H]]; [by destruct Hq| |done].
  rewrite pget_app, Hg in Ho. destruct x; [done|]. by cbn in Ho.
Qed.
Lemma expand_reaches rs q data d r : q ∈ rs -> (forall rp, rp ∈ rs -> rp <> q -> exists dest, rp = dest ++ ["$ref"] /\ ~ exists ρ, q = dest ++ ρ) ->
  pget q data = Some (TS (SStr r)) -> expand_all F lf path rs data = Some (Ok d) -> exists data1 T, resolve F lf r data1 path = Some (Ok T).
Proof.
  revert data. induction rs as [|rp rs IH]; intros data Hin Hrs Hg He; [by apply elem_of_nil in Hin|].
  cbn [expand_all] in He. destruct (expand_ref F lf path rp data) as [[d1| |]|] eqn:E; try done.
  destruct (decide (rp = q)) as [->|N].
  - unfold expand_ref in E. rewrite Hg in E. destruct (resolve F lf r data path) as [[T| |]|] eqn:R; try done. by exists data, T.
  - apply (IH d1); [|intros rp' Hrp'; apply Hrs; by right| |done].
    + apply elem_of_cons in Hin as [->|Hin]; [done|done].
    + eapply expand_keeps; [apply Hrs; [by left|done]|done|done].
Qed.
Lemma deref_needs o π f τ n d : distinct (TObj o) -> ref_at (TObj o) π (file_ref f τ) -> file_part f -> (τ = [] \/ simple_path τ) -> f_rel F path f <> path ->
  (forall π' r', ref_at (TObj o) π' r' -> π' <> π -> ~ π' `prefix_of` π) ->
  dereference F lf path n (TObj o) = Some (Ok d) -> exists i, lf (f_rel F path f) = Some (Ok i).
Proof.
  intros Hd Hr Hf Hτ Hrel Hout Hde. destruct n as [|n]; [done|]. cbn [dereference] in Hde.
  destruct (expand_all F lf path (find_refs (TObj o)) (TObj o)) as [[d1| |]|] eqn:E; try done.
  assert (pget (π ++ ["$ref"]) (TObj o) = Some (TS (SStr (file_ref f τ)))) as Hg.
  { destruct Hr as (o' & Hr & Ho). rewrite pget_app, (reach_pget _ _ _ Hr). cbn. by rewrite Ho. }
  edestruct (expand_reaches (find_refs (TObj o)) (π ++ ["$ref"]) (TObj o) d1 (file_ref f τ) (find_refs_complete _ _ _ Hr)) as (data1 & T & HT); [|exact Hg|exact E|].
  { intros rp Hrp Hne. apply find_refs_sound in Hrp as (π' & r' & -> & Hr'); [|done]. exists π'. split; [done|].
    assert (π' <> π) as Hn by congruence. intros [ρ Eρ].
    destruct (decide (π' = π ++ ["$ref"])) as [->|Hn2].
    - destruct Hr' as (o1 & Hr1 & _). apply reach_pget in Hr1. destruct Hr as (o' & Hr & Ho). rewrite pget_app, (reach_pget _ _ _ Hr) in Hr1. cbn in Hr1. by rewrite Ho in Hr1.
    - apply (Hout _ _ Hr' Hn). destruct ρ as [|x ρ] using rev_ind; [rewrite app_nil_r in Eρ; congruence|].
      rewrite app_assoc in Eρ. apply app_inj_tail in Eρ as [-> _]. by exists ρ. }
  rewrite resolve_eq in HT. destruct (source_of F lf (file_ref f τ) data1 path) as [[src| |]|] eqn:Hs; try done.
  unfold source_of in Hs. rewrite (file_ref_cut f τ Hf Hτ) in Hs. destruct Hf as (Hf1 & Hf2 & Hf3).
  rewrite decide_False, Hf3, decide_False in Hs by congruence. destruct (lf (f_rel F path f)) as [[i| |]|]; try done. by exists i.
Qed.
End ring.

Lemma ring_set_never F ty fl (S : string -> Prop) : (forall p, S p -> exists q, S q /\ refers_to_file F p q) ->
  forall n p j, S p -> load_schema F ty fl n p <> Some (Ok j).
Proof.
  intros HS. induction n as [|n IH]; intros p j Hp Hl; [done|]. destruct (HS p Hp) as (q & Hq & o & π & f & τ & Hfile & Hd & Hr & Hf & Hτ & Hrel & Hne & Hout).
  cbn [load_schema] in Hl. rewrite Hfile in Hl. destruct (f_valid F p); [|done]. cbn [negb] in Hl.
  destruct (dereference F (load_schema F ty fl n) p (Datatypes.S n) (TObj o)) as [[d| |]|] eqn:E; try done.
  destruct (deref_needs F _ p o π f τ _ d Hd Hr Hf Hτ ltac:(congruence) Hout E) as [i Hi]. rewrite Hrel in Hi. by eapply IH.
Qed.
Lemma cycle_never F ty fl p : leads_to_cycle F p -> forall n j, load_schema F ty fl n p <> Some (Ok j).
Proof.
  intros (c & Hc & Hcc) n j. apply (ring_set_never F ty fl (fun p => exists q, refers_to_file F p q /\ rtc (refers_to_file F) q c)).
  - intros p1 (q & Hpq & Hqc). exists q. split; [|done]. inversion Hqc as [|? q' ? H1 H2]; subst; [|by exists q'].
    inversion Hcc as [? ? H1|? y ? H1 H2]; subst; [by exists c|]. exists y. split; [done|]. by apply tc_rtc.
  - inversion Hc as [|? q' ? H1 H2]; subst; [|by exists q'].
    inversion Hcc as [? ? H1|? y ? H1 H2]; subst; [by exists c|]. exists y. split; [done|]. by apply tc_rtc.
Qed.

(** Which schemas NewTransformer accepts (C24). *)
From stdpp Require Import strings list gmap.
From Coq Require Import ZArith.
From Verif Require Import GoStr Val Conv Instr Heap Schema Build Api SpecPath Den SpecSchema SpecProj SpecRun SpecTrans.
From Verif Require Import BuildL RunL TransL.

Section accept.
Context (W : oracles) (tid : string).

Lemma section_accept r parent :
  (forall t, jlookup "transform" r ≫= jlookup tid = Some t -> t <> TS (SStr "") ->
     exists me delim is, dec_tis W t = Ok (me, delim, Some <$> is)) -> exists ts, section W tid r parent = Ok ts.
Proof.
  unfold section. intros H. destruct (jlookup "transform" r ≫= jlookup tid) as [t|]; [|by eexists].
  assert (t = TS (SStr "") \/ t <> TS (SStr "")) as [->|n]; [|by eexists|].
  { destruct t as [[| | | | |[|c s]|]| | | |]; try (by left); by right. }
  destruct (H t eq_refl n) as (me & delim & is & Hd).
  destruct t as [[| | | | |[|c s]|]| | | |]; try (rewrite Hd; cbn; rewrite all_some_fmap; by eexists). done.
Qed.
Lemma section_accept_inv r parent ts : section W tid r parent = Ok ts ->
  forall t, jlookup "transform" r ≫= jlookup tid = Some t -> t <> TS (SStr "") ->
     exists me delim is, dec_tis W t = Ok (me, delim, Some <$> is).
Proof.
  unfold section. intros H t Ht Hne. rewrite Ht in H.
  assert (rbind (dec_tis W t) (fun d =>
    match all_some d.2 with
    | None => Panic
    | Some is => Ok (Some (d.1.1, d.1.2, rebase parent <$> is))
    end) = Ok ts) as H'.
  { by destruct t as [[| | | | |[|c s]|]| | | |]. }
  clear H. destruct (dec_tis W t) as [[[me delim] is]| |]; try done. cbn in H'.
  destruct (all_some is) as [is'|] eqn:Ha; [|done].
  exists me, delim, is'. do 2 f_equal. clear -Ha. revert is' Ha. induction is as [|[i|] is IH]; intros is'; cbn; [by intros [= <-]| |done].
  destruct (all_some is) as [l|]; [|done]. cbn. intros [= <-]. cbn. f_equal. by apply IH.
Qed.
Lemma reads_buildable σ r p : reads W tid σ r p -> buildable W tid r.
Proof.
  inversion 1 as [? ? jt nl jt' ts Hf Hna Ho Hl Hs|? ? nl ps d ts cs Hf Hp Hne Hs Hd|? ? nl it d ts c Hf Hit Hs Hd]; subst.
  - exists jt, nl. split; [done|]. split; [by eapply section_accept_inv|]. split; [done|]. split.
    + intros Hj. exists []. split; [by apply Ho|done].
    + intros ->. unfold leaf_type in Hl. rewrite decide_True in Hl by done.
      destruct (jlookup "format" r) as [[[]| | | |]|]; try done; [right; by eexists|by left].
  - exists "object", nl. split; [done|]. split; [by eapply section_accept_inv|]. split; [done|]. split; [|done].
    intros _. exists ps. split; [done|]. intros _. destruct d; [right; eauto|by left].
  - exists "array", nl. split; [done|]. split; [by eapply section_accept_inv|]. split; [|done].
    intros _. split; [by eexists|]. destruct d; [right; eauto|by left].
Qed.
Lemma buildable_reads n : forall raw, depth raw <= n ->
  (forall τ r, inst raw τ r -> buildable W tid r /\ well_named1 r) -> forall σ, exists p, reads W tid σ raw p.
Proof.
  induction n as [|n IH]; intros raw Hn H σ; [destruct raw; cbn in Hn; lia|].
  destruct (H [] raw (inst_here raw)) as [(jt & nl & Hf & Hs & Ha & Ho & Hstr) [Hnm Hdk]].
  destruct (decide (jt = "array")) as [->|Hna].
  { destruct (Ha eq_refl) as [[it Hit] Hd].
    destruct (section_accept raw (parent_path (path_of σ) KArray) Hs) as [ts Hts].
    destruct (IH it) with (σ := σ ++ [Star]) as [c Hc].
    { destruct raw; try done. pose proof (assoc_depth _ _ _ Hit). cbn in *. lia. }
    { intros τ r Hr. apply (H (Star :: τ)). by eapply inst_item. }
    destruct Hd as [Hd|[l Hd]]; eexists; [apply (reads_arr W tid σ raw nl it None ts c)|apply (reads_arr W tid σ raw nl it (Some l) ts c)]; done. }
  assert ((jt = "object" /\ jlookup "properties" raw <> Some (TObj [])) \/
          ~ (jt = "object" /\ jlookup "properties" raw <> Some (TObj []))) as [[-> Hne]|Hleaf].
  { destruct (decide (jt = "object")) as [->|]; [|right; by intros [? _]].
    destruct (jlookup "properties" raw) as [[| |[|]| |]|]; try (left; done). right. by intros [_ []]. }
  { destruct (Ho eq_refl) as (ps & Hps & Hd). assert (ps <> []) as Hpne by (intros ->; done).
    destruct (Hnm _ _ Hf Hps) as [Hnd Hpl].
    destruct (section_accept raw (parent_path (path_of σ) KObject) Hs) as [ts Hts].
    assert (exists cs, reads_all W tid σ ps cs) as [cs Hcs].
    { assert (forall k p, (k, p) ∈ ps -> exists c, reads W tid (σ ++ [Nm k]) p c) as Hall.
      { intros k p Hin. apply IH.
        - destruct raw; try done. pose proof (assoc_depth _ _ _ Hps) as Hdp.
          assert (depth p < depth (TObj ps)).
          { cbn [depth]. clear -Hin. induction ps as [|[k' p'] ps IH]; [by apply elem_of_nil in Hin|].
            cbn. apply elem_of_cons in Hin as [[= <- <-]|Hin]; [lia|]. specialize (IH Hin). lia. }
          cbn in *. lia.
        - intros τ r Hr. apply (H (Nm k :: τ)). by eapply inst_prop. }
      clear -Hall. induction ps as [|[k p] ps IH]; [eexists; constructor|].
      destruct IH as [cs Hcs]; [intros; apply Hall; by constructor|].
      destruct (Hall k p) as [c Hc]; [constructor|]. eexists. by constructor. }
    destruct (Hd Hpne) as [Hd'|[kvs Hd']]; eexists; [apply (reads_obj W tid σ raw nl ps None ts cs)|apply (reads_obj W tid σ raw nl ps (Some kvs) ts cs)]; done. }
  destruct (section_accept raw (parent_path (path_of σ) KScalar) Hs) as [ts Hts].
  assert (exists jt', leaf_type raw jt = Ok jt') as [jt' Hl].
  { unfold leaf_type. destruct (decide (jt = "string")) as [->|]; [|by eexists].
    destruct (Hstr eq_refl) as [->|[s ->]]; by eexists. }
  eexists. eapply reads_leaf; try done. intros ->. 
  destruct (Ho eq_refl) as (ps & Hps & _). destruct ps; [done|]. exfalso. apply Hleaf. split; [done|]. by rewrite Hps.
Qed.

Lemma accepted props items : well_named props items ->
  (exists s i, new_transformer W tid props items st0 = (s, Ok i)) <->
  (is_Some props /\ items = None \/ props = None /\ is_Some items) /\
  forall σ r, sinst (default [] props) items σ r -> buildable W tid r.
Proof.
  intros Hw. split.
  - intros (s & i & Hn). destruct (new_reads W tid props items s i Hw Hn) as (p & Hp & _). split.
    + unfold schema_reads in Hp. destruct props, items; try done; [left|right]; eauto.
    + intros σ r Hr. destruct (schema_at W tid props items p σ r Hp Hw Hr) as (p' & _ & Hp'). by eapply reads_buildable.
  - intros [[[[ps ->] ->]|[-> [it ->]]] H].
    + assert (exists cs, reads_all W tid [] ps cs) as [cs Hcs].
      { assert (forall k p, (k, p) ∈ ps -> exists c, reads W tid ([] ++ [Nm k]) p c) as Hall.
        { intros k p Hin. apply (buildable_reads (depth p) p); [done|]. intros τ r Hr.
          assert (sinst ps None (Nm k :: τ) r) as Hsi by (by eapply sinst_prop). split; [by eapply H|]. by eapply Hw. }
        clear -Hall. induction ps as [|[k p] ps IH]; [eexists; constructor|].
        destruct IH as [cs Hcs]; [intros; apply Hall; by constructor|].
        destruct (Hall k p) as [c Hc]; [constructor|]. eexists. by constructor. }
      destruct (build_ok W tid ps cs st0 (well_named_good _ _ Hw) Hcs stok0 fok0) as (s & i & Hn & _). eauto.
    + destruct (buildable_reads (depth it) it ltac:(done)) with (σ := [Star]) as [c Hc].
      { intros τ r Hr. assert (sinst [] (Some it) (Star :: τ) r) as Hsi by (by eapply sinst_item). split; [by eapply H|]. by eapply Hw. }
      destruct (build_items_ok W tid it c st0 Hc stok0 fok0) as (s & i & Hn & _). eauto.
Qed.
End accept.

(** Dereferencing terminates if references form no cycle. *)
From stdpp Require Import strings list gmap.
From Coq Require Import Ascii ZArith.
From Verif Require Import GoStr GoStrL Val Schema Inst Load SpecLoad SpecRef FlatL RefL DerefL.
From Verif Require Den HeapL.

Lemma remarshal_obj v o : remarshal v = TObj o <-> v = TObj o.
Proof. destruct v as [[]| | | |]; cbn; split; congruence. Qed.
Lemma remarshal_arr v l : remarshal v = TArr l <-> v = TArr l.
Proof. destruct v as [[]| | | |]; cbn; split; congruence. Qed.
Lemma remarshal_distinct v : distinct v -> distinct (remarshal v).
Proof. by destruct v as [[]| | | |]. Qed.
Lemma overlay_assoc k S T : NoDup S.*1 ->
  assoc k (overlay S T) = match assoc k S with Some v => Some (remarshal v) | None => assoc k T end.
Proof.
  revert T. induction S as [|[k' v] S IH]; intros T Hnd; [done|]. cbn in Hnd. apply NoDup_cons in Hnd as [H1 H2].
  cbn [overlay foldl fst snd]. change (foldl _ ?a S) with (overlay S a). rewrite IH by done. cbn [assoc]. destruct (decide (k' = k)) as [->|N].
  - rewrite (assoc_notin _ _ H1). apply set_assoc_same.
  - rewrite set_assoc_other by done. done.
Qed.
Lemma set_assoc_forall (P : string * tree -> Prop) k v kvs : P (k, v) -> Forall P kvs -> Forall P (set_assoc k v kvs).
Proof.
  intros Hv H. induction H as [|[k' v'] kvs Hx H IH]; [by repeat constructor|]. cbn. destruct (decide (k' = k)) as [->|]; by constructor.
Qed.
Lemma set_assoc_distinct k v kvs : distinct v -> distinct (TObj kvs) -> distinct (TObj (set_assoc k v kvs)).
Proof.
  intros Hv [H1 H2]%distinct_obj. apply distinct_obj. split; [by apply set_assoc_nodup|]. by apply set_assoc_forall.
Qed.
Lemma overlay_distinct S T : distinct (TObj S) -> distinct (TObj T) -> distinct (TObj (overlay S T)).
Proof.
  intros [_ HS]%distinct_obj. revert T. induction HS as [|[k v] S Hv HS IH]; intros T HT; [done|]. cbn [overlay foldl fst snd].
  apply IH. apply set_assoc_distinct; [by apply remarshal_distinct|done].
Qed.
Lemma del_assoc_distinct k o : distinct (TObj o) -> distinct (TObj (del_assoc k o)).
Proof.
  intros [H1 H2]%distinct_obj. apply distinct_obj. split; [by apply del_assoc_nodup|]. rewrite Forall_forall in *. intros kv Hkv. apply H2. by eapply del_assoc_sub.
Qed.
Lemma pset_distinct p v t t' : distinct v -> distinct t -> (exists old, pget p t = Some old) -> pset p v t = Some t' -> distinct t'.
Proof.
  intros Hv. revert t t'. induction p as [|k p IH]; intros t t' Ht [old Ho] H; [cbn in *; congruence|]. cbn in *. destruct t as [s|l|kvs|n|l]; try done.
  - destruct (item_at k 0 l) as [[i x]|] eqn:E; [|done]. cbn in *. destruct (pset p v x) as [t1|] eqn:E1; [|done]. injection H as <-.
    apply distinct_arr. apply Forall_insert; [by apply distinct_arr|]. apply item_at_inv in E as (n & _ & Hn & _). eapply IH; [|by eauto..]. by eapply distinct_item.
  - destruct (assoc k kvs) as [w|] eqn:E; [|done]. cbn in *. destruct (pset p v w) as [t1|] eqn:E1; [|done]. injection H as <-.
    apply set_assoc_distinct; [|done]. eapply IH; [|by eauto..]. by eapply distinct_assoc.
Qed.

(** ** references of changed objects *)
Lemma ref_obj_here o r : ref_at (TObj o) [] r <-> assoc "$ref" o = Some (TS (SStr r)).
Proof. split; [intros (o' & H & Ho'); by inversion H; subst|]. intros H. exists o. split; [constructor|done]. Qed.
Lemma ref_obj_below o o' k ρ r : (forall x, assoc k o = Some (TObj x) -> assoc k o' = Some (TObj x)) ->
  (forall l, assoc k o = Some (TArr l) -> assoc k o' = Some (TArr l)) -> ref_at (TObj o) (k :: ρ) r -> ref_at (TObj o') (k :: ρ) r.
Proof.
  intros H1 H2 (x & H & Hx). exists x. split; [|done]. inversion H; subst; [eapply reach_member|eapply reach_item]; eauto.
Qed.
Lemma ref_set_scalar k s o ρ r : k <> "$ref" -> ref_at (TObj (set_assoc k (TS s) o)) ρ r -> ref_at (TObj o) ρ r.
Proof.
  intros Hk H. destruct ρ as [|k' ρ].
  - apply ref_obj_here. apply ref_obj_here in H. by rewrite set_assoc_other in H.
  - eapply ref_obj_below; [..|exact H]; (destruct (decide (k' = k)) as [->|N]; [by rewrite set_assoc_same|by rewrite set_assoc_other]).
Qed.
Lemma ref_overlay S T ρ r : NoDup S.*1 -> assoc "$ref" S = None -> ref_at (TObj (overlay S T)) ρ r ->
  ref_at (TObj T) ρ r \/ exists k ρ', ρ = k :: ρ' /\ ref_at (TObj S) ρ r.
Proof.
  intros Hnd Hn H. destruct ρ as [|k ρ].
  - left. apply ref_obj_here. apply ref_obj_here in H. rewrite overlay_assoc, Hn in H by done. done.
  - destruct (assoc k S) as [v|] eqn:E.
    + right. exists k, ρ. split; [done|]. eapply ref_obj_below; [..|exact H]; intros x; rewrite overlay_assoc, E by done; intros [= Hx].
      * by apply remarshal_obj in Hx as ->.
      * by apply remarshal_arr in Hx as ->.
    + left. eapply ref_obj_below; [..|exact H]; intros x; by rewrite overlay_assoc, E.
Qed.
Lemma ref_overlay_keep S T k ρ r : NoDup S.*1 -> ref_at (TObj S) (k :: ρ) r -> ref_at (TObj (overlay S T)) (k :: ρ) r.
Proof. intros Hnd H. eapply ref_obj_below; [..|exact H]; intros x Hx; by rewrite overlay_assoc, Hx. Qed.
Lemma ref_del o s k ρ r : NoDup o.*1 -> assoc "$ref" o = Some (TS s) -> ref_at (TObj (del_assoc "$ref" o)) (k :: ρ) r <-> ref_at (TObj o) (k :: ρ) r.
Proof.
  intros Hnd Ho. split; intros H; (eapply ref_obj_below; [..|exact H]); intros x; destruct (decide (k = "$ref")) as [->|N];
    rewrite ?del_assoc_same, ?Ho by done; try done; by rewrite del_assoc_other.
Qed.

(** the document after expanding the reference with members [o] at [dest] to the object [T] *)
Definition expanded (dest : list string) (o T : list (string * tree)) (data data' : tree) : Prop :=
  (dest = [] /\ data' = TObj (del_assoc "$ref" o)) \/
  (dest <> [] /\ pset dest (TObj (overlay (del_assoc "$ref" o) T)) data = Some data').
Lemma reach_nodup data dest o : distinct data -> reach data dest o -> NoDup o.*1.
Proof. intros Hd Hr. by destruct (proj1 (distinct_obj _) (reach_distinct _ _ _ Hd Hr)). Qed.
Lemma reach_nil data o : reach data [] o -> data = TObj o.
Proof. intros Hr. by inversion Hr. Qed.
Section step.
Context (data data' : tree) (dest : list string) (o T : list (string * tree)) (r0 : string).
Context (Hd : distinct data) (Hr : reach data dest o) (Ho : assoc "$ref" o = Some (TS (SStr r0))) (He : expanded dest o T data data').
Lemma step_from π r : ref_at data' π r ->
  (ref_at data π r /\ π <> dest) \/ (dest <> [] /\ exists ρ, π = dest ++ ρ /\ ref_at (TObj T) ρ r).
Proof.
  pose proof (reach_nodup _ _ _ Hd Hr) as onodup. intros H. destruct He as [[-> ->]|[Hne Hs]].
  - left. rewrite (reach_nil _ _ Hr). destruct π as [|k π].
    + apply ref_obj_here in H. rewrite del_assoc_same in H by apply onodup. done.
    + split; [|done]. by apply (ref_del _ _ _ _ _ onodup Ho).
  - destruct (extends_dec π dest) as [[ρ ->]|Hx].
    + assert (H' : ref_at (TObj (overlay (del_assoc "$ref" o) T)) ρ r).
      { destruct H as (x & Hx & Hx'). exists x. split; [|done]. eapply reach_below; [done|].
        rewrite <- (app_nil_r dest). by rewrite (pset_get dest _ data data' []) by eauto using reach_pget. }
      apply ref_overlay in H' as [H'|(k & ρ' & -> & H')]; [|..|by apply del_assoc_nodup, onodup|by apply del_assoc_same, onodup].
      * right. split; [done|]. by exists ρ.
      * left. apply (ref_del _ _ _ _ _ onodup Ho) in H'. destruct H' as (x & Hx & Hx'). split.
        -- exists x. split; [|done]. by eapply reach_app.
        -- intros E. rewrite <- (app_nil_r dest) in E at 2. by apply app_inv_head in E.
    + left. destruct H as (x & Hx' & Hx''). destruct (reach_set _ _ _ _ _ π Hr Hs Hx) as [_ HB]. destruct (HB _ Hx') as (y & Hy & Hyx).
      split; [exists y; split; [done|by apply Hyx]|]. intros ->. apply Hx. exists []. by rewrite app_nil_r.
Qed.
Lemma step_keep π r : ref_at data π r -> π <> dest -> ref_at data' π r.
Proof.
  pose proof (reach_nodup _ _ _ Hd Hr) as onodup. intros H Hne. destruct He as [[-> ->]|[Hne' Hs]].
  - destruct π as [|k π]; [done|]. rewrite (reach_nil _ _ Hr) in H. by apply (ref_del _ _ _ _ _ onodup Ho).
  - destruct (extends_dec π dest) as [[ρ ->]|Hx].
    + destruct H as (x & Hx & Hx'). pose proof (reach_below _ _ _ _ _ Hx (reach_pget _ _ _ Hr)) as Hb. destruct ρ as [|k ρ]; [by rewrite app_nil_r in Hne|].
      assert (H : ref_at (TObj (overlay (del_assoc "$ref" o) T)) (k :: ρ) r).
      { apply ref_overlay_keep; [by apply del_assoc_nodup, onodup|]. apply (ref_del _ _ _ _ _ onodup Ho). by exists x. }
      destruct H as (y & Hy & Hy'). exists y. split; [|done]. eapply reach_app; [|done].
      clear -Hr Hs. revert data' Hs. induction Hr as [o0|kvs k o0 dest old Hk H IH|kvs k l i o0 dest old Hk Hi H IH]; intros data' Hs.
      * cbn in Hs. injection Hs as <-. constructor.
      * cbn in Hs. rewrite Hk in Hs. destruct (pset dest _ (TObj o0)) as [t1|] eqn:E1; [|done]. cbn in Hs. injection Hs as <-.
        destruct (pset_obj _ _ _ _ E1) as [o1 ->]. eapply reach_member; [apply set_assoc_same|]. by apply IH.
      * cbn in Hs. rewrite Hk in Hs. cbn in Hs. pose proof (item_at_key i 0 _ l Hi) as Ei. cbn in Ei. rewrite Ei in Hs. cbn in Hs.
        destruct (pset dest _ (TObj o0)) as [t1|] eqn:E1; [|done]. cbn in Hs. injection Hs as <-.
        destruct (pset_obj _ _ _ _ E1) as [o1 ->]. eapply reach_item; [apply set_assoc_same| |by apply IH]. apply list_lookup_insert. by eapply lookup_lt_Some.
    + destruct H as (x & Hx' & Hx''). destruct (reach_set _ _ _ _ _ π Hr Hs Hx) as [HA _]. destruct (HA _ Hx') as (y & Hy & Hyx).
      exists y. split; [done|by apply Hyx].
Qed.
Lemma step_distinct : distinct (TObj T) -> distinct data'.
Proof.
  intros HT. destruct He as [[-> ->]|[Hne Hs]].
  - apply del_assoc_distinct. exact (reach_distinct _ _ _ Hd Hr).
  - eapply pset_distinct; [| |by eauto using reach_pget|exact Hs]; [|done]. apply overlay_distinct; [|done]. apply del_assoc_distinct. exact (reach_distinct _ _ _ Hd Hr).
Qed.
Lemma step_top : exists o', data' = TObj o'.
Proof.
  destruct He as [[-> ->]|[Hne Hs]]; [by eexists|]. assert (exists x, data = TObj x) as [x ->] by (inversion Hr; by eexists). by eapply pset_obj.
Qed.
(** the object at [τ] *)
Lemma step_target τ oτ : τ <> [] -> pget τ data = Some (TObj oτ) -> (forall ρ, τ = dest ++ ρ -> dest <> [] -> ρ <> [] -> False) ->
  exists oτ', pget τ data' = Some (TObj oτ') /\
    forall ρ r, ref_at (TObj oτ') ρ r ->
      ref_at (TObj oτ) ρ r \/ (exists ρ0, ref_at (TObj oτ) ρ0 r0) /\ exists ρ1, ref_at (TObj T) ρ1 r.
Proof.
  pose proof (reach_nodup _ _ _ Hd Hr) as onodup. intros Hτ Hg Hnp. destruct He as [[-> ->]|[Hne Hs]].
  - rewrite (reach_nil _ _ Hr) in Hg. destruct τ as [|k τ]; [done|]. exists oτ. split; [|by left]. cbn in *.
    rewrite del_assoc_other; [done|]. intros ->. rewrite Ho in Hg. cbn in Hg. by destruct τ.
  - destruct (apart_or dest τ) as [[ρ E]|[[ρ [E Hρ]]|Ha]].
    + destruct ρ as [|k ρ]; [|by destruct (Hnp _ E)]. rewrite app_nil_r in E. subst τ. rewrite (reach_pget _ _ _ Hr) in Hg. injection Hg as <-.
      eexists. split; [rewrite <- (app_nil_r dest); by rewrite (pset_get dest _ data data' []) by eauto using reach_pget|].
      intros ρ r H. apply ref_overlay in H as [H|(k & ρ' & -> & H)]; [|..|by apply del_assoc_nodup, onodup|by apply del_assoc_same, onodup].
      * right. split; [|by eexists]. exists []. by apply ref_obj_here.
      * left. by apply (ref_del _ _ _ _ _ onodup Ho).
    + subst dest. pose proof (reach_below _ _ _ _ _ Hr Hg) as Hb.
      rewrite pset_app, Hg in Hs by eauto. destruct (pset ρ _ (TObj oτ)) as [t1|] eqn:E1; [|done]. destruct (pset_obj _ _ _ _ E1) as [o1 ->].
      exists o1. split; [rewrite <- (app_nil_r τ); by rewrite (pset_get τ _ data data' []) by eauto|].
      intros π r H. assert (H2 : (ref_at (TObj oτ) π r) \/ exists ρ1, ref_at (TObj T) ρ1 r).
      { destruct (extends_dec π ρ) as [[ρ1 ->]|Hx].
        - assert (H' : ref_at (TObj (overlay (del_assoc "$ref" o) T)) ρ1 r).
          { destruct H as (x & Hx & Hx'). exists x. split; [|done]. eapply reach_below; [done|].
            rewrite <- (app_nil_r ρ). by rewrite (pset_get ρ _ (TObj oτ) (TObj o1) []) by eauto using reach_pget. }
          apply ref_overlay in H' as [H'|(k & ρ' & -> & H')]; [|..|by apply del_assoc_nodup, onodup|by apply del_assoc_same, onodup]; [right; by eexists|left].
          apply (ref_del _ _ _ _ _ onodup Ho) in H'. destruct H' as (x & Hx & Hx'). exists x. split; [|done]. by eapply reach_app.
        - left. destruct H as (x & Hx' & Hx''). destruct (reach_set _ _ _ _ _ π Hb E1 Hx) as [_ HB]. destruct (HB _ Hx') as (y & Hy & Hyx).
          exists y. split; [done|by apply Hyx]. }
      destruct H2 as [H2|[ρ1 H2]]; [by left|right]. split; [|by eexists]. exists ρ, o. done.
    + exists oτ. split; [|by left]. by rewrite (pset_apart dest _ data data' τ) by eauto using reach_pget.
Qed.
End step.

(** ** how references are read *)
Lemma cut_hash_free f t : free_of "#" f = true -> cut_hash (f +:+ String "#" t) = (f, Some t).
Proof.
  induction f as [|a f IH]; intros H; [done|]. cbn in H. apply andb_true_iff in H as [H1 H2]. rewrite sapp_cons. cbn [cut_hash].
  rewrite decide_False; [by rewrite IH|]. intros ->. by rewrite bool_decide_true in H1.
Qed.
Lemma cut_hash_none f : free_of "#" f = true -> cut_hash f = (f, None).
Proof.
  induction f as [|a f IH]; intros H; [done|]. cbn in H. apply andb_true_iff in H as [H1 H2]. cbn [cut_hash].
  rewrite decide_False; [by rewrite IH|]. intros ->. by rewrite bool_decide_true in H1.
Qed.
Lemma join_ends τ : simple_path τ -> exists a s b y, join "/" τ = String a s /\ a <> "/"%char /\ join "/" τ = b +:+ y /\ y <> "" /\ free_of "/" y = true.
Proof.
  intros [Hne HF]. induction HF as [|c τ [Hc Hf] HF IH]; [done|]. destruct (decide (τ = [])) as [->|N].
  - cbn. destruct c as [|a c]; [done|]. exists a, c, "", (String a c). split; [done|]. split; [|done]. intros ->. cbn in Hf. by rewrite bool_decide_true in Hf.
  - rewrite join_cons by done. destruct (IH N) as (a & s & b & y & H1 & H2 & H3 & H4 & H5). destruct c as [|a' c]; [done|].
    eexists a', _, _, y. split; [by rewrite sapp_cons|]. split; [|split; [|done]].
    + intros ->. cbn in Hf. by rewrite bool_decide_true in Hf.
    + rewrite H3. rewrite !app_assoc_s. done.
Qed.
Lemma trim_slash_join τ : simple_path τ -> trim "/" (String "/" (join "/" τ)) = join "/" τ.
Proof.
  intros H. destruct (join_ends τ H) as (a & s & b & y & H1 & H2 & H3 & H4 & H5). unfold trim. cbn [trim_left]. rewrite decide_True by done.
  rewrite H1. cbn [trim_left]. rewrite decide_False by done. rewrite <- H1, H3. by apply trim_right_free.
Qed.
Lemma split_simple τ : simple_path τ -> split (join "/" τ) "/" = τ.
Proof. intros [Hne HF]. apply (split_join_chr "/" τ Hne). eapply Forall_impl; [exact HF|]. intros c [_ H]. exact H. Qed.
Lemma simple_ne τ : simple_path τ -> join "/" τ <> "".
Proof. intros H. destruct (join_ends τ H) as (a & s & b & y & H1 & _). by rewrite H1. Qed.
Lemma frag_local f τ : free_of "#" f = true -> simple_path τ -> cut_hash (f +:+ local_ref τ) = (f, Some (String "/" (join "/" τ))) /\ frag_path (f +:+ local_ref τ) = τ.
Proof.
  intros Hf Hτ. assert (E : cut_hash (f +:+ local_ref τ) = (f, Some (String "/" (join "/" τ)))).
  { unfold local_ref. change ("#/" +:+ join "/" τ) with (String "#" (String "/" (join "/" τ))). by apply cut_hash_free. }
  split; [done|]. unfold frag_path. rewrite E. cbn [snd]. rewrite trim_slash_join by done. rewrite decide_False by (by apply simple_ne). by apply split_simple.
Qed.
Section deref.
Context (F : files) (lf : string -> option (res instance)) (path : string).
Lemma own_resolves r τ data : own_ref F path r τ -> source_of F lf r data path = Some (Ok data) /\ frag_path r = τ.
Proof.
  intros [Hτ [->|(f & (Hf1 & Hf2 & Hf3) & Hrel & ->)]].
  - destruct (frag_local "" τ eq_refl Hτ) as [H1 H2]. rewrite sapp_nil_l in *. split; [|done]. unfold source_of. rewrite H1. cbn [fst]. by rewrite decide_True.
  - assert (E : file_ref f τ = f +:+ local_ref τ) by (destruct Hτ as [Hne _]; by destruct τ). rewrite E.
    destruct (frag_local f τ Hf2 Hτ) as [H1 H2]. split; [|done]. unfold source_of. rewrite H1. cbn [fst]. rewrite decide_False, Hf3 by done. by rewrite decide_True.
Qed.
Lemma other_resolves r src τ data : other_ref F lf path r src τ -> source_of F lf r data path = Some (Ok src) /\ frag_path r = τ.
Proof.
  intros (f & i & (Hf1 & Hf2 & Hf3) & Hrel & Hl & -> & Hτ & ->).
  assert (E : (cut_hash (file_ref f τ)).1 = f /\ frag_path (file_ref f τ) = τ).
  { destruct Hτ as [->|Hτ].
    - cbn [file_ref]. unfold frag_path. by rewrite cut_hash_none.
    - assert (E : file_ref f τ = f +:+ local_ref τ) by (destruct Hτ as [Hne _]; by destruct τ). rewrite E. destruct (frag_local f τ Hf2 Hτ) as [H1 H2]. by rewrite H1. }
  destruct E as [E1 E2]. split; [|done]. unfold source_of. rewrite E1. rewrite decide_False, Hf3 by done. rewrite decide_False by congruence. by rewrite Hl.
Qed.
Context (rk : string -> nat) (K : string -> Prop).
Lemma known_resolves data r : distinct data -> known F lf path data rk K r ->
  exists T, resolve F lf r data path = Some (Ok (TObj T)) /\ distinct (TObj T) /\
    (forall π r', ref_at (TObj T) π r' -> K r' /\ rk r' < rk r).
Proof.
  intros Hd H. assert (Hx : exists src o, source_of F lf r data path = Some (Ok src) /\ pget (frag_path r) src = Some (TObj o) /\ distinct (TObj o) /\
    (forall π r', ref_at (TObj o) π r' -> K r' /\ rk r' < rk r)).
  { destruct H as [τ o Hown Hg _ Hr|src τ o Hoth Hg Hdo Hr].
    - destruct (own_resolves r τ data Hown) as [H1 <-]. exists data, o. split; [done|]. split; [done|]. split; [by eapply pget_distinct|done].
    - destruct (other_resolves r src τ data Hoth) as [H1 <-]. by exists src, o. }
  destruct Hx as (src & o & H1 & H2 & H3 & H4). eexists. split; [rewrite resolve_eq, H1, H2; done|]. split.
  - by apply set_assoc_distinct.
  - intros π r' Hr. apply ref_set_scalar in Hr; [|done]. by eapply H4.
Qed.
Lemma own_path_ne r τ : own_ref F path r τ -> τ <> [].
Proof. by intros [[H _] _]. Qed.

(** one step keeps everything known *)
Lemma known_step data data' dest o T r0 r : distinct data -> reach data dest o -> assoc "$ref" o = Some (TS (SStr r0)) ->
  expanded dest o T data data' -> (forall π r', ref_at (TObj T) π r' -> K r' /\ rk r' < rk r0) ->
  known F lf path data rk K r -> known F lf path data' rk K r.
Proof.
  intros Hd Hr Ho He HT [τ oτ Hown Hg Hnb Hrefs|src τ o' Hoth Hg Hdo Hrefs]; [|by eapply known_other].
  assert (Hnp : forall ρ, τ = dest ++ ρ -> dest <> [] -> ρ <> [] -> False).
  { intros ρ E Hne Hρ. apply (Hnb dest ρ r0 E Hne Hρ). by exists o. }
  destruct (step_target data data' dest o T r0 Hd Hr Ho He τ oτ (own_path_ne _ _ Hown) Hg Hnp) as (oτ' & Hg' & Href).
  eapply (known_own _ _ _ _ _ _ _ τ oτ'); [done|done| |].
  - intros π ρ r' E Hπ Hρ H. apply (step_from data data' dest o T r0 Hd Hr Ho He) in H as [[H _]|(Hne & ρ1 & -> & _)].
    + by apply (Hnb π ρ r' E Hπ Hρ).
    + apply (Hnp (ρ1 ++ ρ)); [by rewrite app_assoc|done|]. intros Ex. apply app_eq_nil in Ex as [_ Ex]. done.
  - intros π r' H. destruct (Href π r' H) as [H'|[(ρ0 & H0) (ρ1 & H1)]]; [by eapply Hrefs|].
    destruct (Hrefs _ _ H0) as [_ Hlt]. destruct (HT _ _ H1) as [HK Hlt1]. split; [done|]. lia.
Qed.
(** one pass, keeping an invariant that every step keeps *)
Context (Inv : tree -> Prop).
Context (HInv : forall data data' dest o T r0, distinct data -> reach data dest o -> assoc "$ref" o = Some (TS (SStr r0)) ->
  resolve F lf r0 data path = Some (Ok (TObj T)) -> expanded dest o T data data' -> K r0 -> (forall r, K r -> known F lf path data rk K r) ->
  Inv data -> Inv data').
Lemma pass refs m data : Inv data -> distinct data -> (exists x, data = TObj x) -> NoDup refs ->
  (forall π r, ref_at data π r -> K r) -> (forall r, K r -> known F lf path data rk K r) ->
  (forall p, p ∈ refs -> exists π r, p = π ++ ["$ref"] /\ ref_at data π r) ->
  (forall π r, ref_at data π r -> rk r < S m) -> (forall π r, ref_at data π r -> π ++ ["$ref"] ∉ refs -> rk r < m) ->
  exists data', expand_all F lf path refs data = Some (Ok data') /\ distinct data' /\ (exists x, data' = TObj x) /\
    (forall π r, ref_at data' π r -> K r) /\ (forall r, K r -> known F lf path data' rk K r) /\
    (forall π r, ref_at data' π r -> rk r < m) /\ Inv data'.
Proof.
  revert data. induction refs as [|p refs IH]; intros data HI Hd Htop Hnd HK Hkn Hin Hm Hm'.
  - exists data. split; [done|]. split; [done|]. split; [done|]. split; [done|]. split; [done|]. split; [|done]. intros π r H. eapply Hm'; [done|]. apply not_elem_of_nil.
  - apply NoDup_cons in Hnd as [Hp Hnd]. destruct (Hin p ltac:(by left)) as (dest & r0 & -> & o & Hr & Ho).
    destruct (known_resolves data r0 Hd (Hkn _ (HK dest r0 ltac:(by exists o)))) as (T & HT1 & HT2 & HT3).
    assert (Hex : exists data', expand_ref F lf path (dest ++ ["$ref"]) data = Some (Ok data') /\ expanded dest o T data data').
    { rewrite (expand_ref_eq F lf path dest data r0 o (reach_pget _ _ _ Hr) Ho), HT1. destruct (decide (dest = [])) as [->|N].
      - eexists. split; [done|]. by left.
      - destruct (pset_some dest (TObj (overlay (del_assoc "$ref" o) T)) _ _ (reach_pget _ _ _ Hr)) as [d Hs]. rewrite Hs. exists d. split; [done|]. right. done. }
    destruct Hex as (data' & Hx & He). cbn [expand_all]. rewrite Hx.
    assert (Hr0 : ref_at data dest r0) by (by exists o).
    apply IH.
    + eapply HInv; [exact Hd|exact Hr|exact Ho|exact HT1|exact He|by eapply HK|exact Hkn|exact HI].
    + eapply (step_distinct data data' dest o T); done.
    + eapply (step_top data data' dest o T); done.
    + done.
    + intros π r H. apply (step_from data data' dest o T r0 Hd Hr Ho He) in H as [[H _]|(Hne & ρ1 & -> & H)]; [by eapply HK|by eapply HT3].
    + intros r Hk. eapply known_step; [exact Hd|exact Hr|exact Ho|exact He|exact HT3|by apply Hkn].
    + intros p' Hp'. destruct (Hin p' ltac:(by right)) as (π & r & -> & H). exists π, r. split; [done|].
      apply (step_keep data data' dest o T r0 Hd Hr Ho He); [done|]. intros ->. done.
    + intros π r H. apply (step_from data data' dest o T r0 Hd Hr Ho He) in H as [[H _]|(Hne & ρ1 & -> & H)]; [by eapply Hm|].
      destruct (HT3 _ _ H) as [_ Hlt]. specialize (Hm _ _ Hr0). lia.
    + intros π r H Hni. apply (step_from data data' dest o T r0 Hd Hr Ho He) in H as [[H Hne]|(Hne & ρ1 & -> & H)].
      * eapply Hm'; [done|]. intros [E|E]%elem_of_cons; [|done]. by apply app_inj_2 in E as [E _].
      * destruct (HT3 _ _ H) as [_ Hlt]. specialize (Hm _ _ Hr0). lia.
Qed.
Lemma deref_ends m data n : Inv data -> distinct data -> (exists x, data = TObj x) ->
  (forall π r, ref_at data π r -> K r) -> (forall r, K r -> known F lf path data rk K r) ->
  (forall π r, ref_at data π r -> rk r < m) -> m < n ->
  exists o, dereference F lf path n data = Some (Ok (TObj o)) /\ find_refs (TObj o) = [] /\ distinct (TObj o) /\ Inv (TObj o).
Proof.
  revert data n. induction m as [|m IH]; intros data n HI Hd [x ->] HK Hkn Hm Hn; (destruct n as [|n]; [lia|]).
  - assert (E : find_refs (TObj x) = []).
    { destruct (find_refs (TObj x)) as [|p l] eqn:E; [done|]. exfalso. destruct (find_refs_sound x p Hd) as (π & r & _ & Hr); [rewrite E; by left|].
      specialize (Hm _ _ Hr). lia. }
    exists x. cbn [dereference]. rewrite E. cbn [expand_all]. rewrite decide_True by done. done.
  - destruct (pass (find_refs (TObj x)) m (TObj x)) as (d & He & Hd' & [y ->] & HK' & Hkn' & Hm' & HI'); try done.
    + by eexists.
    + by apply find_refs_nodup.
    + intros p Hp. by apply find_refs_sound.
    + intros π r H Hni. destruct Hni. by eapply find_refs_complete.
    + cbn [dereference]. rewrite He. destruct (decide (find_refs (TObj y) = [])) as [E|N]; [by eexists|].
      apply IH; try done; [by eexists|lia].
Qed.
End deref.

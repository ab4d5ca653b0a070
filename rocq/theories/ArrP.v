(** Whole JSON transforms with array transforms and defaults: from the raw schema to the document. *)
From stdpp Require Import strings list gmap.
From Coq Require Import ZArith Lia.
From Verif Require Import GoStr GoStrL Val Conv Instr Heap Schema Build Api SpecPath PathL Den SpecSchema Param HeapL Refine Top BuildL
  SpecProj ProjL SpecRun RunL SpecArr ArrT ArrH ArrW ArrD ArrE.

(** ** one document *)
Section top.
Context (W : oracles) (HW : jpath_parametric W).
Context (perm : nat -> nat -> list nat) (Hperm : orders perm).
Context (ws : list (list string)).
Context (Hws : forall w w', w ∈ ws -> w' ∈ ws -> w = w' \/ apart w w').
Lemma sp_closed p k : sp ws (p ++ [k]) -> sp ws p.
Proof.
  unfold sp. rewrite !Exists_exists. intros (w & Hw & [r Hr] & Hne). exists w. split; [done|]. split.
  - exists (k :: r). by rewrite Hr, <- app_assoc.
  - intros ->. apply (f_equal length) in Hr. rewrite !app_length in Hr. cbn in Hr. lia.
Qed.
Lemma json_transform_jden i p doc s : wf_paths p -> jok ws [] p [] -> distinct_keys doc -> stok s ->
  irel (hp s) (froms s) i p ->
  let r := base_json_transform W perm FJson i doc s in
  step s r.1 /\ outcome W (jden W p doc []) r.2.
Proof.
  intros Hwf Hj Hdoc Hs Hi. cbv zeta. unfold base_json_transform, Heap.mbind.
  destruct (load_inv doc (sp ws) sp_closed ltac:(intros p'; destruct (sp_dec ws p'); auto) s (hp s) Hdoc Hs ltac:(done))
    as (Hst & v & G & h & Hv & Hvis & Hinv & HG).
  destruct (load doc s) as [s1 r1]. cbn [fst snd] in *. subst r1.
  assert (Hi1 : irel h (froms s1) i p).
  { destruct Hst as (_ & _ & _ & ->). eapply irel_mono; [apply Hvis|done]. }
  destruct (exec_jden W HW perm Hperm ws Hws p Hwf [] i G s1 h v doc [] Hj Hi1 Hinv) as [Hfr Hres].
  destruct (exec W perm FJson i v [] s1) as [s2 r2]. cbn [fst snd] in *.
  assert (Hstep : step s s2).
  { destruct Hst as (A1 & A2 & A3 & A4), Hfr as (B1 & B2 & B3 & B4). split; [done|]. split; [|split; [lia|congruence]].
    apply map_subseteq_spec. intros x c Hx. apply B4; [by eapply lookup_weaken|]. intros q Hq. apply HG in Hq.
    assert (x < nxt s); [|lia]. apply Hs. by eexists. }
  destruct (jden W p doc []) as [t|].
  - destruct Hres as (a & h' & G' & cur' & -> & _ & _ & Hinv' & _ & Hr). rewrite (marshal_spec W s2 a t); [done|].
    eapply repr_mono; [|exact Hr]. apply Hinv'.
  - destruct Hres as [-> | ->]; cbn; auto.
Qed.
End top.

(** ** the relation to the schema *)
Notation np := (fun w : list string => Nm <$> w).
Definition loc (w : list string) : list seg := Nm <$> w.
Lemma loc_snoc w k : loc (w ++ [k]) = loc w ++ [Nm k].
Proof. unfold loc. by rewrite fmap_app. Qed.
Lemma nested_loc w : nested [] (loc w) (loc w).
Proof. induction w as [|k w IH] using rev_ind; [constructor|]. rewrite loc_snoc. by constructor. Qed.
Lemma loc_concrete w : Forall (fun k => ident k = true) w -> Forall concrete (loc w).
Proof. intros H. apply Forall_fmap. eapply Forall_impl; [exact H|]. done. Qed.

Inductive jrel : list string -> list string -> jsch -> pitr -> Prop :=
| jrel_leaf ρ ρp jt d ts pt : tsr (loc ρp) ts pt -> jrel ρ ρp (JLeaf jt d ts) (PScal (path_of (loc ρ)) jt d pt)
| jrel_rec ρ ρp cs cs' : jrel_all ρ cs cs' -> NoDup cs.*1 -> jrel ρ ρp (JRec cs) (PObj (path_of (loc ρ)) None None cs')
| jrel_lst ρ ρp d ts pt c c' : ρ <> [] -> tsr (loc ρp) ts pt -> prel (loc ρ ++ [Star]) (loc ρ ++ [Star]) c c' ->
    jrel ρ ρp (JLst d ts c) (PArr (path_of (loc ρ)) d pt c')
with jrel_all : list string -> list (string * jsch) -> list (string * pitr) -> Prop :=
| jrel_nil ρ : jrel_all ρ [] []
| jrel_cons ρ k c cs c' cs' : ident k = true -> jrel (ρ ++ [k]) ρ c c' -> jrel_all ρ cs cs' ->
    jrel_all ρ ((k, c) :: cs) ((k, c') :: cs').
Scheme jrel_ind2 := Induction for jrel Sort Prop with jrel_all_ind2 := Induction for jrel_all Sort Prop.
Combined Scheme jrel_mutind from jrel_ind2, jrel_all_ind2.

Lemma jsch_ind' (P : jsch -> Prop) : (forall jt d ts, P (JLeaf jt d ts)) ->
  (forall cs, Forall (fun kc => P kc.2) cs -> P (JRec cs)) -> (forall d ts c, P (JLst d ts c)) -> forall s, P s.
Proof.
  intros HL HR HA. fix IH 1. intros [jt d ts|cs|d ts c]; [apply HL| |apply HA].
  apply HR. induction cs as [|[k c] cs IHc]; constructor; [apply IH|apply IHc].
Qed.

(** ** the stores of a schema *)
Lemma stores_rec cs ρ w : w ∈ stores (JRec cs) ρ <-> exists k c, (k, c) ∈ cs /\ w ∈ stores c (ρ ++ [k]).
Proof.
  cbn [stores]. rewrite elem_of_list_In, in_concat. split.
  - intros (l & Hl & Hw). apply in_map_iff in Hl as ([k c] & <- & Hin). exists k, c. by rewrite !elem_of_list_In.
  - intros (k & c & Hin & Hw). exists (stores c (ρ ++ [k])). split; [|by apply elem_of_list_In]. apply in_map_iff. exists (k, c). by rewrite <- elem_of_list_In.
Qed.
Lemma stores_lst d ts c ρ : (stores (JLst d ts c) ρ = [] /\ d = None /\ ts = None) \/ (stores (JLst d ts c) ρ = [ρ] /\ ~ (d = None /\ ts = None)).
Proof. cbn. destruct d, ts; try (right; split; [done|]; by intros []). by left. Qed.
Lemma stores_under s : forall ρ w, w ∈ stores s ρ -> ρ `prefix_of` w.
Proof.
  induction s as [jt d ts|cs IH|d ts c] using jsch_ind'; intros ρ w Hw.
  - by apply elem_of_nil in Hw.
  - apply stores_rec in Hw as (k & c & Hin & Hw). rewrite Forall_forall in IH. apply (IH _ Hin) in Hw. cbn [snd] in Hw.
    destruct Hw as [r ->]. exists (k :: r). by rewrite <- app_assoc.
  - destruct (stores_lst d ts c ρ) as [[E _]|[E _]]; rewrite E in Hw; [by apply elem_of_nil in Hw|]. apply elem_of_list_singleton in Hw as ->. done.
Qed.
Lemma siblings_apart (ρ : list string) k k' a b : k <> k' -> apart (ρ ++ k :: a) (ρ ++ k' :: b).
Proof.
  intros Hne. split; intros [r Hr]; rewrite <- app_assoc in Hr; apply app_inv_head in Hr; cbn in Hr; by injection Hr.
Qed.
Fixpoint distinct (s : jsch) : Prop :=
  match s with
  | JRec cs => NoDup cs.*1 /\ (fix all (cs : list (string * jsch)) : Prop := match cs with [] => True | (_, c) :: cs' => distinct c /\ all cs' end) cs
  | _ => True
  end.
Lemma distinct_rec cs : distinct (JRec cs) <-> NoDup cs.*1 /\ Forall (fun kc => distinct kc.2) cs.
Proof. cbn [distinct]. apply and_iff_compat_l. induction cs as [|[k c] cs IH]; [split; [constructor|done]|]. rewrite Forall_cons. by rewrite IH. Qed.
Lemma nodup_key (cs : list (string * jsch)) k c c' : NoDup cs.*1 -> (k, c) ∈ cs -> (k, c') ∈ cs -> c = c'.
Proof.
  induction cs as [|[k0 c0] cs IH]; intros Hnd Hin Hin'; [by apply elem_of_nil in Hin|]. cbn in Hnd. apply NoDup_cons in Hnd as [Hn Hnd].
  apply elem_of_cons in Hin as [Hin|Hin]; apply elem_of_cons in Hin' as [Hin'|Hin'].
  - congruence.
  - injection Hin as -> ->. destruct Hn. by apply (elem_of_list_fmap_1 fst) in Hin'.
  - injection Hin' as -> ->. destruct Hn. by apply (elem_of_list_fmap_1 fst) in Hin.
  - by apply IH.
Qed.
Lemma stores_apart s : forall ρ, distinct s -> forall w w', w ∈ stores s ρ -> w' ∈ stores s ρ -> w = w' \/ apart w w'.
Proof.
  induction s as [jt d ts|cs IH|d ts c] using jsch_ind'; intros ρ Hd w w' Hw Hw'.
  - by apply elem_of_nil in Hw.
  - apply distinct_rec in Hd as [Hnd Hd]. apply stores_rec in Hw as (k & c & Hin & Hw). apply stores_rec in Hw' as (k' & c' & Hin' & Hw').
    destruct (decide (k = k')) as [<-|Hne].
    + rewrite (nodup_key cs k c' c) in Hw' by done. rewrite Forall_forall in IH, Hd. eapply (IH _ Hin); [by apply (Hd _ Hin)|done|done].
    + right. apply stores_under in Hw as [r ->]. apply stores_under in Hw' as [r' ->]. rewrite <- !app_assoc. by apply siblings_apart.
  - destruct (stores_lst d ts c ρ) as [[E _]|[E _]]; rewrite E in Hw, Hw'; [by apply elem_of_nil in Hw|].
    apply elem_of_list_singleton in Hw as ->. apply elem_of_list_singleton in Hw' as ->. by left.
Qed.
Lemma stores_nodup s : forall ρ, distinct s -> NoDup (stores s ρ).
Proof.
  induction s as [jt d ts|cs IH|d ts c] using jsch_ind'; intros ρ Hd.
  - constructor.
  - apply distinct_rec in Hd as [Hnd Hd]. cbn [stores]. induction cs as [|[k c] cs IHc]; [constructor|]. cbn [List.map List.concat].
    cbn in Hnd. apply NoDup_cons in Hnd as [Hn Hnd]. inversion IH as [|? ? IH1 IH2]; subst. inversion Hd as [|? ? Hd1 Hd2]; subst.
    apply NoDup_app. split; [by apply IH1|]. split; [|by apply IHc].
    intros w Hw Hw'. apply (stores_rec cs) in Hw' as (k' & c' & Hin' & Hw'). 
    assert (Hne : k <> k'). { intros <-. destruct Hn. by apply (elem_of_list_fmap_1 fst) in Hin'. }
    apply stores_under in Hw as [r ->]. apply stores_under in Hw' as [r' Hr]. rewrite <- !app_assoc in Hr. apply app_inv_head in Hr. cbn in Hr. congruence.
  - destruct (stores_lst d ts c ρ) as [[E _]|[E _]]; rewrite E; [constructor|]. by apply NoDup_singleton.
Qed.
Lemma jrel_distinct : (forall ρ ρp s p, jrel ρ ρp s p -> distinct s) /\ (forall ρ cs cs', jrel_all ρ cs cs' -> Forall (fun kc => distinct kc.2) cs).
Proof.
  apply jrel_mutind; try done.
  - intros ρ ρp cs cs' _ IH Hnd. by apply distinct_rec.
  - intros ρ k c cs c' cs' Hk _ IHc _ IHcs. by constructor.
Qed.
Lemma plain_loc w : Forall (fun k => ident k = true) w -> plain_path (path_of (loc w)) = Some w.
Proof. apply plain_names. Qed.
Lemma prel_writes : (forall σ σp s p, prel σ σp s p -> pwrites p = []) /\
  (forall σ cs cs', prel_all σ cs cs' -> List.concat (List.map (fun kc => match kc with (_, c) => pwrites c end) cs') = []).
Proof. apply prel_mutind; try done. intros σ k c cs c' cs' _ _ IH1 _ IH2. cbn. by rewrite IH1. Qed.
Lemma tsr_none σ ts pt : tsr σ ts pt -> ts = None <-> pt = None.
Proof. destruct ts as [[[? ?] ?]|], pt as [[[? ?] ?]|]; done. Qed.
Lemma jrel_writes :
  (forall ρ ρp s p, jrel ρ ρp s p -> Forall (fun k => ident k = true) ρ -> pwrites p = stores s ρ) /\
  (forall ρ cs cs', jrel_all ρ cs cs' -> Forall (fun k => ident k = true) ρ -> List.concat (List.map (fun kc => match kc with (_, c) => pwrites c end) cs') = stores (JRec cs) ρ).
Proof.
  apply jrel_mutind.
  - done.
  - intros ρ ρp cs cs' _ IH _ Hid. by apply IH.
  - intros ρ ρp d ts pt c c' Hne Ht Hc Hid. cbn [pwrites stores]. pose proof (tsr_none _ _ _ Ht) as Hn.
    rewrite plain_loc by done. destruct d; [done|]. destruct ts, pt; try done; try (by destruct Hn as [[=] _]; done); try (by destruct Hn as [_ Hn]; specialize (Hn eq_refl)).
    by apply (proj1 prel_writes _ _ _ _ Hc).
  - done.
  - intros ρ k c cs c' cs' Hk _ IHc _ IHcs Hid. cbn [List.map List.concat stores].
    rewrite IHc; [|by apply Forall_app; split; [done|constructor]]. f_equal. by apply IHcs.
Qed.

(** ** places *)
Lemma key_name sg k : concrete sg -> ident k = true -> seg_key sg = k -> sg = Nm k.
Proof.
  destruct sg as [n| |i]; [by intros _ _ <-|done|]. intros _ Hk E. cbn in E. exfalso.
  assert (Hd : forall s, ident s = true -> s = itoa (Z.of_nat i) -> False); [|by apply (Hd k)].
  clear. intros s Hs ->. revert Hs. assert (E : itoa (Z.of_nat i) = ntoa (Z.to_N (Z.of_nat i))).
  { unfold itoa. destruct (Z.of_nat i) eqn:Ei; [done|done|lia]. }
  rewrite E. pose proof (ntoa_all (Z.to_N (Z.of_nat i))) as Hall. pose proof (ntoa_ne (Z.to_N (Z.of_nat i))) as Hne.
  destruct (ntoa (Z.to_N (Z.of_nat i))) as [|a r]; [done|]. cbn in Hall |- *. intros Hs. apply andb_true_iff in Hall as [Ha _]. apply andb_true_iff in Hs as [Hs _].
  revert Ha Hs. clear. destruct a as [[] [] [] [] [] [] [] []]; done.
Qed.
Lemma prefix_keys w τ : Forall (fun k => ident k = true) w -> Forall concrete τ -> w `prefix_of` (seg_key <$> τ) -> loc w `prefix_of` τ.
Proof.
  intros Hw. revert τ. induction Hw as [|k w Hk Hw IH]; intros τ Hτ [r Hr]; [apply prefix_nil|].
  destruct τ as [|sg τ]; [done|]. inversion Hτ; subst. cbn in Hr. injection Hr as Hr1 Hr2. cbn. rewrite (key_name sg k) by done. apply prefix_cons. apply IH; [done|]. by exists r.
Qed.
Lemma prefix_keys_l w τ : Forall (fun k => ident k = true) w -> Forall concrete τ -> (seg_key <$> τ) `prefix_of` w -> τ `prefix_of` loc w.
Proof.
  intros Hw Hτ. revert w Hw. induction Hτ as [|sg τ Hs Hτ IH]; intros w Hw [r Hr]; [apply prefix_nil|].
  destruct w as [|k w]; [done|]. inversion Hw; subst. cbn in Hr. injection Hr as Hr1 Hr2. cbn. rewrite (key_name sg k) by done. apply prefix_cons. apply IH; [done|]. by exists r.
Qed.
Lemma apart_keys w τ : Forall (fun k => ident k = true) w -> Forall concrete τ -> apart (loc w) τ -> apart w (seg_key <$> τ).
Proof. intros Hw Hτ [H1 H2]. split; intros H; [by apply H1, prefix_keys|by apply H2, prefix_keys_l]. Qed.
Lemma loc_keys w : seg_key <$> loc w = w.
Proof. apply seg_key_names. Qed.
Lemma loc_inj_prefix a b : loc a `prefix_of` loc b -> a `prefix_of` b.
Proof. intros [r Hr]. exists (seg_key <$> r). rewrite <- (loc_keys b), Hr, fmap_app. by rewrite loc_keys. Qed.
Lemma loc_prefix a b : a `prefix_of` b -> loc a `prefix_of` loc b.
Proof. intros [r ->]. exists (loc r). unfold loc. by rewrite fmap_app. Qed.
Lemma loc_apart a b : apart a b -> apart (loc a) (loc b).
Proof. intros [H1 H2]. split; intros H; by apply loc_inj_prefix in H. Qed.

Section ok.
Context (ws : list (list string)).
Context (Hws : forall w w', w ∈ ws -> w' ∈ ws -> w = w' \/ apart w w').
Context (Hids : forall w, w ∈ ws -> Forall (fun k => ident k = true) w).
Lemma reads_ok_at o τ : Forall concrete τ ->
  (forall w, w ∈ ws -> apart (loc w) τ \/ (w ∈ o /\ loc w `prefix_of` τ)) -> reads_ok ws o (path_of τ).
Proof.
  intros Hτ H. exists (seg_key <$> τ). split; [by apply plain_path_of|]. split.
  - unfold sp. rewrite Exists_exists. intros (w & Hw & Hp & Hne). apply prefix_keys_l in Hp; [|by apply Hids|done].
    destruct (H w Hw) as [[_ Ha]|[_ [r ->]]]; [done|].
    rewrite fmap_app, loc_keys in Hne. destruct Hp as [r' Hr']. apply (f_equal length) in Hr'. rewrite !app_length in Hr'.
    destruct r; cbn in *; [|lia]. by rewrite app_nil_r in Hne.
  - intros w Hw Ho. destruct (H w Hw) as [Ha|[? _]]; [|done]. apply apart_keys; [by apply Hids|done|done].
Qed.
Lemma tsr_ok o σp ρp ts pt m : tsr σp ts pt -> nested m σp ρp -> Forall concrete ρp ->
  (forall xo, xo ∈ (match ts with Some (_, _, from) => from | None => [] end) -> src_ok xo.1 ->
     reads_ok ws o (path_of (match xo.1 with Rel τ => ρp ++ τ | Abs τ => τ end))) -> ts_ok ws o pt m.
Proof.
  intros Ht Hn Hρ H. unfold tsr in Ht. destruct ts as [[[me dl] from]|], pt as [[[me' dl'] is]|]; try done.
  destruct Ht as (_ & _ & _ & HF). cbn. intros x Hx. apply elem_of_list_lookup in Hx as [j Hj].
  destruct (Forall2_lookup_r _ _ _ _ _ HF Hj) as (xo & Hxo & E & _ & Hs). apply elem_of_list_lookup_2 in Hxo. specialize (H xo Hxo Hs). rewrite E.
  destruct xo as [[τ|τ] ops]; cbn [fst src_path src_ok] in *.
  - by rewrite (nested_paths _ _ _ _ Hn), <- path_of_app.
  - by rewrite (nested_abs _ _ _ _ Hn).
Qed.
Lemma tsr_pure σp ts pt : tsr σp ts pt -> pure_ts pt.
Proof.
  destruct ts as [[[me delim] from]|], pt as [[[me' delim'] is]|]; try done.
  intros (-> & -> & Hl & HF). cbn. destruct me; try done. rewrite <- (Forall2_length _ _ _ HF). by apply Hl.
Qed.

(** the schemas of items *)
Lemma prel_jok o ρ0 : (forall τ, Forall concrete τ -> reads_ok ws o (path_of (ρ0 ++ τ))) ->
  (forall σ σp s p, prel σ σp s p -> forall m τ τp, nested m σ (ρ0 ++ τ) -> nested m σp (ρ0 ++ τp) -> Forall concrete ρ0 -> Forall concrete τ -> Forall concrete τp ->
     (forall τ', τ' ∈ abs_places s -> Forall concrete τ' -> reads_ok ws o (path_of τ')) -> jok ws o p m) /\
  (forall σ cs cs', prel_all σ cs cs' -> forall m τ, nested m σ (ρ0 ++ τ) -> Forall concrete ρ0 -> Forall concrete τ ->
     (forall τ', τ' ∈ abs_places (Rec cs) -> Forall concrete τ' -> reads_ok ws o (path_of τ')) ->
     (fix all (cs : list (string * pitr)) : Prop := match cs with [] => True | (_, c) :: cs' => jok ws o c m /\ all cs' end) cs').
Proof.
  intros H0. apply prel_mutind.
  - intros σ σp jt d ts pt Ht m τ τp Hn Hnp H00 Hτ Hτp Ha. cbn [jok]. split; [by eapply tsr_pure|]. split.
    + rewrite (nested_path _ _ _ Hn). by apply H0.
    + eapply tsr_ok; [done|done|by apply Forall_app|]. intros xo Hxo Hs. destruct ts as [[[me dl] from]|]; [|by apply elem_of_nil in Hxo].
      destruct xo as [[r|r] ops]; cbn [fst src_ok] in *.
      * rewrite <- app_assoc. apply H0. apply Forall_app. by destruct Hs.
      * apply Ha; [|done]. cbn [abs_places]. apply elem_of_list_bind. exists (Abs r, ops). split; [by left|done].
  - intros σ σp cs cs' Hall IH Hnd m τ τp Hn Hnp H00 Hτ Hτp Ha. cbn [jok]. split; [done|]. split; [done|].
    split; [|by eapply IH]. cbn [pwrites]. rewrite (proj2 prel_writes _ _ _ Hall). constructor.
  - intros σ σp c c' Hc IH m τ τp Hn Hnp H00 Hτ Hτp Ha. cbn [jok]. cbv zeta. split; [by apply (proj1 prel_writes _ _ _ _ Hc)|].
    left. split; [done|]. split; [done|]. rewrite (nested_path _ _ _ Hn). split; [by apply H0|].
    intros i. assert (Hn' : nested (path_replace (path_of (ρ0 ++ τ) +:+ "[*]") (path_of (ρ0 ++ τ) +:+ idx_str i) m) (σ ++ [Star]) (ρ0 ++ (τ ++ [Ix i]))).
    { rewrite app_assoc. rewrite <- (nested_path _ _ _ Hn). by apply nested_item. }
    assert (Hτ' : Forall concrete (τ ++ [Ix i])) by (apply Forall_app; split; [done|]; constructor; [exact I|constructor]).
    by eapply IH.
  - done.
  - intros σ k c cs c' cs' Hk Hc IHc Hcs IHcs m τ Hn H00 Hτ Ha. split.
    + apply (IHc m (τ ++ [Nm k]) τ); [rewrite app_assoc; by constructor|done|done| |done|].
      * apply Forall_app; split; [done|]; constructor; [exact Hk|constructor].
      * intros τ' Hτ'. apply Ha. cbn [abs_places List.map List.concat]. apply elem_of_app. by left.
    + eapply IHcs; [done|done|done|]. intros τ' Hτ'. apply Ha. cbn [abs_places List.map List.concat] in *. apply elem_of_app. by right.
Qed.

Lemma separate_rec cs ρ ρp : separate ws (JRec cs) ρ ρp <-> Forall (fun kc => separate ws kc.2 (ρ ++ [kc.1]) ρ) cs.
Proof. cbn [separate]. induction cs as [|[k c] cs IH]; [split; [constructor|done]|]. rewrite Forall_cons. by rewrite IH. Qed.
Lemma places_in xo me dl from ρp : xo ∈ from -> (match xo.1 with Rel τ => loc ρp ++ τ | Abs τ => τ end) ∈ places ρp (Some (me, dl, from)).
Proof. intros H. cbn [places]. apply elem_of_list_In, in_map_iff. exists xo. split; [done|]. by apply elem_of_list_In. Qed.

Lemma jrel_jok :
  (forall ρ ρp s p, jrel ρ ρp s p -> Forall (fun k => ident k = true) ρ -> Forall (fun k => ident k = true) ρp ->
     (forall w, w ∈ ws -> w ∈ stores s ρ \/ apart w ρ) -> (forall w, w ∈ stores s ρ -> w ∈ ws) -> separate ws s ρ ρp -> jok ws [] p []) /\
  (forall ρ cs cs', jrel_all ρ cs cs' -> Forall (fun k => ident k = true) ρ ->
     Forall (fun kc => (forall w, w ∈ ws -> w ∈ stores kc.2 (ρ ++ [kc.1]) \/ apart w (ρ ++ [kc.1])) /\ (forall w, w ∈ stores kc.2 (ρ ++ [kc.1]) -> w ∈ ws) /\
        separate ws kc.2 (ρ ++ [kc.1]) ρ) cs ->
     (fix all (cs : list (string * pitr)) : Prop := match cs with [] => True | (_, c) :: cs' => jok ws [] c [] /\ all cs' end) cs').
Proof.
  apply jrel_mutind.
  - intros ρ ρp jt d ts pt Ht Hid Hidp Hcov Hin Hsep. cbn [jok]. split; [by eapply tsr_pure|]. split.
    + change (apply_mod [] ?x) with x. apply reads_ok_at; [by apply loc_concrete|]. intros w Hw. left. apply loc_apart.
      destruct (Hcov w Hw) as [Hw'|]; [by apply elem_of_nil in Hw'|done].
    + eapply tsr_ok; [exact Ht|apply nested_loc|by apply loc_concrete|]. intros xo Hxo Hs. destruct ts as [[[me dl] from]|]; [|by apply elem_of_nil in Hxo].
      apply reads_ok_at.
      * destruct xo as [[r|r] ops]; cbn [fst src_ok] in *; [|done]. apply Forall_app. split; [by apply loc_concrete|apply Hs].
      * intros w Hw. left. apply Hsep; [by apply places_in|done].
  - intros ρ ρp cs cs' Hall IH Hnd Hid Hidp Hcov Hin Hsep. cbn [jok]. split; [done|]. split; [done|]. split.
    + cbn [pwrites]. rewrite (proj2 jrel_writes _ _ _ Hall Hid). apply stores_nodup, distinct_rec. split; [done|]. by eapply (proj2 jrel_distinct).
    + apply IH; [done|]. apply separate_rec in Hsep. apply Forall_forall. intros [k c] Hkc. cbn [fst snd]. split; [|split].
      * intros w Hw. destruct (Hcov w Hw) as [Hs|Ha]; [|right; by apply apart_app].
        apply stores_rec in Hs as (k' & c' & Hkc' & Hs). destruct (decide (k = k')) as [<-|Hne].
        -- left. by rewrite (nodup_key cs k c c').
        -- right. apply stores_under in Hs as [r ->]. rewrite <- app_assoc. by apply siblings_apart.
      * intros w Hw. apply Hin. apply stores_rec. by exists k, c.
      * rewrite Forall_forall in Hsep. by apply (Hsep _ Hkc).
  - intros ρ ρp d ts pt c c' Hne Ht Hc Hid Hidp Hcov Hin Hsep. cbn [jok]. cbv zeta. split; [by apply (proj1 prel_writes _ _ _ _ Hc)|].
    change (apply_mod [] ?x) with x. cbn [separate] in Hsep.
    assert (Hitems : forall o, (forall w, w ∈ ws -> apart w ρ \/ (w = ρ /\ w ∈ o)) -> forall i,
       jok ws o c' (path_replace (path_of (loc ρ) +:+ "[*]") (path_of (loc ρ) +:+ idx_str i) [])).
    { intros o Ho i. assert (Hn' : nested (path_replace (path_of (loc ρ) +:+ "[*]") (path_of (loc ρ) +:+ idx_str i) []) (loc ρ ++ [Star]) (loc ρ ++ [Ix i])).
      { pose proof (nested_item [] (loc ρ) (loc ρ) i (nested_loc ρ)) as H. exact H. }
      eapply (proj1 (prel_jok o (loc ρ) _)); [exact Hc|exact Hn'|exact Hn'|by apply loc_concrete|by repeat constructor|by repeat constructor|].
      intros τ' Hτ' Hcc. apply reads_ok_at; [done|]. intros w Hw. destruct (Hsep τ' w) as [Ha|[-> Hp]]; [apply elem_of_app; by right|done|by left|].
      right. split; [|done]. by destruct (Ho ρ Hw) as [[Ha _]|[_ ?]]; [destruct Ha|].
      Unshelve. intros τ Hτ. apply reads_ok_at; [apply Forall_app; split; [by apply loc_concrete|done]|].
      intros w Hw. destruct (Ho w Hw) as [Ha|[-> Hwo]]; [left; by apply apart_app, loc_apart|]. right. split; [done|]. by exists τ. }
    destruct (stores_lst d ts c ρ) as [(E & -> & ->)|[E Hn]]; rewrite E in *.
    + left. assert (pt = None) as -> by (by apply (tsr_none _ _ _ Ht)). split; [done|]. split; [done|].
      assert (Hap : forall w, w ∈ ws -> apart w ρ) by (intros w Hw; destruct (Hcov w Hw) as [H|H]; [by apply elem_of_nil in H|done]).
      split; [|apply Hitems; intros w Hw; left; by apply Hap].
      apply reads_ok_at; [by apply loc_concrete|]. intros w Hw. left. by apply loc_apart, Hap.
    + right. split. { intros [-> ->]. apply Hn. split; [done|]. by apply (tsr_none _ _ _ Ht). }
      split; [done|]. split; [done|]. split; [by eapply tsr_pure|]. exists ρ. split; [apply Hin; by left|]. split; [done|]. split; [done|]. split; [done|].
      split.
      * eapply tsr_ok; [exact Ht|apply nested_loc|by apply loc_concrete|]. intros xo Hxo Hs. destruct ts as [[[me dl] from]|]; [|by apply elem_of_nil in Hxo].
        apply reads_ok_at.
        -- destruct xo as [[r|r] ops]; cbn [fst src_ok] in *; [|done]. apply Forall_app. split; [by apply loc_concrete|apply Hs].
        -- intros w Hw. destruct (Hsep (match xo.1 with Rel τ => loc ρp ++ τ | Abs τ => τ end) w) as [Ha|[-> Hp]]; [apply elem_of_app; left; by apply places_in|done|by left|].
           right. split; [by apply elem_of_list_singleton|done].
      * apply Hitems. intros w Hw. destruct (Hcov w Hw) as [H|H]; [|by left]. apply elem_of_list_singleton in H as ->. right. split; [done|by left].
  - done.
  - intros ρ k c cs c' cs' Hk Hc IHc Hcs IHcs Hid HF. inversion HF as [|? ? (H1 & H2 & H3) HF']; subst. split; [|by apply IHcs].
    apply IHc; try done. apply Forall_app. split; [done|by constructor].
Qed.
End ok.

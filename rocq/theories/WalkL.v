(** Walk and WalkRaw visit the instances. *)
From stdpp Require Import strings list gmap.
From Coq Require Import ZArith Ascii Lia.
From Verif Require Import GoStr GoStrL Val Schema Inst SpecPath PathL SpecSchema SpecWalk Den Build BuildL.

(** ** visiting in general *)
Inductive kids := KErr | KLeaf | KObj (ps : list (string * tree)) | KArr (i : tree).
Section walks.
Context (K : tree -> bool * kids).
Inductive kinst : tree -> list seg -> tree -> Prop :=
| kinst_here raw : kinst raw [] raw
| kinst_prop raw ps k p σ r : K raw = (true, KObj ps) -> (k, p) ∈ ps -> kinst p σ r -> kinst raw (Nm k :: σ) r
| kinst_item raw i σ r : K raw = (true, KArr i) -> kinst i σ r -> kinst raw (Star :: σ) r.

Inductive walks : list seg -> tree -> list (list seg * tree) -> bool -> Prop :=
| walks_bad σ r k : K r = (false, k) -> walks σ r [] false
| walks_stop σ r : K r = (true, KErr) -> walks σ r [(σ, r)] false
| walks_leaf σ r : K r = (true, KLeaf) -> walks σ r [(σ, r)] true
| walks_obj σ r ps ps' vs ok : K r = (true, KObj ps) -> ps' ≡ₚ ps -> walks_all σ ps' vs ok -> walks σ r ((σ, r) :: vs) ok
| walks_arr σ r i vs ok : K r = (true, KArr i) -> walks (σ ++ [Star]) i vs ok -> walks σ r ((σ, r) :: vs) ok
with walks_all : list seg -> list (string * tree) -> list (list seg * tree) -> bool -> Prop :=
| wall_nil σ : walks_all σ [] [] true
| wall_stop σ k p ps vs : walks (σ ++ [Nm k]) p vs false -> walks_all σ ((k, p) :: ps) vs false
| wall_cons σ k p ps vs vs' ok : walks (σ ++ [Nm k]) p vs true -> walks_all σ ps vs' ok ->
    walks_all σ ((k, p) :: ps) (vs ++ vs') ok.
Scheme walks_ind2 := Induction for walks Sort Prop with walks_all_ind2 := Induction for walks_all Sort Prop.
Combined Scheme walks_mutind from walks_ind2, walks_all_ind2.

Definition fine (r : tree) : Prop := exists k, K r = (true, k) /\ k <> KErr.

Lemma walks_sound :
  (forall σ r vs ok, walks σ r vs ok -> forall ρ x, (ρ, x) ∈ vs -> exists τ, ρ = σ ++ τ /\ kinst r τ x) /\
  (forall σ ps vs ok, walks_all σ ps vs ok -> forall ρ x, (ρ, x) ∈ vs -> exists k p τ, (k, p) ∈ ps /\ ρ = σ ++ Nm k :: τ /\ kinst p τ x).
Proof.
  apply walks_mutind.
  - intros σ r k HK ρ x H. by apply elem_of_nil in H.
  - intros σ r HK ρ x H%elem_of_list_singleton. injection H as -> ->. exists []. rewrite app_nil_r. split; [done|constructor].
  - intros σ r HK ρ x H%elem_of_list_singleton. injection H as -> ->. exists []. rewrite app_nil_r. split; [done|constructor].
  - intros σ r ps ps' vs ok HK Hp _ IH ρ x [H|H]%elem_of_cons.
    + injection H as -> ->. exists []. rewrite app_nil_r. split; [done|constructor].
    + destruct (IH _ _ H) as (k & p & τ & Hin & -> & Hi). exists (Nm k :: τ). split; [done|]. econstructor; [done|by rewrite <- Hp|done].
  - intros σ r i vs ok HK _ IH ρ x [H|H]%elem_of_cons.
    + injection H as -> ->. exists []. rewrite app_nil_r. split; [done|constructor].
    + destruct (IH _ _ H) as (τ & -> & Hi). exists (Star :: τ). split; [by rewrite <- app_assoc|]. by econstructor.
  - intros σ ρ x H. by apply elem_of_nil in H.
  - intros σ k p ps vs _ IH ρ x H. destruct (IH _ _ H) as (τ & -> & Hi). exists k, p, τ.
    split; [apply elem_of_list_here|]. split; [by rewrite <- app_assoc|done].
  - intros σ k p ps vs vs' ok _ IH _ IH' ρ x [H|H]%elem_of_app.
    + destruct (IH _ _ H) as (τ & -> & Hi). exists k, p, τ. split; [apply elem_of_list_here|]. split; [by rewrite <- app_assoc|done].
    + destruct (IH' _ _ H) as (k' & p' & τ & Hin & -> & Hi). exists k', p', τ. split; [by apply elem_of_list_further|done].
Qed.
Lemma walks_complete :
  (forall σ r vs ok, walks σ r vs ok -> ok = true -> forall τ x, kinst r τ x -> (σ ++ τ, x) ∈ vs) /\
  (forall σ ps vs ok, walks_all σ ps vs ok -> ok = true -> forall k p τ x, (k, p) ∈ ps -> kinst p τ x -> (σ ++ Nm k :: τ, x) ∈ vs).
Proof.
  apply walks_mutind; try done.
  - intros σ r HK _ τ x H. destruct H; [|congruence..]. rewrite app_nil_r. by apply elem_of_list_singleton.
  - intros σ r ps ps' vs ok HK Hp _ IH Hok τ x H. destruct H as [|raw ps0 k p τ x HK' Hin Hi|raw i τ x HK' Hi].
    + rewrite app_nil_r. apply elem_of_list_here.
    + apply elem_of_list_further. eapply IH; [done| |done]. rewrite Hp. congruence.
    + congruence.
  - intros σ r i vs ok HK _ IH Hok τ x H. destruct H as [|raw ps0 k p τ x HK' Hin Hi|raw i0 τ x HK' Hi].
    + rewrite app_nil_r. apply elem_of_list_here.
    + congruence.
    + apply elem_of_list_further. assert (i0 = i) as -> by congruence. specialize (IH Hok _ _ Hi). by rewrite <- app_assoc in IH.
  - intros σ _ k p τ x H. by apply elem_of_nil in H.
  - intros σ k p ps vs vs' ok _ IH _ IH' Hok k' p' τ x [H|H]%elem_of_cons Hi; apply elem_of_app.
    + injection H as -> ->. left. specialize (IH eq_refl _ _ Hi). by rewrite <- app_assoc in IH.
    + right. by eapply IH'.
Qed.
Lemma walks_parents :
  (forall σ r vs ok, walks σ r vs ok -> forall vs1 ρ x vs2, vs = vs1 ++ (ρ, x) :: vs2 -> ρ = σ \/ exists ρ' s, ρ = ρ' ++ [s] /\ ρ' ∈ vs1.*1) /\
  (forall σ ps vs ok, walks_all σ ps vs ok -> forall vs1 ρ x vs2, vs = vs1 ++ (ρ, x) :: vs2 ->
     exists ρ' s, ρ = ρ' ++ [s] /\ (ρ' = σ \/ ρ' ∈ vs1.*1)).
Proof.
  apply walks_mutind.
  - intros σ r k HK vs1 ρ x vs2 H. by destruct vs1.
  - intros σ r HK vs1 ρ x vs2 H. destruct vs1 as [|? vs1]; [|by destruct vs1]. injection H as -> -> ->. by left.
  - intros σ r HK vs1 ρ x vs2 H. destruct vs1 as [|? vs1]; [|by destruct vs1]. injection H as -> -> ->. by left.
  - intros σ r ps ps' vs ok HK Hp _ IH vs1 ρ x vs2 H. destruct vs1 as [|v vs1]; [injection H as -> -> ->; by left|].
    cbn in H. injection H as <- H. right. destruct (IH _ _ _ _ H) as (ρ' & s & -> & Hin). exists ρ', s. split; [done|]. cbn.
    destruct Hin as [->|Hin]; [apply elem_of_list_here|by apply elem_of_list_further].
  - intros σ r i vs ok HK _ IH vs1 ρ x vs2 H. destruct vs1 as [|v vs1]; [injection H as -> -> ->; by left|].
    cbn in H. injection H as <- H. right. destruct (IH _ _ _ _ H) as [->|(ρ' & s & -> & Hin)].
    + exists σ, Star. split; [done|apply elem_of_list_here].
    + exists ρ', s. split; [done|by apply elem_of_list_further].
  - intros σ vs1 ρ x vs2 H. by destruct vs1.
  - intros σ k p ps vs _ IH vs1 ρ x vs2 H. destruct (IH _ _ _ _ H) as [->|(ρ' & s & -> & Hin)]; [exists σ, (Nm k)|exists ρ', s]; auto.
  - intros σ k p ps vs vs' ok _ IH _ IH' vs1 ρ x vs2 H.
    apply app_eq_app in H as [l [[-> H]|[-> H]]].
    + destruct l as [|v l].
      * cbn in H. destruct (IH' [] ρ x vs2 (eq_sym H)) as (ρ' & s & -> & [->|Hin]); [exists σ, s; auto|]. by apply elem_of_nil in Hin.
      * cbn in H. injection H as <- ->. destruct (IH _ _ _ _ eq_refl) as [->|(ρ' & s & -> & Hin)]; [exists σ, (Nm k)|exists ρ', s]; auto.
    + destruct (IH' l ρ x vs2 H) as (ρ' & s & -> & Hin). exists ρ', s. split; [done|].
      destruct Hin as [->|Hin]; [by left|]. right. rewrite fmap_app. apply elem_of_app. by right.
Qed.
(** names distinct wherever the walk goes *)
Lemma walks_once :
  (forall σ r vs ok, walks σ r vs ok -> (forall τ x ps, kinst r τ x -> K x = (true, KObj ps) -> NoDup ps.*1) -> NoDup vs.*1) /\
  (forall σ ps vs ok, walks_all σ ps vs ok -> NoDup ps.*1 ->
     (forall k p τ x ps', (k, p) ∈ ps -> kinst p τ x -> K x = (true, KObj ps') -> NoDup ps'.*1) -> NoDup vs.*1).
Proof.
  apply walks_mutind.
  - intros; constructor.
  - intros. apply NoDup_singleton.
  - intros. apply NoDup_singleton.
  - intros σ r ps ps' vs ok HK Hp Hw IH Hnd. cbn. constructor.
    + intros ([ρ x] & Heq & Hin)%elem_of_list_fmap. cbn in Heq. subst ρ.
      destruct (proj2 walks_sound _ _ _ _ Hw _ _ Hin) as (k & p & τ & _ & He & _).
      apply (f_equal length) in He. rewrite app_length in He. cbn in He. lia.
    + apply IH. { rewrite Hp. eapply Hnd; [constructor|done]. }
      intros k p τ x ps0 Hin Hi HKx. eapply (Hnd (Nm k :: τ)); [|done]. econstructor; [done|by rewrite <- Hp|done].
  - intros σ r i vs ok HK Hw IH Hnd. cbn. constructor.
    + intros ([ρ x] & Heq & Hin)%elem_of_list_fmap. cbn in Heq. subst ρ.
      destruct (proj1 walks_sound _ _ _ _ Hw _ _ Hin) as (τ & He & _).
      apply (f_equal length) in He. rewrite !app_length in He. cbn in He. lia.
    + apply IH. intros τ x ps0 Hi HKx. eapply (Hnd (Star :: τ)); [|done]. by econstructor.
  - intros. constructor.
  - intros σ k p ps vs _ IH _ H. apply IH. intros τ x ps' Hi HK. eapply H; [apply elem_of_list_here|done|done].
  - intros σ k p ps vs vs' ok Hw IH Hw' IH' Hnd H. cbn in Hnd. apply NoDup_cons in Hnd as [Hk Hnd].
    rewrite fmap_app. apply NoDup_app. split_and!.
    + apply IH. intros τ x ps' Hi HK. eapply H; [apply elem_of_list_here|done|done].
    + intros ρ ([? x] & -> & Hin)%elem_of_list_fmap ([? x'] & He & Hin')%elem_of_list_fmap. cbn in He. subst.
      destruct (proj1 walks_sound _ _ _ _ Hw _ _ Hin) as (τ & -> & _).
      destruct (proj2 walks_sound _ _ _ _ Hw' _ _ Hin') as (k' & p' & τ' & Hkp & He & _).
      rewrite <- app_assoc in He. apply app_inv_head in He. injection He as -> ->.
      apply Hk. apply elem_of_list_fmap. by exists (k', p').
    + apply IH'; [done|]. intros k' p' τ x ps' Hin. eapply H. by apply elem_of_list_further.
Qed.
Lemma walks_fine :
  (forall σ r vs ok, walks σ r vs ok -> (ok = true <-> forall τ x, kinst r τ x -> fine x)) /\
  (forall σ ps vs ok, walks_all σ ps vs ok -> (ok = true <-> forall k p τ x, (k, p) ∈ ps -> kinst p τ x -> fine x)).
Proof.
  apply walks_mutind.
  - intros σ r k HK. split; [done|]. intros H. destruct (H [] r ltac:(constructor)) as (k' & HK' & _). congruence.
  - intros σ r HK. split; [done|]. intros H. destruct (H [] r ltac:(constructor)) as (k' & HK' & Hne). congruence.
  - intros σ r HK. split; [|done]. intros _ τ x H. destruct H; [|congruence..]. by exists KLeaf.
  - intros σ r ps ps' vs ok HK Hp _ IH. rewrite IH. split.
    + intros H τ x Hi. destruct Hi as [|raw ps0 k p τ x HK' Hin Hi|]; [by exists (KObj ps)| |congruence].
      assert (ps0 = ps) as -> by congruence. eapply H; [by rewrite Hp|done].
    + intros H k p τ x Hin Hi. eapply (H (Nm k :: τ)). econstructor; [done| |done]. by rewrite <- Hp.
  - intros σ r i vs ok HK _ IH. rewrite IH. split.
    + intros H τ x Hi. destruct Hi as [| |raw i0 τ x HK' Hi]; [by exists (KArr i)|congruence|].
      assert (i0 = i) as -> by congruence. by eapply H.
    + intros H τ x Hi. eapply (H (Star :: τ)). by econstructor.
  - intros σ. split; [|done]. intros _ k p τ x H. by apply elem_of_nil in H.
  - intros σ k p ps vs _ IH. split; [done|]. intros H. apply IH. intros τ x Hi. eapply H; [apply elem_of_list_here|done].
  - intros σ k p ps vs vs' ok _ IH _ IH'. rewrite IH'. split.
    + intros H k' p' τ x [Hin|Hin]%elem_of_cons Hi; [injection Hin as -> ->; by eapply (proj1 IH)|by eapply H].
    + intros H k' p' τ x Hin. eapply H. by apply elem_of_list_further.
Qed.
End walks.

(** ** calling *)
Lemma calls_app {X S} (fn : string -> X -> S -> S * res unit) vs vs' final s :
  calls fn (vs ++ vs') final s = Schema.seq (calls fn vs (Ok tt)) (calls fn vs' final) s.
Proof.
  revert s. induction vs as [|[σ x] vs IH]; intros s; [done|]. cbn [app calls]. unfold Schema.seq.
  cbn [calls]. destruct (fn (path_of σ) x s) as [s' [[]| |]]; [|done..]. by rewrite IH.
Qed.
Lemma calls_final {X S} (fn : string -> X -> S -> S * res unit) vs s c :
  Schema.seq (calls fn vs Err) c s = calls fn vs Err s.
Proof.
  revert s. induction vs as [|[σ x] vs IH]; intros s; [done|]. unfold Schema.seq. cbn [calls].
  destruct (fn (path_of σ) x s) as [s' [[]| |]]; [|done..]. apply IH.
Qed.
Definition fin (ok : bool) : res unit := if ok then Ok tt else Err.

Lemma path_star σ : path_of σ +:+ "[*]" = path_of (σ ++ [Star]).
Proof. by rewrite path_of_star. Qed.

(** ** WalkRaw *)
Definition KR (r : tree) : bool * kids :=
  (true, match field_type r with
         | Ok (ty, _) =>
           if decide (ty = "object") then match jlookup "properties" r with Some (TObj ps) => KObj ps | _ => KErr end
           else if decide (ty = "array") then match jlookup "items" r with Some i => KArr i | None => KErr end
           else KLeaf
         | _ => KErr
         end).
Lemma field_type_no_panic r : field_type r <> Panic.
Proof. unfold field_type. repeat case_match; done. Qed.
Definition nonempty (ps : list (string * tree)) : Prop := Forall (fun kp => kp.1 <> "") ps.

Lemma each_walks σ ps : nonempty ps ->
  (forall k p, (k, p) ∈ ps -> exists vs ok, walks KR (σ ++ [Nm k]) p vs ok /\
     forall S (fn : string -> tree -> S -> S * res unit) s, walk_raw fn p (path_of (σ ++ [Nm k])) s = calls fn vs (fin ok) s) ->
  exists vs ok, walks_all KR σ ps vs ok /\
     forall S (fn : string -> tree -> S -> S * res unit) s, walk_each fn (path_of σ) ps s = calls fn vs (fin ok) s.
Proof.
  induction ps as [|[k p] ps IH]; intros Hne H; [by exists [], true; split; [constructor|]|].
  apply Forall_cons in Hne as [Hk Hne]. cbn in Hk.
  destruct (H k p ltac:(apply elem_of_list_here)) as (vs & ok & Hw & He).
  destruct ok.
  - destruct (IH Hne) as (vs' & ok' & Hw' & He'). { intros k' p' Hin. apply H. by apply elem_of_list_further. }
    exists (vs ++ vs'), ok'. split; [by constructor|]. intros S fn s. cbn [walk_each]. rewrite prepend_name by done.
    rewrite calls_app. unfold Schema.seq. rewrite He. cbn [fin]. destruct (calls fn vs (Ok tt) s) as [s' [[]| |]]; [|done..]. apply He'.
  - exists vs, false. split; [by constructor|]. intros S fn s. cbn [walk_each]. rewrite prepend_name by done.
    unfold Schema.seq. rewrite He. cbn [fin]. change (Schema.seq (calls fn vs Err) (walk_each fn (path_of σ) ps) s = calls fn vs Err s).
    apply calls_final.
Qed.
Lemma raw_walks n r σ : depth r <= n -> (forall τ x ps, kinst KR r τ x -> KR x = (true, KObj ps) -> nonempty ps) ->
  exists vs ok, walks KR σ r vs ok /\
    forall S (fn : string -> tree -> S -> S * res unit) s, walk_raw fn r (path_of σ) s = calls fn vs (fin ok) s.
Proof.
  revert r σ. induction n as [|n IH]; intros r σ Hd Hne; [destruct r; cbn in Hd; lia|].
  destruct (KR r) as [b k] eqn:HK. assert (b = true) as -> by (injection HK as <- _; done). destruct k as [| |ps|i].
  - exists [(σ, r)], false. split; [by constructor|]. intros S fn s. rewrite walk_raw_eq. unfold Schema.seq. cbn [calls].
    destruct (fn (path_of σ) r s) as [s' [[]| |]]; [|done..]. pose proof (field_type_no_panic r).
    unfold KR in HK. destruct (field_type r) as [[ty nl]| |]; [|done..]. injection HK as HK.
    case_decide; [|case_decide; [|done]]; repeat case_match; done.
  - exists [(σ, r)], true. split; [by constructor|]. intros S fn s. rewrite walk_raw_eq. unfold Schema.seq. cbn [calls].
    destruct (fn (path_of σ) r s) as [s' [[]| |]]; [|done..].
    unfold KR in HK. destruct (field_type r) as [[ty nl]| |]; [|done..]. injection HK as HK.
    case_decide; [|case_decide; [|done]]; repeat case_match; done.
  - assert (exists nl, field_type r = Ok ("object", nl) /\ jlookup "properties" r = Some (TObj ps)) as (nl & Hft & Hps).
    { unfold KR in HK. destruct (field_type r) as [[ty nl]| |]; [|done..]. injection HK as HK.
      case_decide; [|case_decide; [|done]]; repeat case_match; try done. exists nl. split; congruence. }
    destruct (each_walks σ ps) as (vs & ok & Hw & He).
    + eapply Hne; [constructor|done].
    + intros k p Hin. apply IH.
      * pose proof (jlookup_depth _ _ _ Hps). pose proof (member_depth _ _ _ Hin). lia.
      * intros τ x ps' Hi. apply (Hne (Nm k :: τ)). by econstructor.
    + exists ((σ, r) :: vs), ok. split; [by econstructor|]. intros S fn s. rewrite walk_raw_eq. unfold Schema.seq. cbn [calls].
      destruct (fn (path_of σ) r s) as [s' [[]| |]]; [|done..]. rewrite Hft, decide_True, Hps by done. apply He.
  - assert (exists nl, field_type r = Ok ("array", nl) /\ jlookup "items" r = Some i) as (nl & Hft & Hi).
    { unfold KR in HK. destruct (field_type r) as [[ty nl]| |]; [|done..]. injection HK as HK.
      case_decide; [|case_decide; [|done]]; repeat case_match; try done. exists nl. split; congruence. }
    destruct (IH i (σ ++ [Star])) as (vs & ok & Hw & He).
    + pose proof (jlookup_depth _ _ _ Hi). lia.
    + intros τ x ps' Hk. apply (Hne (Star :: τ)). by econstructor.
    + exists ((σ, r) :: vs), ok. split; [by econstructor|]. intros S fn s. rewrite walk_raw_eq. unfold Schema.seq. cbn [calls].
      destruct (fn (path_of σ) r s) as [s' [[]| |]]; [|done..]. rewrite Hft, decide_False, decide_True, Hi by done.
      rewrite path_star. apply He.
Qed.
Lemma kinst_inst r τ x : kinst KR r τ x <-> inst r τ x.
Proof.
  split.
  - induction 1 as [|raw ps k p σ r HK Hin Hi IH|raw i σ r HK Hi IH].
    + constructor.
    + unfold KR in HK. destruct (field_type raw) as [[ty nl]| |] eqn:Hft; [|done..]. injection HK as HK.
      case_decide; [|case_decide; [|done]]; repeat case_match; try done. subst. injection HK as <-. by econstructor.
    + unfold KR in HK. destruct (field_type raw) as [[ty nl]| |] eqn:Hft; [|done..]. injection HK as HK.
      case_decide; [|case_decide; [|done]]; repeat case_match; try done. subst. injection HK as <-. by econstructor.
  - induction 1 as [|raw nl ps k p σ r Hft Hps Hin Hi IH|raw nl i σ r Hft Hit Hi IH].
    + constructor.
    + econstructor; [|done|done]. unfold KR. by rewrite Hft, decide_True, Hps by done.
    + econstructor; [|done]. unfold KR. by rewrite Hft, decide_False, decide_True, Hit by done.
Qed.
Lemma fine_raw r : fine KR r <-> raw_fine r.
Proof.
  unfold fine, raw_fine, KR. split.
  - intros (k & Hk & Hne). destruct (field_type r) as [[ty nl]| |]; [|congruence..]. injection Hk as Hk. exists ty, nl.
    split; [done|]. case_decide; [|case_decide].
    + split; [|congruence]. intros _. destruct (jlookup "properties" r) as [[]|]; try congruence. eauto.
    + split; [congruence|]. intros _. destruct (jlookup "items" r); [eauto|congruence].
    + done.
  - intros (ty & nl & -> & Ho & Ha). case_decide; [|case_decide].
    + destruct (Ho H) as [ps ->]. eauto.
    + destruct (Ha H0) as [i ->]. eauto.
    + eauto.
Qed.

(** the whole schema *)
Definition skinst (K : tree -> bool * kids) (props : list (string * tree)) (items : option tree) (σ : list seg) (r : tree) : Prop :=
  (exists k p τ, (k, p) ∈ props /\ σ = Nm k :: τ /\ kinst K p τ r) \/ (exists i τ, items = Some i /\ σ = Star :: τ /\ kinst K i τ r).
Lemma skinst_sinst props items σ r : skinst KR props items σ r <-> sinst props items σ r.
Proof.
  split.
  - intros [(k & p & τ & Hin & -> & Hi)|(i & τ & -> & -> & Hi)]; apply kinst_inst in Hi; by econstructor.
  - intros [k p τ x Hin Hi|i τ x Hi0 Hi]; apply kinst_inst in Hi; [left|right]; eauto 10.
Qed.
(** combining the properties and the items *)
Inductive walks_top (K : tree -> bool * kids) (props : list (string * tree)) : option tree -> list (list seg * tree) -> bool -> Prop :=
| wtop_stop items vs : walks_all K [] props vs false -> walks_top K props items vs false
| wtop_none vs : walks_all K [] props vs true -> walks_top K props None vs true
| wtop_items i vs vs' ok : walks_all K [] props vs true -> walks K [Star] i vs' ok -> walks_top K props (Some i) (vs ++ vs') ok.
Lemma top_facts K props items vs ok : walks_top K props items vs ok -> NoDup props.*1 ->
  (forall σ r ps, skinst K props items σ r -> K r = (true, KObj ps) -> NoDup ps.*1) ->
  (forall σ r, (σ, r) ∈ vs -> skinst K props items σ r) /\
  (ok = true -> forall σ r, skinst K props items σ r -> (σ, r) ∈ vs) /\
  once vs /\ parents_first vs /\
  (ok = true <-> forall σ r, skinst K props items σ r -> fine K r).
Proof.
  intros Ht Hnd Hps. destruct Ht as [items vs Hw|vs Hw|i vs vs' ok Hw Hw'].
  - split_and!.
    + intros σ r H. left. destruct (proj2 (walks_sound K) _ _ _ _ Hw _ _ H) as (k & p & τ & Hin & -> & Hi). exists k, p, τ. done.
    + done.
    + eapply (proj2 (walks_once K)); [done|done|]. intros k p τ x ps Hin Hi. apply (Hps (Nm k :: τ)). left. eauto 10.
    + intros vs1 σ s x vs2 ->. destruct (proj2 (walks_parents K) _ _ _ _ Hw _ _ _ _ eq_refl) as (ρ' & s' & He & H).
      apply app_inj_tail in He as [<- <-]. done.
    + split; [done|]. intros H. apply (proj2 (walks_fine K) _ _ _ _ Hw). intros k p τ x Hin Hi. eapply (H (Nm k :: τ)). left. eauto 10.
  - split_and!.
    + intros σ r H. left. destruct (proj2 (walks_sound K) _ _ _ _ Hw _ _ H) as (k & p & τ & Hin & -> & Hi). exists k, p, τ. done.
    + intros _ σ r [(k & p & τ & Hin & -> & Hi)|(i & τ & Hi0 & _)]; [|done]. by eapply (proj2 (walks_complete K) _ _ _ _ Hw eq_refl k p).
    + eapply (proj2 (walks_once K)); [done|done|]. intros k p τ x ps Hin Hi. apply (Hps (Nm k :: τ)). left. eauto 10.
    + intros vs1 σ s x vs2 ->. destruct (proj2 (walks_parents K) _ _ _ _ Hw _ _ _ _ eq_refl) as (ρ' & s' & He & H).
      apply app_inj_tail in He as [<- <-]. done.
    + split; [|done]. intros _ σ r [(k & p & τ & Hin & -> & Hi)|(i & τ & Hi0 & _)]; [|done].
      by eapply (proj1 (proj2 (walks_fine K) _ _ _ _ Hw) eq_refl k p).
  - assert (Hs : forall σ r, (σ, r) ∈ vs -> exists k p τ, (k, p) ∈ props /\ σ = Nm k :: τ /\ kinst K p τ r).
    { intros σ r H. by destruct (proj2 (walks_sound K) _ _ _ _ Hw _ _ H) as (k & p & τ & Hin & -> & Hi); exists k, p, τ. }
    assert (Hs' : forall σ r, (σ, r) ∈ vs' -> exists τ, σ = Star :: τ /\ kinst K i τ r).
    { intros σ r H. by destruct (proj1 (walks_sound K) _ _ _ _ Hw' _ _ H) as (τ & -> & Hi); exists τ. }
    split_and!.
    + intros σ r [H|H]%elem_of_app; [left; by apply Hs|right]. destruct (Hs' _ _ H) as (τ & ? & ?). exists i, τ. done.
    + intros -> σ r [(k & p & τ & Hin & -> & Hi)|(i0 & τ & [= <-] & -> & Hi)]; apply elem_of_app; [left|right].
      * by eapply (proj2 (walks_complete K) _ _ _ _ Hw eq_refl k p).
      * by apply (proj1 (walks_complete K) _ _ _ _ Hw' eq_refl).
    + unfold once. rewrite fmap_app. apply NoDup_app. split_and!.
      * eapply (proj2 (walks_once K)); [done|done|]. intros k p τ x ps Hin Hi. apply (Hps (Nm k :: τ)). left. eauto 10.
      * intros ρ ([? x] & -> & Hin)%elem_of_list_fmap ([? x'] & He & Hin')%elem_of_list_fmap. cbn in He. subst.
        destruct (Hs _ _ Hin) as (k & p & τ & _ & -> & _). by destruct (Hs' _ _ Hin') as (τ' & ? & _).
      * eapply (proj1 (walks_once K)); [done|]. intros τ x ps Hi. apply (Hps (Star :: τ)). right. eauto 10.
    + intros vs1 σ s x vs2 He. apply app_eq_app in He as [l [[-> He]|[-> He]]].
      * destruct l as [|v l].
        -- cbn in He. destruct (proj1 (walks_parents K) _ _ _ _ Hw' [] _ _ _ (eq_sym He)) as [H|(ρ' & s' & _ & H)]; [|by apply elem_of_nil in H].
           left. destruct σ as [|? [|]]; cbn in H; congruence.
        -- cbn in He. injection He as <- ->. destruct (proj2 (walks_parents K) _ _ _ _ Hw _ _ _ _ eq_refl) as (ρ' & s' & He & H).
           apply app_inj_tail in He as [<- <-]. done.
      * destruct (proj1 (walks_parents K) _ _ _ _ Hw' _ _ _ _ He) as [H|(ρ' & s' & H & Hin)].
        -- left. destruct σ as [|? [|]]; cbn in H; congruence.
        -- apply app_inj_tail in H as [<- <-]. right. rewrite fmap_app. apply elem_of_app. by right.
    + rewrite (proj1 (walks_fine K) _ _ _ _ Hw'). split.
      * intros H σ r [(k & p & τ & Hin & -> & Hi)|(i0 & τ & [= <-] & -> & Hi)]; [|by eapply H].
        by eapply (proj1 (proj2 (walks_fine K) _ _ _ _ Hw) eq_refl k p).
      * intros H τ x Hi. apply (H (Star :: τ)). right. eauto 10.
Qed.
Lemma raw_top props items : nonempty props ->
  (forall σ r ps, skinst KR props items σ r -> KR r = (true, KObj ps) -> nonempty ps) ->
  exists vs ok, walks_top KR props items vs ok /\
    forall S (fn : string -> tree -> S -> S * res unit) s, walk_raw_schema fn props items s = calls fn vs (fin ok) s.
Proof.
  intros Hne Hps. destruct (each_walks [] props Hne) as (vs & ok & Hw & He).
  { intros k p Hin. apply (raw_walks (depth p)); [done|]. intros τ x ps Hi. apply (Hps (Nm k :: τ)). left. eauto 10. }
  destruct ok.
  - destruct items as [i|].
    + destruct (raw_walks (depth i) i [Star]) as (vs' & ok & Hw' & He'); [done| |].
      { intros τ x ps Hi. apply (Hps (Star :: τ)). right. eauto 10. }
      exists (vs ++ vs'), ok. split; [by constructor|]. intros S fn s. unfold walk_raw_schema. rewrite calls_app. unfold Schema.seq at 1 2.
      change "$" with (path_of []) at 1. rewrite He. cbn [fin]. destruct (calls fn vs (Ok tt) s) as [s' [[]| |]]; [|done..]. apply He'.
    + exists vs, true. split; [by constructor|]. intros S fn s. unfold walk_raw_schema, Schema.seq.
      change "$" with (path_of []) at 1. rewrite He. cbn [fin]. by destruct (calls fn vs (Ok tt) s) as [s' [[]| |]].
  - exists vs, false. split; [by constructor|]. intros S fn s. unfold walk_raw_schema, Schema.seq.
    change "$" with (path_of []) at 1. rewrite He. cbn [fin].
    pose proof (calls_final fn vs s (match items with Some i => walk_raw fn i ("$" +:+ "[*]") | None => stop (Ok tt) end)) as Hc.
    unfold Schema.seq in Hc. exact Hc.
Qed.
Lemma walk_raw_visits props items : named props -> (forall σ r, sinst props items σ r -> props_named r) ->
  exists vs final,
    (forall S (fn : string -> tree -> S -> S * res unit) s, walk_raw_schema fn props items s = calls fn vs final s) /\
    (forall σ r, (σ, r) ∈ vs -> sinst props items σ r) /\
    (final = Ok tt -> forall σ r, sinst props items σ r -> (σ, r) ∈ vs) /\
    once vs /\ parents_first vs /\
    (final = Ok tt <-> forall σ r, sinst props items σ r -> raw_fine r) /\ (final = Ok tt \/ final = Err).
Proof.
  intros [Hnd Hne] Hps.
  assert (Hps' : forall σ r ps, skinst KR props items σ r -> KR r = (true, KObj ps) -> named ps).
  { intros σ r ps Hi%skinst_sinst HK. apply (Hps _ _ Hi).
    unfold KR in HK. destruct (field_type r) as [[ty nl]| |]; [|done..]. injection HK as HK.
    case_decide; [|case_decide; [|done]]; repeat case_match; try done. congruence. }
  destruct (raw_top props items Hne) as (vs & ok & Ht & He). { intros. by eapply Hps'. }
  destruct (top_facts _ _ _ _ _ Ht Hnd) as (H1 & H2 & H3 & H4 & H5). { intros. by eapply Hps'. }
  assert (Hok : fin ok = Ok tt <-> ok = true) by (by destruct ok).
  exists vs, (fin ok). split_and!; try done.
  - intros σ r Hin. by apply skinst_sinst, H1.
  - intros Hf σ r Hi. apply H2; [by apply Hok|by apply skinst_sinst].
  - rewrite Hok, H5. split; intros H σ r Hi; apply fine_raw || apply fine_raw; eapply H; by apply skinst_sinst.
  - destruct ok; auto.
Qed.

(** ** Walk *)
Lemma d_strs_go_in ty l ss : ty <> "" -> d_strs_go l = Ok ss -> ty ∈ ss <-> ty ∈ names_in l.
Proof.
  intros Hty. revert ss. induction l as [|t l IH]; intros ss H; cbn [d_strs_go] in H; [injection H as <-; done|].
  destruct (d_str (Some t)) as [x| |] eqn:Ht; [|done..]. cbn [rbind] in H. destruct (d_strs_go l) as [ss'| |]; [|done..]. injection H as <-.
  specialize (IH ss' eq_refl). unfold names_in in *. cbn [omap list_omap]. rewrite elem_of_cons, IH.
  destruct t as [[]| | | |]; try done; cbn in Ht; injection Ht as <-.
  - split; [|by right]. by intros [H|H].
  - rewrite elem_of_cons. done.
Qed.
Lemma d_type_in ty t l : ty <> "" -> d_type (jlookup "type" t) = Ok l -> ty ∈ default [] l <-> ty ∈ type_names t.
Proof.
  intros Hty H. unfold type_names. destruct (jlookup "type" t) as [[[]|x| | |]|]; cbn in H; try done; try (injection H as <-; done).
  destruct (d_strs_go x) as [ss| |] eqn:E; [|done..]. cbn in H. injection H as <-. cbn. by eapply d_strs_go_in.
Qed.
Lemma d_inst_fields kvs addl i : d_inst addl (TObj kvs) = Ok i ->
  d_props (assoc "properties" kvs) = Ok (n_props i) /\ n_items i = assoc "items" kvs /\ d_type (assoc "type" kvs) = Ok (n_type i).
Proof.
  intros H. cbn [d_inst] in H.
  repeat match type of H with context [rbind ?x _] =>
    let E := fresh "E" in destruct x eqn:E; cbn [rbind] in H; [|discriminate H..] end.
  injection H as <-. cbn. done.
Qed.
Definition KW (r : tree) : bool * kids :=
  match d_inst false r with
  | Ok i => (true, if has_type "object" i then match n_props i with Some ps => KObj ps | None => KErr end
                   else if has_type "array" i then match n_items i with Some x => KArr x | None => KErr end
                   else KLeaf)
  | _ => (false, KErr)
  end.
Lemma d_inst_cases addl r i : d_inst addl r = Ok i -> (exists kvs, r = TObj kvs) \/ (r = TS SNil /\ i = zero_inst addl).
Proof. destruct r as [[]| |kvs| |]; cbn [d_inst]; intros H; try done; [right|left; by eexists]. by injection H as <-. Qed.
Lemma d_inst_props addl r i ps : d_inst addl r = Ok i -> n_props i = Some ps <-> jlookup "properties" r = Some (TObj ps).
Proof.
  intros H. destruct (d_inst_cases _ _ _ H) as [[kvs ->]|[-> ->]]; [|done]. destruct (d_inst_fields _ _ _ H) as (Hp & _). cbn [jlookup].
  unfold d_props in Hp. repeat case_match; try done; injection Hp as <-; split; congruence.
Qed.
Lemma d_inst_items addl r i : d_inst addl r = Ok i -> n_items i = jlookup "items" r.
Proof. intros H. destruct (d_inst_cases _ _ _ H) as [[kvs ->]|[-> ->]]; [|done]. by destruct (d_inst_fields _ _ _ H) as (_ & Hi & _). Qed.
Lemma d_inst_type addl r i ty : ty <> "" -> d_inst addl r = Ok i -> has_type ty i = true <-> ty ∈ type_names r.
Proof.
  intros Hty H. unfold has_type. rewrite bool_decide_eq_true. destruct (d_inst_cases _ _ _ H) as [[kvs ->]|[-> ->]]; [|done].
  destruct (d_inst_fields _ _ _ H) as (_ & _ & Ht). by apply d_type_in.
Qed.
Section walk.
Context {S : Type} (fn : string -> instance -> S -> S * res unit) (ord : string -> list string -> list string).
Definition acts (path : string) (ps : list (string * tree)) : list (string * (S -> S * res unit)) :=
  map (fun kv : string * tree => let (n, p) := kv in (n, walk_inst fn ord p (prepend_path path n))) ps.
Lemma walk_inst_eq raw path s :
  walk_inst fn ord raw path s =
  match d_inst false raw with
  | Ok i => Schema.seq (fn path i)
      (match KW raw with
       | (_, KErr) => stop Err
       | (_, KLeaf) => stop (Ok tt)
       | (_, KObj ps) => in_order (ord path ps.*1) (acts path ps)
       | (_, KArr x) => walk_inst fn ord x (path +:+ "[*]")
       end) s
  | _ => (s, Err)
  end.
Proof.
  destruct raw as [sc|l|kvs|n|l]; [destruct sc; try reflexivity|reflexivity| |reflexivity|reflexivity].
  unfold KW. destruct (d_inst false (TObj kvs)) as [i| |] eqn:Hd.
  2,3: cbn [walk_inst]; by rewrite Hd.
  pose proof (d_inst_fields _ _ _ Hd) as (Hp & Hi & _). cbn [walk_inst]. rewrite Hd. unfold Schema.seq.
  destruct (fn path i s) as [s' [[]| |]]; [|done..].
  destruct (has_type "object" i).
  - destruct (n_props i) as [ps|] eqn:Hps; [|done].
    unfold d_props in Hp. clear Hd Hi. induction kvs as [|[k v] kvs IH]; [done|]. cbn [assoc] in Hp.
    case_decide as Hk; [|by apply IH]. destruct v; try done; [by destruct s0|]. injection Hp as ->. done.
  - destruct (has_type "array" i); [|done]. rewrite Hi. clear Hp Hi Hd.
    induction kvs as [|[k v] kvs IH]; [done|]. cbn [assoc]. by case_decide.
Qed.
Lemma assocd_acts path ps k p : NoDup ps.*1 -> (k, p) ∈ ps -> assocd k (acts path ps) = Some (walk_inst fn ord p (prepend_path path k)).
Proof.
  induction ps as [|[k' p'] ps IH]; intros Hnd Hin; [by apply elem_of_nil in Hin|]. cbn in Hnd. apply NoDup_cons in Hnd as [Hk Hnd].
  cbn. apply elem_of_cons in Hin as [[= -> ->]|Hin]; [by rewrite decide_True|]. rewrite decide_False; [by apply IH|].
  intros ->. apply Hk. apply elem_of_list_fmap. by exists (k, p).
Qed.
End walk.
Definition inst_of (r : tree) : instance := match d_inst false r with Ok i => i | _ => zero_inst false end.
Definition on_inst {S} (fn : string -> instance -> S -> S * res unit) : string -> tree -> S -> S * res unit := fun p r => fn p (inst_of r).
Definition map_order (ord : string -> list string -> list string) : Prop := forall p l, ord p l ≡ₚ l.
Section inst_walks.
Context (ord : string -> list string -> list string) (Hord : map_order ord).
Lemma ordered_walks σ ps : named ps ->
  (forall k p, (k, p) ∈ ps -> exists vs ok, walks KW (σ ++ [Nm k]) p vs ok /\
     forall S (fn : string -> instance -> S -> S * res unit) s, walk_inst fn ord p (path_of (σ ++ [Nm k])) s = calls (on_inst fn) vs (fin ok) s) ->
  exists ps' vs ok, ps' ≡ₚ ps /\ walks_all KW σ ps' vs ok /\
     forall S (fn : string -> instance -> S -> S * res unit) s,
       in_order (ord (path_of σ) ps.*1) (acts fn ord (path_of σ) ps) s = calls (on_inst fn) vs (fin ok) s.
Proof.
  intros [Hnd Hne] H. destruct (Permutation_map_inv fst ps (Hord (path_of σ) ps.*1)) as (ps' & Hks & Hp).
  cut (exists vs ok, walks_all KW σ ps' vs ok /\
     forall S (fn : string -> instance -> S -> S * res unit) s,
       in_order (ps'.*1) (acts fn ord (path_of σ) ps) s = calls (on_inst fn) vs (fin ok) s).
  { intros (vs & ok & Hw & He). exists ps', vs, ok. split; [done|]. split; [done|]. intros S fn s. rewrite <- He. f_equal. exact Hks. }
  clear Hks. assert (Hin : forall k p, (k, p) ∈ ps' -> (k, p) ∈ ps) by (intros k p; by rewrite Hp).
  clear Hp. induction ps' as [|[k p] ps' IH]; [by exists [], true; split; [constructor|]|].
  pose proof (Hin k p ltac:(apply elem_of_list_here)) as Hkp.
  destruct (H k p Hkp) as (vs & ok & Hw & He).
  assert (Hk : k <> "") by (by eapply (proj1 (Forall_forall _ _) Hne (k, p))).
  assert (Ha : forall S (fn : string -> instance -> S -> S * res unit) s, default (stop (Ok tt)) (assocd k (acts fn ord (path_of σ) ps)) s = calls (on_inst fn) vs (fin ok) s).
  { intros S fn s. rewrite (assocd_acts fn ord _ _ _ _ Hnd Hkp). cbn. rewrite prepend_name by done. apply He. }
  destruct ok.
  - destruct IH as (vs' & ok' & Hw' & He'). { intros k' p' Hi. apply Hin. by apply elem_of_list_further. }
    exists (vs ++ vs'), ok'. split; [by constructor|]. intros S fn s. cbn [fmap list_fmap in_order fst].
    rewrite calls_app. unfold Schema.seq. rewrite Ha. cbn [fin]. destruct (calls _ vs (Ok tt) s) as [s' [[]| |]]; [|done..]. apply He'.
  - exists vs, false. split; [by constructor|]. intros S fn s. cbn [fmap list_fmap in_order fst].
    unfold Schema.seq. rewrite Ha. cbn [fin]. pose proof (calls_final (on_inst fn) vs s (in_order (ps'.*1) (acts fn ord (path_of σ) ps))) as Hc.
    unfold Schema.seq in Hc. exact Hc.
Qed.
Lemma inst_walks n r σ : depth r <= n -> (forall τ x ps, kinst KW r τ x -> KW x = (true, KObj ps) -> named ps) ->
  exists vs ok, walks KW σ r vs ok /\
    forall S (fn : string -> instance -> S -> S * res unit) s, walk_inst fn ord r (path_of σ) s = calls (on_inst fn) vs (fin ok) s.
Proof.
  revert r σ. induction n as [|n IH]; intros r σ Hd Hne; [destruct r; cbn in Hd; lia|].
  destruct (d_inst false r) as [i| |] eqn:Hdi.
  2,3: exists [], false; split; [apply (walks_bad _ _ _ KErr); unfold KW; by rewrite Hdi|]; intros S fn s; rewrite walk_inst_eq, Hdi; done.
  destruct (KW r) as [b k] eqn:HK. assert (b = true) as -> by (unfold KW in HK; rewrite Hdi in HK; congruence).
  assert (Hio : inst_of r = i) by (unfold inst_of; by rewrite Hdi).
  destruct k as [| |ps|x].
  - exists [(σ, r)], false. split; [by constructor|]. intros S fn s. rewrite walk_inst_eq, Hdi, HK. unfold Schema.seq. cbn [calls].
    unfold on_inst at 1. rewrite Hio. by destruct (fn (path_of σ) i s) as [s' [[]| |]].
  - exists [(σ, r)], true. split; [by constructor|]. intros S fn s. rewrite walk_inst_eq, Hdi, HK. unfold Schema.seq. cbn [calls].
    unfold on_inst at 1. rewrite Hio. by destruct (fn (path_of σ) i s) as [s' [[]| |]].
  - assert (Hps : jlookup "properties" r = Some (TObj ps)).
    { apply (d_inst_props _ _ _ _ Hdi). unfold KW in HK. rewrite Hdi in HK. injection HK as HK. repeat case_match; congruence. }
    destruct (ordered_walks σ ps) as (ps' & vs & ok & Hp & Hw & He).
    + eapply Hne; [constructor|done].
    + intros k p Hin. apply IH.
      * pose proof (jlookup_depth _ _ _ Hps). pose proof (member_depth _ _ _ Hin). lia.
      * intros τ x ps' Hi. apply (Hne (Nm k :: τ)). by econstructor.
    + exists ((σ, r) :: vs), ok. split; [by econstructor|]. intros S fn s. rewrite walk_inst_eq, Hdi, HK. unfold Schema.seq. cbn [calls].
      unfold on_inst at 1. rewrite Hio. destruct (fn (path_of σ) i s) as [s' [[]| |]]; [|done..]. apply He.
  - assert (Hi : jlookup "items" r = Some x).
    { rewrite <- (d_inst_items _ _ _ Hdi). unfold KW in HK. rewrite Hdi in HK. injection HK as HK. repeat case_match; congruence. }
    destruct (IH x (σ ++ [Star])) as (vs & ok & Hw & He).
    + pose proof (jlookup_depth _ _ _ Hi). lia.
    + intros τ y ps' Hk. apply (Hne (Star :: τ)). by econstructor.
    + exists ((σ, r) :: vs), ok. split; [by econstructor|]. intros S fn s. rewrite walk_inst_eq, Hdi, HK. unfold Schema.seq. cbn [calls].
      unfold on_inst at 1. rewrite Hio. destruct (fn (path_of σ) i s) as [s' [[]| |]]; [|done..]. rewrite path_star. apply He.
Qed.
Lemma inst_top props items : named (default [] props) ->
  (forall σ r ps, skinst KW (default [] props) items σ r -> KW r = (true, KObj ps) -> named ps) ->
  exists props' vs ok, props' ≡ₚ default [] props /\ walks_top KW props' items vs ok /\
    forall S (fn : string -> instance -> S -> S * res unit) s, walk_schema fn ord props items s = calls (on_inst fn) vs (fin ok) s.
Proof.
  intros Hne Hps. destruct (ordered_walks [] (default [] props) Hne) as (props' & vs & ok & Hp & Hw & He).
  { intros k p Hin. apply (inst_walks (depth p)); [done|]. intros τ x ps Hi. apply (Hps (Nm k :: τ)). left. eauto 10. }
  destruct ok.
  - destruct items as [i|].
    + destruct (inst_walks (depth i) i [Star]) as (vs' & ok & Hw' & He'); [done| |].
      { intros τ x ps Hi. apply (Hps (Star :: τ)). right. eauto 10. }
      exists props', (vs ++ vs'), ok. split; [done|]. split; [by constructor|]. intros S fn s. unfold walk_schema. rewrite calls_app. unfold Schema.seq at 1 2.
      change "$" with (path_of []) at 1. change (map _ (default [] props)) with (acts fn ord (path_of []) (default [] props)).
      rewrite He. cbn [fin]. destruct (calls _ vs (Ok tt) s) as [s' [[]| |]]; [|done..]. apply He'.
    + exists props', vs, true. split; [done|]. split; [by constructor|]. intros S fn s. unfold walk_schema, Schema.seq.
      change "$" with (path_of []) at 1. change (map _ (default [] props)) with (acts fn ord (path_of []) (default [] props)).
      rewrite He. cbn [fin]. by destruct (calls _ vs (Ok tt) s) as [s' [[]| |]].
  - exists props', vs, false. split; [done|]. split; [by constructor|]. intros S fn s. unfold walk_schema, Schema.seq.
    change "$" with (path_of []) at 1. change (map _ (default [] props)) with (acts fn ord (path_of []) (default [] props)).
    rewrite He. cbn [fin].
    pose proof (calls_final (on_inst fn) vs s (match items with Some i => walk_inst fn ord i ("$" +:+ "[*]") | None => stop (Ok tt) end)) as Hc.
    unfold Schema.seq in Hc. exact Hc.
Qed.
End inst_walks.
Lemma kinst_winst r τ x : kinst KW r τ x -> winst r τ x.
Proof.
  induction 1 as [|raw ps k p σ r HK Hin Hi IH|raw i σ r HK Hi IH].
  - constructor.
  - unfold KW in HK. destruct (d_inst false raw) as [n| |] eqn:Hd; [|done..]. injection HK as HK.
    destruct (has_type "object" n) eqn:Ho; [|repeat case_match; done].
    destruct (n_props n) as [qs|] eqn:Hq; [|done]. injection HK as ->.
    eapply winst_prop; [by apply (d_inst_type _ _ _ "object" ltac:(done) Hd)|by apply (d_inst_props _ _ _ _ Hd)|done|done].
  - unfold KW in HK. destruct (d_inst false raw) as [n| |] eqn:Hd; [|done..]. injection HK as HK.
    destruct (has_type "object" n) eqn:Ho; [repeat case_match; done|].
    destruct (has_type "array" n) eqn:Ha; [|done].
    eapply winst_item; [|by apply (d_inst_type _ _ _ "array" ltac:(done) Hd)| |done].
    + rewrite <- (d_inst_type _ _ _ "object" ltac:(done) Hd). congruence.
    + rewrite <- (d_inst_items _ _ _ Hd). destruct (n_items n); [congruence|done].
Qed.
Lemma winst_kinst r τ x : winst r τ x -> (forall τ y, kinst KW r τ y -> fine KW y) -> kinst KW r τ x.
Proof.
  induction 1 as [|raw ps k p σ r Ho Hp Hin Hi IH|raw i σ r Ho Ha Hit Hi IH]; intros Hf.
  - constructor.
  - destruct (Hf [] raw ltac:(constructor)) as (kd & HK & Hne).
    assert (KW raw = (true, KObj ps)) as HK'.
    { unfold KW in *. destruct (d_inst false raw) as [n| |] eqn:Hd; [|done..].
      rewrite (proj2 (d_inst_type _ _ _ "object" ltac:(done) Hd) Ho). by rewrite (proj2 (d_inst_props _ _ _ _ Hd) Hp). }
    econstructor; [done|done|]. apply IH. intros τ y Hy. apply (Hf (Nm k :: τ)). by econstructor.
  - destruct (Hf [] raw ltac:(constructor)) as (kd & HK & Hne).
    assert (KW raw = (true, KArr i)) as HK'.
    { unfold KW in *. destruct (d_inst false raw) as [n| |] eqn:Hd; [|done..].
      rewrite <- (d_inst_type _ _ _ "object" ltac:(done) Hd) in Ho. apply not_true_is_false in Ho. rewrite Ho.
      rewrite (proj2 (d_inst_type _ _ _ "array" ltac:(done) Hd) Ha). by rewrite (d_inst_items _ _ _ Hd), Hit. }
    econstructor; [done|]. apply IH. intros τ y Hy. apply (Hf (Star :: τ)). by econstructor.
Qed.
Lemma fine_inst r : fine KW r <-> inst_fine r.
Proof.
  unfold fine, inst_fine, KW. destruct (d_inst false r) as [n| |] eqn:Hd.
  2,3: split; [by intros (k & [=] & _)|by intros ([? [=]] & _)].
  pose proof (d_inst_type _ _ _ "object" ltac:(done) Hd) as Ho. pose proof (d_inst_type _ _ _ "array" ltac:(done) Hd) as Ha.
  pose proof (fun ps => d_inst_props _ _ _ ps Hd) as Hp. pose proof (d_inst_items _ _ _ Hd) as Hi.
  rewrite <- Ho, <- Ha, <- Hi. destruct (has_type "object" n).
  - split.
    + intros (k & Hk & Hne). destruct (n_props n) as [ps|] eqn:E; [|congruence]. split; [by eexists|]. split; [|done].
      intros _. exists ps. by apply Hp.
    + intros (_ & H1 & _). destruct (H1 eq_refl) as [ps Hps%Hp]. rewrite Hps. by eexists.
  - destruct (has_type "array" n).
    + split.
      * intros (k & Hk & Hne). destruct (n_items n) as [x|]; [|congruence]. split; [by eexists|]. split; [done|]. by eexists.
      * intros (_ & _ & H2). destruct (H2 ltac:(done) eq_refl) as [x ->]. by eexists.
    + split; [|by eexists]. intros _. split; [by eexists|]. done.
Qed.
Lemma skinst_swinst props items σ r : skinst KW props items σ r -> swinst props items σ r.
Proof. intros [(k & p & τ & Hin & -> & Hi%kinst_winst)|(i & τ & -> & -> & Hi%kinst_winst)]; by econstructor. Qed.
Lemma swinst_skinst props items σ r : swinst props items σ r -> (forall σ r, skinst KW props items σ r -> fine KW r) -> skinst KW props items σ r.
Proof.
  intros [k p τ x Hin Hi|i τ x Hi0 Hi] Hf; [left|right].
  - exists k, p, τ. split; [done|]. split; [done|]. apply winst_kinst; [done|]. intros τ' y Hy. apply (Hf (Nm k :: τ')). left. eauto 10.
  - exists i, τ. split; [done|]. split; [done|]. apply winst_kinst; [done|]. intros τ' y Hy. apply (Hf (Star :: τ')). right. eauto 10.
Qed.
Lemma skinst_perm K props props' items σ r : props' ≡ₚ props -> skinst K props' items σ r <-> skinst K props items σ r.
Proof. intros Hp. unfold skinst. setoid_rewrite Hp. done. Qed.
Lemma calls_map {X Y S} (g : Y -> X) (fn : string -> X -> S -> S * res unit) vs is final s :
  Forall2 (fun v i => v.1 = i.1 /\ i.2 = g v.2) vs is -> calls (fun p y => fn p (g y)) vs final s = calls fn is final s.
Proof.
  intros H. revert s. induction H as [|[σ y] [σ' x] vs is [Ha Hb] H IH]; intros s; [done|]. cbn in Ha, Hb. subst. cbn [calls].
  destruct (fn (path_of σ') (g y) s) as [s' [[]| |]]; [|done..]. apply IH.
Qed.
Lemma walk_visits ord props items : map_order ord -> named (default [] props) ->
  (forall σ r, swinst (default [] props) items σ r -> props_named r) ->
  exists vs is final,
    (forall S (fn : string -> instance -> S -> S * res unit) s, walk_schema fn ord props items s = calls fn is final s) /\
    Forall2 (fun v i => v.1 = i.1 /\ d_inst false v.2 = Ok i.2) vs is /\
    (forall σ r, (σ, r) ∈ vs -> swinst (default [] props) items σ r) /\
    (final = Ok tt -> forall σ r, swinst (default [] props) items σ r -> (σ, r) ∈ vs) /\
    once vs /\ parents_first vs /\
    (final = Ok tt <-> forall σ r, swinst (default [] props) items σ r -> inst_fine r) /\ (final = Ok tt \/ final = Err).
Proof.
  intros Hord Hnm Hps.
  assert (Hps' : forall σ r ps, skinst KW (default [] props) items σ r -> KW r = (true, KObj ps) -> named ps).
  { intros σ r ps Hi%skinst_swinst HK. apply (Hps _ _ Hi).
    unfold KW in HK. destruct (d_inst false r) as [n| |] eqn:Hd; [|done..]. injection HK as HK. apply (d_inst_props _ _ _ _ Hd).
    repeat case_match; congruence. }
  destruct (inst_top ord Hord props items Hnm) as (props' & vs & ok & Hp & Ht & He). { intros. by eapply Hps'. }
  destruct (top_facts _ _ _ _ _ Ht) as (H1 & H2 & H3 & H4 & H5).
  { rewrite Hp. apply Hnm. }
  { intros σ r ps Hi. rewrite skinst_perm in Hi by done. by eapply Hps'. }
  assert (Hok : fin ok = Ok tt <-> ok = true) by (by destruct ok).
  assert (Hdec : forall σ r, (σ, r) ∈ vs -> exists i, d_inst false r = Ok i).
  { assert (Hb : (forall σ r vs ok, walks KW σ r vs ok -> forall ρ x, (ρ, x) ∈ vs -> exists i, d_inst false x = Ok i) /\
      (forall σ ps vs ok, walks_all KW σ ps vs ok -> forall ρ x, (ρ, x) ∈ vs -> exists i, d_inst false x = Ok i)).
    { assert (Hk : forall r k, KW r = (true, k) -> exists i, d_inst false r = Ok i).
      { intros r k H. unfold KW in H. destruct (d_inst false r) as [i| |]; [by exists i|done..]. }
      apply walks_mutind.
      - intros σ r k HK ρ x H. by apply elem_of_nil in H.
      - intros σ r HK ρ x H%elem_of_list_singleton. injection H as -> ->. by eapply Hk.
      - intros σ r HK ρ x H%elem_of_list_singleton. injection H as -> ->. by eapply Hk.
      - intros σ r ps ps' vs0 ok0 HK Hp0 _ IH ρ x [H|H]%elem_of_cons; [injection H as -> ->; by eapply Hk|by eapply IH].
      - intros σ r i vs0 ok0 HK _ IH ρ x [H|H]%elem_of_cons; [injection H as -> ->; by eapply Hk|by eapply IH].
      - intros σ ρ x H. by apply elem_of_nil in H.
      - intros σ k p ps vs0 _ IH ρ x H. by eapply IH.
      - intros σ k p ps vs0 vs' ok0 _ IH _ IH' ρ x [H|H]%elem_of_app; [by eapply IH|by eapply IH']. }
    intros σ r Hin. destruct Ht as [items vs Hw|vs Hw|i vs vs' ok Hw Hw'].
    - by eapply (proj2 Hb).
    - by eapply (proj2 Hb).
    - apply elem_of_app in Hin as [Hin|Hin]; [by eapply (proj2 Hb)|by eapply (proj1 Hb)]. }
  exists vs, (map (fun v => (v.1, inst_of v.2)) vs), (fin ok).
  split.
  { intros S fn s. rewrite He. unfold on_inst. apply (calls_map inst_of).
    clear. induction vs; cbn; constructor; auto. }
  split.
  { clear -Hdec. induction vs as [|[σ r] vs IH]; cbn; constructor.
    - cbn. split; [done|]. unfold inst_of. destruct (Hdec σ r ltac:(apply elem_of_list_here)) as [i ->]. done.
    - apply IH. intros σ' r' Hin. apply (Hdec σ'). by apply elem_of_list_further. }
  assert (Hall : (forall σ r, skinst KW props' items σ r -> fine KW r) <-> (forall σ r, swinst (default [] props) items σ r -> inst_fine r)).
  { split; intros H σ r Hi.
    - apply fine_inst, (H σ). apply (skinst_perm _ _ _ _ _ _ Hp). apply swinst_skinst; [done|].
      intros σ' r' Hi'. apply (H σ'). by apply (skinst_perm _ _ _ _ _ _ Hp).
    - apply fine_inst, (H σ). apply skinst_swinst. by apply (skinst_perm _ _ _ _ _ _ Hp). }
  split_and!; try done.
  - intros σ r Hin. apply skinst_swinst. apply (skinst_perm _ _ _ _ _ _ Hp). by apply H1.
  - intros Hf σ r Hi. apply Hok in Hf. apply H2; [done|]. apply (skinst_perm _ _ _ _ _ _ Hp). apply swinst_skinst; [done|].
    intros σ' r' Hi'. apply (proj1 H5 Hf σ'). by apply (skinst_perm _ _ _ _ _ _ Hp).
  - by rewrite Hok, H5.
  - destruct ok; auto.
Qed.

(** ** FieldType *)
Definition nonnull (l : list string) : list string := filter (fun s => s <> "null") l.
Definition nonblank (l : list string) : list string := filter (fun s => s <> "") l.
Lemma type_loop_spec l nl jt : jt <> "null" ->
  exists jt', type_loop l (nl, jt, false) = (nl || bool_decide ("null" ∈ names_in l), jt', false) /\
     (jt' = "" /\ jt = "" /\ nonblank (nonnull (names_in l)) = [] \/
      jt' <> "" /\ (jt = "" /\ nonblank (nonnull (names_in l)) = [jt'] \/ jt = jt' /\ nonnull (names_in l) = []))
  \/ (exists jt' nl', type_loop l (nl, jt, false) = (nl', jt', true)) /\ 2 <= length (nonnull (names_in l)) + (if decide (jt = "") then 0 else 1).
Proof.
  revert nl jt. induction l as [|t l IH]; intros nl jt Hjt.
  { exists jt. left. cbn. rewrite orb_false_r. split; [done|]. destruct (decide (jt = "")); [left|right]; auto. }
  destruct t as [[]| | | |]; cbn [type_loop]; try (exact (IH nl jt Hjt)).
  unfold names_in in *. cbn [omap list_omap]. set (L := omap _ l) in *.
  destruct (decide (s = "null")) as [->|Hs].
  - unfold nonnull in *. rewrite filter_cons_False by (by intros H). destruct (IH true jt Hjt) as [jt' [[-> H]|H]].
    + exists jt'. left. split; [|exact H]. f_equal. f_equal. rewrite (bool_decide_true ("null" ∈ "null" :: L)) by apply elem_of_list_here. by rewrite orb_true_r.
    + exists jt'. right. done.
  - assert (Hb : forall b, b || bool_decide ("null" ∈ s :: L) = b || bool_decide ("null" ∈ L)).
    { intros b. f_equal. apply bool_decide_ext. rewrite elem_of_cons. split; [intros [H|H]; congruence|by right]. }
    rewrite Hb. unfold nonnull in *. rewrite filter_cons_True by done.
    destruct (decide (jt = "")) as [->|Hne].
    + rewrite bool_decide_false by (intros H; by apply H). cbn [orb].
      destruct (IH nl s Hs) as [jt' [[-> H]|[H H']]].
      * exists jt'. destruct H as [(-> & -> & H)|(H0 & [[-> H]|[-> H]])].
        -- left. split; [done|]. left. split; [done|]. split; [done|]. unfold nonblank in *. rewrite filter_cons_False by (intros Hx; by apply Hx). done.
        -- left. split; [done|]. right. split; [done|]. left. split; [done|]. unfold nonblank in *. rewrite filter_cons_False by (intros Hx; by apply Hx). done.
        -- left. split; [done|]. right. split; [done|]. left. split; [done|]. unfold nonblank in *. rewrite filter_cons_True by done. by rewrite H.
      * exists jt'. right. split; [done|]. cbn [length]. case_decide; lia.
    + rewrite bool_decide_true by done. cbn [orb]. exists "". right. split.
      * clear. generalize dependent nl. generalize dependent s. induction l as [|t l IH]; intros s nl; [by do 2 eexists|].
        cbn [type_loop]. destruct t as [[]| | | |]; try apply IH. case_decide; apply IH.
      * cbn [length]. lia.
Qed.
Lemma names_filter l : ~ ("" ∈ l) -> nonblank (nonnull l) = nonnull l.
Proof.
  intros H. unfold nonblank, nonnull. induction l as [|x l IH]; [done|]. rewrite elem_of_cons in H.
  assert (~ "" ∈ l) by tauto. destruct (decide (x = "null")) as [->|Hx].
  - rewrite !filter_cons_False by (by intros Hn). by apply IH.
  - rewrite filter_cons_True by done. rewrite filter_cons_True by (intros ->; tauto). by rewrite IH.
Qed.
Lemma field_type_names r l : jlookup "type" r = Some (TArr l) -> ~ ("" ∈ names_in l) ->
  (2 <= length (nonnull (names_in l)) -> field_type r = Err) /\
  (forall t, nonnull (names_in l) = [t] -> field_type r = Ok (t, bool_decide ("null" ∈ names_in l))) /\
  (nonnull (names_in l) = [] -> field_type r = Ok ("", bool_decide ("null" ∈ names_in l))).
Proof.
  intros Hr Hne. unfold field_type. rewrite Hr.
  destruct (type_loop_spec l false "" ltac:(done)) as [jt' [[-> H]|[(jt & nl & ->) H]]].
  - rewrite (names_filter _ Hne) in H. cbn [orb].
    destruct H as [(-> & _ & ->)|(Hj & [[_ ->]|[<- _]])]; [| |done].
    + split; [cbn; lia|]. split; [done|]. done.
    + split; [cbn; lia|]. split; [intros t [= ->]; done|done].
  - rewrite decide_True in H by done. split; [done|]. split; [intros t Ht|intros Ht]; rewrite Ht in H; cbn in H; lia.
Qed.
Lemma field_type_in r ty nl t : field_type r = Ok (ty, nl) -> t <> "" -> t <> "null" -> t ∈ type_names r <-> ty = t.
Proof.
  intros H Ht Hn. unfold field_type, type_names in *. destruct (jlookup "type" r) as [[[]|l| | |]|]; try done.
  { injection H as -> _. rewrite elem_of_list_singleton. done. }
  destruct (type_loop_spec l false "" ltac:(done)) as [jt' [[He Hc]|[(jt & nl' & He) _]]]; rewrite He in H; [|done].
  injection H as -> _. assert (Hin : t ∈ names_in l <-> t ∈ nonblank (nonnull (names_in l))).
  { unfold nonblank, nonnull. rewrite !elem_of_list_filter. tauto. }
  rewrite Hin. destruct Hc as [(-> & _ & ->)|(Hj & [[_ ->]|[<- _]])]; [| |done].
  - split; [intros Hx; by apply elem_of_nil in Hx|done].
  - rewrite elem_of_list_singleton. done.
Qed.
Lemma names_perm l l' : l ≡ₚ l' -> names_in l ≡ₚ names_in l'.
Proof. intros H. unfold names_in. by rewrite H. Qed.
Lemma field_type_perm r r' l l' : jlookup "type" r = Some (TArr l) -> jlookup "type" r' = Some (TArr l') -> l ≡ₚ l' ->
  ~ ("" ∈ names_in l) -> field_type r = field_type r'.
Proof.
  intros Hr Hr' Hp Hne. pose proof (names_perm _ _ Hp) as Hn.
  assert (Hne' : ~ "" ∈ names_in l') by (by rewrite <- Hn).
  destruct (field_type_names _ _ Hr Hne) as (A1 & A2 & A3). destruct (field_type_names _ _ Hr' Hne') as (B1 & B2 & B3).
  assert (Hf : nonnull (names_in l) ≡ₚ nonnull (names_in l')) by (unfold nonnull; by rewrite Hn).
  assert (Hb : bool_decide ("null" ∈ names_in l) = bool_decide ("null" ∈ names_in l')) by (apply bool_decide_ext; by rewrite Hn).
  destruct (nonnull (names_in l)) as [|x [|y L]].
  - apply Permutation_nil_l in Hf. rewrite A3, B3 by done. by rewrite Hb.
  - apply Permutation_singleton_l in Hf. rewrite (A2 x), (B2 x) by done. by rewrite Hb.
  - rewrite A1, B1; [done| |cbn; lia]. rewrite <- Hf. cbn. lia.
Qed.

(** ** Walk against WalkRaw *)
Lemma calls_record {X} (vs : list (list seg * X)) final acc :
  calls record vs final acc = (acc ++ map (fun v => (path_of v.1, v.2)) vs, final).
Proof.
  revert acc. induction vs as [|[σ x] vs IH]; intros acc; cbn [calls record map]; [by rewrite app_nil_r|].
  rewrite IH. by rewrite <- app_assoc.
Qed.
Lemma inst_winst r τ x : (forall τ y, inst r τ y -> exists ty nl, field_type y = Ok (ty, nl)) -> inst r τ x <-> winst r τ x.
Proof.
  intros Hft. split.
  - induction 1 as [|raw nl ps k p σ r Hf Hps Hin Hi IH|raw nl i σ r Hf Hit Hi IH].
    + constructor.
    + eapply winst_prop; [by eapply field_type_in|done|done|]. apply IH. intros τ y Hy. apply (Hft (Nm k :: τ)). by econstructor.
    + eapply winst_item; [|by eapply field_type_in|done|].
      * rewrite (field_type_in _ _ _ _ Hf) by done. done.
      * apply IH. intros τ y Hy. apply (Hft (Star :: τ)). by econstructor.
  - induction 1 as [|raw ps k p σ r Ho Hp Hin Hi IH|raw i σ r Ho Ha Hit Hi IH].
    + constructor.
    + destruct (Hft [] raw ltac:(constructor)) as (ty & nl & Hf). apply (field_type_in _ _ _ _ Hf) in Ho as ->; [|done..].
      econstructor; [done|done|done|]. apply IH. intros τ y Hy. apply (Hft (Nm k :: τ)). by econstructor.
    + destruct (Hft [] raw ltac:(constructor)) as (ty & nl & Hf). apply (field_type_in _ _ _ _ Hf) in Ha as ->; [|done..].
      econstructor; [done|done|]. apply IH. intros τ y Hy. apply (Hft (Star :: τ)). by econstructor.
Qed.
Lemma walks_agree ord props items l1 r1 l2 r2 : map_order ord -> named (default [] props) ->
  (forall σ r, sinst (default [] props) items σ r ->
     props_named r /\ (exists ty nl, field_type r = Ok (ty, nl)) /\ exists i, d_inst false r = Ok i) ->
  walk_raw_schema record (default [] props) items [] = (l1, r1) ->
  walk_schema record ord props items [] = (l2, r2) ->
  (r1 = Ok tt <-> r2 = Ok tt) /\
  (r1 = Ok tt -> exists l3, l3 ≡ₚ l1 /\ Forall2 (fun a b => a.1 = b.1 /\ d_inst false a.2 = Ok b.2) l3 l2).
Proof.
  intros Hord Hnm Hall H1 H2.
  assert (Heq : forall σ r, sinst (default [] props) items σ r <-> swinst (default [] props) items σ r).
  { intros σ r. split; intros [k p τ x Hin Hi|i τ x Hi0 Hi].
    - eapply swinst_prop; [done|]. apply inst_winst; [|done]. intros τ' y Hy. eapply (Hall (Nm k :: τ')). by econstructor.
    - eapply swinst_item; [done|]. apply inst_winst; [|done]. intros τ' y Hy. eapply (Hall (Star :: τ')). by econstructor.
    - eapply sinst_prop; [done|]. apply inst_winst; [|done]. intros τ' y Hy. eapply (Hall (Nm k :: τ')). by econstructor.
    - eapply sinst_item; [done|]. apply inst_winst; [|done]. intros τ' y Hy. eapply (Hall (Star :: τ')). by econstructor. }
  destruct (walk_raw_visits (default [] props) items Hnm) as (vs & f1 & E1 & A1 & A2 & A3 & _ & A5 & _). { intros σ r Hi. by apply (Hall σ). }
  destruct (walk_visits ord props items Hord Hnm) as (ws & is & f2 & E2 & E3 & B1 & B2 & B3 & _ & B5 & _).
  { intros σ r Hi. apply (Hall σ). by apply Heq. }
  rewrite E1, calls_record in H1. rewrite E2, calls_record in H2. injection H1 as <- <-. injection H2 as <- <-.
  assert (Hfine : f1 = Ok tt <-> f2 = Ok tt).
  { rewrite A5, B5. setoid_rewrite <- Heq. apply forall_proper. intros σ. apply forall_proper. intros r. split; intros H Hi; specialize (H Hi);
      destruct (Hall σ r Hi) as (_ & (ty & nl & Hf) & Hd).
    - destruct H as (ty' & nl' & Hf' & Ho & Ha). assert (ty' = ty) as -> by congruence. split; [done|]. split.
      + intros Hx. apply Ho. by eapply field_type_in.
      + intros _ Hx. apply Ha. by eapply field_type_in.
    - destruct H as (_ & Ho & Ha). exists ty, nl. split; [done|]. split.
      + intros ->. apply Ho. by eapply field_type_in.
      + intros ->. apply Ha; [|by eapply field_type_in]. by rewrite (field_type_in _ _ _ _ Hf). }
  split; [exact Hfine|]. intros Hf. exists (map (fun v => (path_of v.1, v.2)) ws). split.
  - apply Permutation_map. apply NoDup_Permutation.
    + eapply NoDup_fmap_1. exact B3.
    + eapply NoDup_fmap_1. exact A3.
    + intros [σ r]. split; intros Hin.
      * apply A2; [done|]. apply Heq. by apply B1.
      * apply B2; [by apply Hfine|]. apply Heq. by apply A1.
  - cbn [app]. clear -E3. induction E3 as [|[σ r] [σ' i] ws is [Ha Hb] H IH]; cbn; constructor; [|exact IH]. cbn in *. by subst.
Qed.

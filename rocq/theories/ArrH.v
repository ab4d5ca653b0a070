(** A document in the heap into which arrays are stored: the maps that are written are not visible. *)
From stdpp Require Import strings list gmap.
From Coq Require Import ZArith Lia.
From Verif Require Import GoStr GoStrL Val Conv Instr Heap SpecPath PathL Den Param HeapL Refine Top SpecProj ProjL SpecArr ArrT.

(** the maps on the way to the places where something may be stored, by the names that lead to them *)
Notation spine := (list string -> option nat).
Record inv (S : list string -> Prop) (G : spine) (s : st) (h : gmap nat cell) (input : val) (cur : tree) : Prop := {
  inv_ok : stok s;
  inv_sub : h ⊆ hp s;
  inv_root : match G [] with Some l => input = VMap l | None => repr h input cur end;
  inv_node : forall p l, G p = Some l -> h !! l = None /\ exists m kvs, hp s !! l = Some (CMap m) /\
    getp p cur = Some (TObj kvs) /\
    forall k, match G (p ++ [k]) with Some l' => m !! k = Some (VMap l') | None => option_Forall2 (repr h) (m !! k) (tmap kvs !! k) end;
  inv_inj : forall p p' l, G p = Some l -> G p' = Some l -> p = p';
  inv_dom : forall p l, G p = Some l -> S p;
  inv_full : forall p, S p -> objp p cur -> is_Some (G p) }.

(** what a computation that writes into the maps of [G] only does to the state *)
Definition fr (G : spine) (s s' : st) : Prop :=
  stok s' /\ nxt s <= nxt s' /\ froms s' = froms s /\
  forall x c, hp s !! x = Some c -> (forall p, G p <> Some x) -> hp s' !! x = Some c.
Definition gext (s : st) (G G' : spine) : Prop :=
  (forall p l, G p = Some l -> G' p = Some l) /\ (forall p l, G' p = Some l -> G p = Some l \/ nxt s <= l).
Definition grows (s : st) (h h' : gmap nat cell) : Prop :=
  h ⊆ h' /\ forall l, is_Some (h' !! l) -> is_Some (h !! l) \/ nxt s <= l.
Lemma step_fr G s s' : step s s' -> fr G s s'.
Proof. intros (H1 & H2 & H3 & H4). split; [done|]. split; [done|]. split; [done|]. intros x c Hx _. by eapply lookup_weaken. Qed.
Lemma gext_refl s G : gext s G G.
Proof. split; auto. Qed.
Lemma gext_trans s s1 G G1 G2 : nxt s <= nxt s1 -> gext s G G1 -> gext s1 G1 G2 -> gext s G G2.
Proof.
  intros Hn [A1 A2] [B1 B2]. split; [auto|]. intros p l Hl. destruct (B2 p l Hl) as [H|H]; [by apply A2|right; lia].
Qed.
Lemma fr_trans G G1 s s1 s2 : stok s -> fr G s s1 -> gext s G G1 -> fr G1 s1 s2 -> fr G s s2.
Proof.
  intros Hs (A1 & A2 & A3 & A4) [_ HG] (B1 & B2 & B3 & B4). split; [done|]. split; [lia|]. split; [congruence|].
  intros x c Hx Hg. apply B4; [by apply A4|]. intros p Hp. destruct (HG p x Hp) as [H|H]; [by eapply Hg|].
  assert (x < nxt s) by (apply Hs; by eexists). lia.
Qed.
Lemma grows_refl s h : grows s h h. Proof. split; auto. Qed.
Lemma grows_trans s s1 h h1 h2 : nxt s <= nxt s1 -> grows s h h1 -> grows s1 h1 h2 -> grows s h h2.
Proof.
  intros Hn [A1 A2] [B1 B2]. split; [by etrans|]. intros l Hl. destruct (B2 l Hl) as [H|H]; [by apply A2|right; lia].
Qed.
Lemma vis_grows s s' h h' : vis s s' h h' -> grows s h h'.
Proof. intros (A & _ & B). by split. Qed.

Section inv.
Context (S : list string -> Prop) (HS : forall p k, S (p ++ [k]) -> S p).
Notation inv := (inv S).

Lemma inv_lt G s h input cur p l : inv G s h input cur -> G p = Some l -> l < nxt s.
Proof. intros Hi Hp. destruct (inv_node _ _ _ _ _ _ Hi p l Hp) as (_ & m & kvs & Hl & _). apply (inv_ok _ _ _ _ _ _ Hi). by eexists. Qed.
(** computations that write nothing *)
Lemma inv_step G s s' h h' input cur : step s s' -> vis s s' h h' -> inv G s h input cur -> inv G s' h' input cur.
Proof.
  intros Hst Hv Hi. split.
  - apply Hst.
  - apply Hv.
  - pose proof (inv_root _ _ _ _ _ _ Hi). destruct (G []); [done|]. eapply repr_mono; [apply Hv|done].
  - intros p l Hp. pose proof (inv_lt _ _ _ _ _ _ _ Hi Hp) as Hlt.
    destruct (inv_node _ _ _ _ _ _ Hi p l Hp) as (Hn & m & kvs & Hl & Hg & Hk). split.
    + destruct (h' !! l) eqn:E; [|done]. destruct (proj2 (proj2 Hv) l) as [[? Hc]|Hc]; [by eexists|congruence|lia].
    + exists m, kvs. split; [by eapply lookup_weaken, Hst|]. split; [done|]. intros k. specialize (Hk k).
      destruct (G (p ++ [k])); [done|]. destruct Hk; constructor. eapply repr_mono; [apply Hv|done].
  - apply Hi.
  - apply Hi.
  - apply Hi.
Qed.
(** writes to a cell that is neither visible nor on the spine *)
Lemma inv_other G s h input cur l c n fs tk : inv G s h input cur -> (forall p, G p <> Some l) -> h !! l = None -> l < n -> nxt s <= n ->
  inv G (St (<[l := c]> (hp s)) n fs tk) h input cur.
Proof.
  intros Hi Hg Hh Hl Hn. split; try apply Hi.
  - intros x [d Hx]. cbn in Hx |- *. destruct (decide (x = l)) as [->|Hne]; [done|]. rewrite lookup_insert_ne in Hx by done.
    assert (x < nxt s) by (apply (inv_ok _ _ _ _ _ _ Hi); by eexists). lia.
  - cbn. apply insert_subseteq_r; [done|apply Hi].
  - intros p x Hp. destruct (inv_node _ _ _ _ _ _ Hi p x Hp) as (H1 & m & kvs & H2 & H3). split; [done|].
    exists m, kvs. split; [|done]. cbn. rewrite lookup_insert_ne; [done|]. intros ->. by eapply Hg.
Qed.

(** reading a place that is not on the spine *)
Lemma inv_select G s h input cur ks : inv G s h input cur -> ~ S ks ->
  option_Forall2 (repr h) (select_path (view (hp s)) ks input) (select_path tview ks cur).
Proof.
  intros Hi Hks.
  assert (Hview : forall a b, repr h a b -> vrel (repr h) (view (hp s) a) (tview b)).
  { intros a b. apply repr_view_sub. apply Hi. }
  assert (Hgen : forall ks p l kvs, ~ S (p ++ ks) -> G p = Some l -> getp p cur = Some (TObj kvs) ->
    option_Forall2 (repr h) (select_path (view (hp s)) ks (VMap l)) (select_path tview ks (TObj kvs))).
  { clear ks Hks. induction ks as [|k ks IH]; intros p l kvs Hks Hp Hg.
    - rewrite app_nil_r in Hks. exfalso. apply Hks. by eapply (inv_dom _ _ _ _ _ _ Hi).
    - destruct (inv_node _ _ _ _ _ _ Hi p l Hp) as (_ & m & kvs' & Hl & Hg' & Hk). rewrite Hg in Hg'. injection Hg' as <-.
      cbn [select_path]. rewrite select_obj.
      assert (E : select (view (hp s)) k (VMap l) = m !! k). { unfold select. cbn. unfold hmap. by rewrite Hl. }
      rewrite E. specialize (Hk k). destruct (G (p ++ [k])) as [l'|] eqn:Ek.
      + rewrite Hk. destruct (inv_node _ _ _ _ _ _ Hi _ _ Ek) as (_ & _ & kvs2 & _ & Hg2 & _).
        rewrite getp_snoc, Hg in Hg2. cbn in Hg2. rewrite Hg2. cbn [mbind option_bind]. apply (IH (p ++ [k])); [by rewrite <- app_assoc|done|].
        rewrite getp_snoc, Hg. done.
      + destruct Hk as [x y Hxy|]; [|constructor]. by apply select_path_rel. }
  pose proof (inv_root _ _ _ _ _ _ Hi) as Hr. destruct (G []) as [l|] eqn:E0; [|by apply select_path_rel].
  subst input. destruct (inv_node _ _ _ _ _ _ Hi _ _ E0) as (_ & _ & kvs & _ & Hg & _). injection Hg as ->.
  by apply (Hgen ks [] l kvs).
Qed.

(** the map that holds a member that is on the spine is on the spine *)
Lemma inv_up G s h input cur p k l : inv G s h input cur -> G (p ++ [k]) = Some l -> is_Some (G p).
Proof.
  intros Hi Hp. eapply (inv_full _ _ _ _ _ _ Hi).
  - eapply HS. by eapply (inv_dom _ _ _ _ _ _ Hi).
  - destruct (inv_node _ _ _ _ _ _ Hi _ _ Hp) as (_ & _ & kvs & _ & Hg & _). rewrite getp_snoc in Hg.
    destruct (getp p cur) as [[| |ks| |]|] eqn:E; try done. by eexists.
Qed.
Lemma inv_pre G s h input cur q p l : inv G s h input cur -> G p = Some l -> q `prefix_of` p -> is_Some (G q).
Proof.
  intros Hi Hp [r ->]. revert l Hp. induction r as [|k r IH] using rev_ind; intros l Hp; [rewrite app_nil_r in Hp; by eexists|].
  rewrite app_assoc in Hp. destruct (inv_up _ _ _ _ _ _ _ _ Hi Hp) as [l' Hl']. by eapply IH.
Qed.

Lemma snoc_prefix_inv {A} (p q : list A) k : p `prefix_of` q ++ [k] -> p `prefix_of` q \/ p = q ++ [k].
Proof.
  intros [r Hr]. destruct r as [|x r _] using rev_ind; [right; by rewrite app_nil_r in Hr|left].
  rewrite app_assoc in Hr. apply app_inj_tail in Hr as [-> _]. by eexists.
Qed.
Lemma not_longer {A} (p : list A) k : ~ p ++ [k] `prefix_of` p.
Proof. intros H. apply prefix_length in H. rewrite app_length in H. cbn in H. lia. Qed.

(** storing a visible value in a map of the spine *)
Lemma inv_set G s h input cur p l m k v b n : inv G s h input cur -> G p = Some l -> hp s !! l = Some (CMap m) ->
  ~ S (p ++ [k]) -> repr h v b -> nxt s <= n ->
  exists cur', stored (p ++ [k]) b cur = Some cur' /\
    inv G (St (<[l := CMap (<[k := v]> m)]> (hp s)) n (froms s) (tick s)) h input cur'.
Proof.
  intros Hi Hp Hl HnS Hv Hn.
  destruct (inv_node _ _ _ _ _ _ Hi p l Hp) as (Hh & m' & kvs & Hl' & Hg & Hk). rewrite Hl in Hl'. injection Hl' as <-.
  destruct (stored_step p k b cur kvs Hg) as (cur' & Hs & Hgp & Hq). exists cur'. split; [done|].
  assert (HnG : forall q, (p ++ [k]) `prefix_of` q -> G q = None).
  { intros q Hpre. destruct (G q) as [lq|] eqn:Eq; [|done]. destruct (inv_pre _ _ _ _ _ _ _ _ Hi Eq Hpre) as [x Hx].
    exfalso. apply HnS. by eapply (inv_dom _ _ _ _ _ _ Hi). }
  split.
  - intros x [c Hx]. cbn in Hx |- *. destruct (decide (x = l)) as [->|Hne].
    + pose proof (inv_lt _ _ _ _ _ _ _ Hi Hp). lia.
    + rewrite lookup_insert_ne in Hx by done. assert (x < nxt s) by (apply (inv_ok _ _ _ _ _ _ Hi); by eexists). lia.
  - cbn. apply insert_subseteq_r; [done|apply Hi].
  - pose proof (inv_root _ _ _ _ _ _ Hi). destruct (G []) eqn:E; [done|].
    destruct (inv_pre _ _ _ _ _ [] _ _ Hi Hp (prefix_nil _)). congruence.
  - intros q lq Eq. destruct (inv_node _ _ _ _ _ _ Hi q lq Eq) as (Hhq & mq & kq & Hlq & Hgq & Hkq). split; [done|].
    assert (Hnq : ~ (p ++ [k]) `prefix_of` q) by (intros Hpre; rewrite (HnG q Hpre) in Eq; done).
    destruct (Hq q Hnq) as [_ H2]. destruct (H2 kq Hgq) as (kq' & Hgq' & Hsame). cbn [hp].
    destruct (decide (q = p)) as [->|Hne].
    + assert (lq = l) as -> by congruence. rewrite Hl in Hlq. injection Hlq as <-. rewrite Hg in Hgq. injection Hgq as <-.
      rewrite Hgp in Hgq'. injection Hgq' as <-.
      exists (<[k := v]> m), (set_key k b kvs). rewrite lookup_insert. split; [done|]. split; [done|]. intros k'.
      destruct (decide (k = k')) as [<-|Hnk].
      * rewrite (HnG (p ++ [k])) by done. rewrite lookup_insert, tmap_set, lookup_insert. by constructor.
      * rewrite tmap_set, !lookup_insert_ne by done. apply Hk.
    + assert (lq <> l) by (intros ->; apply Hne; by eapply (inv_inj _ _ _ _ _ _ Hi)).
      exists mq, kq'. rewrite lookup_insert_ne by done. split; [done|]. split; [done|]. intros k'. specialize (Hkq k').
      destruct (G (q ++ [k'])) as [l'|] eqn:E'; [done|]. rewrite Hsame; [done|]. intros Hpre.
      apply snoc_prefix_inv in Hpre as [Hpre|Heq].
      * destruct (inv_pre _ _ _ _ _ _ _ _ Hi Hp Hpre). congruence.
      * apply app_inj_tail in Heq as [-> _]. done.
  - apply Hi.
  - apply Hi.
  - intros q HSq Hobj. destruct (decide ((p ++ [k]) `prefix_of` q)) as [Hpre|Hnq].
    + exfalso. apply HnS. destruct Hpre as [r ->]. clear -HS HSq. revert HSq. induction r as [|x r IH] using rev_ind; [by rewrite app_nil_r|].
      rewrite app_assoc. intros H. apply IH. by eapply HS.
    + apply (inv_full _ _ _ _ _ _ Hi); [done|]. by apply (Hq q Hnq).
Qed.
(** making a missing map of the spine *)
Lemma inv_mkdir G s h input cur p l m k n : inv G s h input cur -> G p = Some l -> hp s !! l = Some (CMap m) ->
  S (p ++ [k]) -> m !! k = None \/ m !! k = Some (VS SNil) -> nxt s < n ->
  exists cur' kvs, getp p cur = Some (TObj kvs) /\ (tmap kvs !! k = None \/ tmap kvs !! k = Some (TS SNil)) /\
    stored (p ++ [k]) (TObj []) cur = Some cur' /\
    inv (fun q => if decide (q = p ++ [k]) then Some (nxt s) else G q)
      (St (<[l := CMap (<[k := VMap (nxt s)]> m)]> (<[nxt s := CMap ∅]> (hp s))) n (froms s) (tick s)) h input cur'.
Proof.
  intros Hi Hp Hl HSk Hmk Hn.
  destruct (inv_node _ _ _ _ _ _ Hi p l Hp) as (Hh & m' & kvs & Hl' & Hg & Hk). rewrite Hl in Hl'. injection Hl' as <-.
  destruct (stored_step p k (TObj []) cur kvs Hg) as (cur' & Hs & Hgp & Hq). exists cur', kvs. split; [done|].
  assert (Hkn : tmap kvs !! k = None \/ tmap kvs !! k = Some (TS SNil)).
  { specialize (Hk k). destruct (G (p ++ [k])) as [l'|]; [rewrite Hk in Hmk; by destruct Hmk|].
    destruct Hmk as [E|E]; rewrite E in Hk; inversion Hk as [x y Hxy|]; subst; [by left|right].
    destruct y as [sc|ts|ks|nn|ln]; [apply repr_s in Hxy; congruence| | |by apply repr_node in Hxy|by apply repr_nodes in Hxy].
    - apply repr_arr in Hxy as (? & ? & ? & ? & _). done.
    - apply repr_obj in Hxy as (? & ? & ? & _). done. }
  split; [done|]. split; [done|].
  assert (Hno : ~ objp (p ++ [k]) cur).
  { intros [ks Hks]. rewrite getp_snoc, Hg in Hks. cbn in Hks. destruct Hkn; congruence. }
  assert (HnG : forall q, (p ++ [k]) `prefix_of` q -> G q = None).
  { intros q Hpre. destruct (G q) as [lq|] eqn:Eq; [|done]. destruct (inv_pre _ _ _ _ _ _ _ _ Hi Eq Hpre) as [x Hx].
    exfalso. apply Hno. destruct (inv_node _ _ _ _ _ _ Hi _ _ Hx) as (_ & _ & ks & _ & Hks & _). by eexists. }
  assert (Hfree : hp s !! nxt s = None).
  { destruct (hp s !! nxt s) eqn:E; [|done]. assert (nxt s < nxt s) by (apply (inv_ok _ _ _ _ _ _ Hi); by eexists). lia. }
  pose proof (inv_lt _ _ _ _ _ _ _ Hi Hp) as Hlt.
  assert (Hgk : getp (p ++ [k]) cur' = Some (TObj [])).
  { rewrite getp_snoc, Hgp. change (member k (TObj (set_key k (TObj []) kvs)) = Some (TObj [])). by rewrite member_set, decide_True. }
  split.
  - intros x [c Hx]. cbn in Hx |- *. destruct (decide (x = l)) as [->|Hne]; [lia|].
    rewrite lookup_insert_ne in Hx by done. destruct (decide (x = nxt s)) as [->|Hne']; [lia|]. rewrite lookup_insert_ne in Hx by done.
    assert (x < nxt s) by (apply (inv_ok _ _ _ _ _ _ Hi); by eexists). lia.
  - cbn. apply insert_subseteq_r; [done|]. apply insert_subseteq_r; [|apply Hi]. eapply lookup_weaken_None; [exact Hfree|apply Hi].
  - pose proof (inv_root _ _ _ _ _ _ Hi). rewrite decide_False by (by destruct p). destruct (G []) eqn:E; [done|].
    destruct (inv_pre _ _ _ _ _ [] _ _ Hi Hp (prefix_nil _)). congruence.
  - intros q lq. case_decide as Eqk.
    + intros [= <-]. subst q. split; [eapply lookup_weaken_None; [exact Hfree|apply Hi]|]. exists ∅, []. cbn [hp].
      rewrite lookup_insert_ne by lia. rewrite lookup_insert. split; [done|]. split; [done|]. intros k'.
      rewrite decide_False by (intros H; apply (f_equal length) in H; rewrite !app_length in H; cbn in H; lia).
      rewrite HnG by (by apply prefix_app_r). rewrite lookup_empty. constructor.
    + intros Eq. destruct (inv_node _ _ _ _ _ _ Hi q lq Eq) as (Hhq & mq & kq & Hlq & Hgq & Hkq). split; [done|].
      assert (Hnq : ~ (p ++ [k]) `prefix_of` q) by (intros Hpre; rewrite (HnG q Hpre) in Eq; done).
      destruct (Hq q Hnq) as [_ H2]. destruct (H2 kq Hgq) as (kq' & Hgq' & Hsame). cbn [hp].
      destruct (decide (q = p)) as [->|Hne].
      * assert (lq = l) as -> by congruence. rewrite Hl in Hlq. injection Hlq as <-. rewrite Hg in Hgq. injection Hgq as <-.
        rewrite Hgp in Hgq'. injection Hgq' as <-.
        exists (<[k := VMap (nxt s)]> m), (set_key k (TObj []) kvs). rewrite lookup_insert. split; [done|]. split; [done|]. intros k'.
        destruct (decide (k = k')) as [<-|Hnk].
        -- rewrite decide_True by done. by rewrite lookup_insert.
        -- rewrite decide_False by (intros H; apply app_inj_tail in H as [_ H]; done). rewrite tmap_set, !lookup_insert_ne by done. apply Hk.
      * assert (lq <> l) by (intros ->; apply Hne; by eapply (inv_inj _ _ _ _ _ _ Hi)).
        pose proof (inv_lt _ _ _ _ _ _ _ Hi Eq) as Hlt'.
        exists mq, kq'. rewrite lookup_insert_ne by done. rewrite lookup_insert_ne by lia. split; [done|]. split; [done|]. intros k'. specialize (Hkq k').
        case_decide as E1; [apply app_inj_tail in E1 as [-> _]; done|].
        destruct (G (q ++ [k'])) as [l'|] eqn:E'; [done|]. rewrite Hsame; [done|]. intros Hpre.
        apply snoc_prefix_inv in Hpre as [Hpre|Heq]; [|done].
        destruct (inv_pre _ _ _ _ _ _ _ _ Hi Hp Hpre). congruence.
  - intros q q' x. case_decide as E1; case_decide as E2; intros H1 H2; subst; try done.
    + injection H1 as <-. pose proof (inv_lt _ _ _ _ _ _ _ Hi H2). lia.
    + injection H2 as <-. pose proof (inv_lt _ _ _ _ _ _ _ Hi H1). lia.
    + by eapply (inv_inj _ _ _ _ _ _ Hi).
  - intros q x. case_decide as E1; [by intros _; subst|]. apply Hi.
  - intros q HSq Hobj. case_decide as E1; [by eexists|]. destruct (decide ((p ++ [k]) `prefix_of` q)) as [[r ->]|Hnq].
    + destruct r as [|x r]; [by rewrite app_nil_r in E1|]. destruct Hobj as [ks Hks]. rewrite getp_app, Hgk in Hks. done.
    + apply (inv_full _ _ _ _ _ _ Hi); [done|]. by apply (Hq q Hnq).
Qed.
End inv.

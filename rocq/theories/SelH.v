(** A document in the heap some of whose maps become parts of the output and are written: until they do, these
    maps and those on the way to them are not visible. *)
From stdpp Require Import strings list gmap.
From Coq Require Import ZArith Lia.
From Verif Require Import GoStr GoStrL Val Conv Instr Heap SpecPath PathL Den Param HeapL Refine Top SpecProj ProjL SpecArr ArrT ArrH ArrW.

Notation wheres := (list (list string)).
(** at or above one of the wheres [ws] *)
Definition up (ws : wheres) (p : list string) : Prop := Exists (fun w => p `prefix_of` w) ws.
Global Instance up_dec ws p : Decision (up ws p).
Proof. unfold up. apply Exists_dec. intros w. apply _. Defined.
Lemma up_up ws p k : up ws (p ++ [k]) -> up ws p.
Proof. intros H. eapply Exists_impl; [exact H|]. intros w Hw. etrans; [|exact Hw]. by apply prefix_app_r. Qed.

Section hinv.
Context (ws wr : wheres) (G : spine) (input : val) (doc : tree).
(** [T]: the maps that have been taken; [D]: the members that have been written *)
Record hinv (T D : wheres) (s : st) (h : gmap nat cell) : Prop := {
  h_ok : stok s;
  h_sub : h ⊆ hp s;
  h_root : match G [] with Some l => input = VMap l | None => repr h input doc end;
  h_node : forall p l, G p = Some l -> exists m kvs, hp s !! l = Some (CMap m) /\ getp p doc = Some (TObj kvs) /\
    forall k, p ++ [k] ∉ D ->
      match G (p ++ [k]) with Some l' => m !! k = Some (VMap l') | None => option_Forall2 (repr h) (m !! k) (tmap kvs !! k) end;
  h_hid : forall p l, G p = Some l -> p ∉ T -> h !! l = None;
  h_inj : forall p p' l, G p = Some l -> G p' = Some l -> p = p';
  h_dom : forall p l, G p = Some l -> up ws p;
  h_full : forall p, up ws p -> objp p doc -> is_Some (G p);
  h_done : forall d, d ∈ D -> d ∈ wr /\ exists w k, w ∈ T /\ w ∈ ws /\ d = w ++ [k];
  h_taken : forall w, w ∈ T -> w ∈ ws }.

(** what a computation that takes the maps at [L] does to the state *)
Definition frs (L : wheres) (s s' : st) : Prop :=
  stok s' /\ nxt s <= nxt s' /\ froms s' = froms s /\
  forall x c, hp s !! x = Some c -> (forall w, w ∈ L -> G w <> Some x) -> hp s' !! x = Some c.
Definition shows (L : wheres) (s : st) (h h' : gmap nat cell) : Prop :=
  h ⊆ h' /\ forall l, is_Some (h' !! l) -> is_Some (h !! l) \/ nxt s <= l \/ exists w, w ∈ L /\ G w = Some l.
Definition wrote (L D D' : wheres) : Prop := forall d, d ∈ D' -> d ∈ D \/ exists w k, w ∈ L /\ d = w ++ [k].

Lemma step_frs L s s' : step s s' -> frs L s s'.
Proof. intros (H1 & H2 & H3 & H4). split; [done|]. split; [done|]. split; [done|]. intros x c Hx _. by eapply lookup_weaken. Qed.
Lemma frs_trans L1 L2 s s1 s2 : frs L1 s s1 -> frs L2 s1 s2 -> frs (L1 ++ L2) s s2.
Proof.
  intros (A1 & A2 & A3 & A4) (B1 & B2 & B3 & B4). split; [done|]. split; [lia|]. split; [congruence|].
  intros x c Hx Hg. apply B4; [apply A4; [done|]|]; intros w Hw; apply Hg, elem_of_app; auto.
Qed.
Lemma frs_sub L L' s s' : L ⊆ L' -> frs L s s' -> frs L' s s'.
Proof. intros HL (A1 & A2 & A3 & A4). do 3 (split; [done|]). intros x c Hx Hg. apply A4; [done|]. intros w Hw. by apply Hg, HL. Qed.
Lemma shows_refl L s h : shows L s h h. Proof. split; auto. Qed.
Lemma shows_trans L1 L2 s s1 h h1 h2 : nxt s <= nxt s1 -> shows L1 s h h1 -> shows L2 s1 h1 h2 -> shows (L1 ++ L2) s h h2.
Proof.
  intros Hn [A1 A2] [B1 B2]. split; [by etrans|]. intros l Hl. destruct (B2 l Hl) as [H|[H|(w & Hw & H)]].
  - destruct (A2 l H) as [?|[?|(w & Hw & ?)]]; [by left|by right; left|right; right]. exists w. split; [|done]. apply elem_of_app. by left.
  - right. left. lia.
  - right. right. exists w. split; [|done]. apply elem_of_app. by right.
Qed.
Lemma shows_sub L L' s h h' : L ⊆ L' -> shows L s h h' -> shows L' s h h'.
Proof. intros HL [A B]. split; [done|]. intros l Hl. destruct (B l Hl) as [?|[?|(w & Hw & ?)]]; [by left|by right; left|]. right. right. exists w. auto. Qed.
Lemma vis_shows L s s' h h' : vis s s' h h' -> shows L s h h'.
Proof. intros (A & _ & B). split; [done|]. intros l Hl. destruct (B l Hl); auto. Qed.
Lemma wrote_refl L D : wrote L D D. Proof. intros d Hd. by left. Qed.
Lemma wrote_trans L1 L2 D D1 D2 : wrote L1 D D1 -> wrote L2 D1 D2 -> wrote (L1 ++ L2) D D2.
Proof.
  intros A B d Hd. destruct (B d Hd) as [H|(w & k & Hw & ->)]; [|right; exists w, k; split; [apply elem_of_app; by right|done]].
  destruct (A d H) as [?|(w & k & Hw & ->)]; [by left|right; exists w, k; split; [apply elem_of_app; by left|done]].
Qed.
Lemma wrote_sub L L' D D' : L ⊆ L' -> wrote L D D' -> wrote L' D D'.
Proof. intros HL A d Hd. destruct (A d Hd) as [?|(w & k & Hw & ->)]; [by left|right]. exists w, k. auto. Qed.

Lemma h_lt T D s h p l : hinv T D s h -> G p = Some l -> l < nxt s.
Proof. intros Hi Hp. destruct (h_node _ _ _ _ Hi p l Hp) as (m & kvs & Hl & _). apply (h_ok _ _ _ _ Hi). by eexists. Qed.

(** computations that write nothing *)
Lemma hinv_step T D s s' h h' : step s s' -> vis s s' h h' -> hinv T D s h -> hinv T D s' h'.
Proof.
  intros Hst Hv Hi. split; try apply Hi.
  - apply Hst.
  - apply Hv.
  - pose proof (h_root _ _ _ _ Hi). destruct (G []); [done|]. eapply repr_mono; [apply Hv|done].
  - intros p l Hp. destruct (h_node _ _ _ _ Hi p l Hp) as (m & kvs & Hl & Hg & Hk).
    exists m, kvs. split; [by eapply lookup_weaken, Hst|]. split; [done|]. intros k HD. specialize (Hk k HD).
    destruct (G (p ++ [k])); [done|]. destruct Hk; constructor. eapply repr_mono; [apply Hv|done].
  - intros p l Hp HT. pose proof (h_lt _ _ _ _ _ _ Hi Hp) as Hlt. pose proof (h_hid _ _ _ _ Hi p l Hp HT) as Hn.
    destruct (h' !! l) eqn:E; [|done]. destruct (proj2 (proj2 Hv) l) as [[? Hc]|Hc]; [by eexists|congruence|lia].
Qed.
(** writes to a cell that is neither visible nor of the document *)
Lemma hinv_other T D s h l c n fs tk : hinv T D s h -> (forall p, G p <> Some l) -> h !! l = None -> l < n -> nxt s <= n ->
  hinv T D (St (<[l := c]> (hp s)) n fs tk) h.
Proof.
  intros Hi Hg Hh Hl Hn. split; try apply Hi.
  - intros x [d Hx]. cbn in Hx |- *. destruct (decide (x = l)) as [->|Hne]; [done|]. rewrite lookup_insert_ne in Hx by done.
    assert (x < nxt s) by (apply (h_ok _ _ _ _ Hi); by eexists). lia.
  - cbn. apply insert_subseteq_r; [done|apply Hi].
  - intros p x Hp. destruct (h_node _ _ _ _ Hi p x Hp) as (m & kvs & H2 & H3).
    exists m, kvs. split; [|done]. cbn. rewrite lookup_insert_ne; [done|]. intros ->. by eapply Hg.
Qed.
(** writes to a map that has been taken *)
Lemma hinv_own T D s h w l m k v : hinv T D s h -> w ++ [k] ∈ wr -> G w = Some l -> w ∈ T -> h !! l = None -> hp s !! l = Some (CMap m) ->
  hinv T ((w ++ [k]) :: D) (St (<[l := CMap (<[k := v]> m)]> (hp s)) (nxt s) (froms s) (tick s)) h.
Proof.
  intros Hi Hwr Hg HT Hh Hl. pose proof (h_lt _ _ _ _ _ _ Hi Hg) as Hlt. split; try apply Hi.
  - intros x [d Hx]. cbn in Hx |- *. destruct (decide (x = l)) as [->|Hne]; [done|]. rewrite lookup_insert_ne in Hx by done.
    apply (h_ok _ _ _ _ Hi). by eexists.
  - cbn. apply insert_subseteq_r; [done|apply Hi].
  - intros p x Hp. destruct (h_node _ _ _ _ Hi p x Hp) as (m' & kvs & H2 & H3 & H4). cbn [hp]. destruct (decide (x = l)) as [->|Hne].
    + assert (p = w) as -> by (by eapply (h_inj _ _ _ _ Hi)). rewrite Hl in H2. injection H2 as <-.
      exists (<[k := v]> m), kvs. rewrite lookup_insert. split; [done|]. split; [done|]. intros k' HD. apply not_elem_of_cons in HD as [Hk HD].
      assert (k <> k') by (intros ->; done). rewrite lookup_insert_ne by done. by apply H4.
    + exists m', kvs. rewrite lookup_insert_ne by done. split; [done|]. split; [done|]. intros k' HD. apply H4. by apply not_elem_of_cons in HD as [_ HD].
  - intros d [->|Hd]%elem_of_cons; [split; [done|]; exists w, k; split; [done|]; split; [by eapply (h_taken _ _ _ _ Hi)|done]|]. by apply (h_done _ _ _ _ Hi).
Qed.
Lemma hinv_put T D s h w k : hinv T D s h -> w ++ [k] ∈ wr -> w ∈ T -> hinv T ((w ++ [k]) :: D) s h.
Proof.
  intros Hi Hwr HT. split; try apply Hi.
  - intros p x Hp. destruct (h_node _ _ _ _ Hi p x Hp) as (m' & kvs & H2 & H3 & H4). exists m', kvs. split; [done|]. split; [done|].
    intros k' HD. apply H4. by apply not_elem_of_cons in HD as [_ HD].
  - intros d [->|Hd]%elem_of_cons; [split; [done|]; exists w, k; split; [done|]; split; [by eapply (h_taken _ _ _ _ Hi)|done]|]. by apply (h_done _ _ _ _ Hi).
Qed.
Lemma hinv_take T D s h w : hinv T D s h -> w ∈ ws -> hinv (w :: T) D s h.
Proof.
  intros Hi Hw. split; try apply Hi.
  - intros p l Hp Hn. apply (h_hid _ _ _ _ Hi p l Hp). by apply not_elem_of_cons in Hn as [_ Hn].
  - intros d Hd. destruct (h_done _ _ _ _ Hi d Hd) as (Z & w' & k & A & B & C). split; [done|]. exists w', k. split; [by right|done].
  - intros w' [->|Hw']%elem_of_cons; [done|]. by apply (h_taken _ _ _ _ Hi).
Qed.
Lemma hinv_sub T T' D s h : T ⊆ T' -> (forall w, w ∈ T' -> w ∈ ws) -> hinv T D s h -> hinv T' D s h.
Proof.
  intros HT Hws Hi. split; try apply Hi; [| |done].
  - intros p l Hp Hn. apply (h_hid _ _ _ _ Hi p l Hp). intros Hc. by apply Hn, HT.
  - intros d Hd. destruct (h_done _ _ _ _ Hi d Hd) as (Z & w' & k & A & B & C). split; [done|]. exists w', k. split; [by apply HT|done].
Qed.
(** a map becomes visible *)
Lemma hinv_show T D s h l c : hinv T D s h -> hp s !! l = Some c -> (forall p, G p = Some l -> p ∈ T) -> h !! l = None ->
  hinv T D s (<[l := c]> h).
Proof.
  intros Hi Hl Hg Hh. assert (Hsub : h ⊆ <[l := c]> h) by (by apply insert_subseteq). split; try apply Hi.
  - rewrite <- (insert_id (hp s) l c) by done. apply insert_mono, Hi.
  - pose proof (h_root _ _ _ _ Hi). destruct (G []); [done|]. by eapply repr_mono.
  - intros p x Hp. destruct (h_node _ _ _ _ Hi p x Hp) as (m & kvs & B & C & E). exists m, kvs. split; [done|]. split; [done|].
    intros k HD. specialize (E k HD). destruct (G (p ++ [k])); [done|]. destruct E; constructor. by eapply repr_mono.
  - intros p x Hp HT. rewrite lookup_insert_ne; [by eapply (h_hid _ _ _ _ Hi)|]. intros ->. by apply HT, Hg.
Qed.

(** reading *)
Lemma hinv_select T D s h ks : hinv T D s h -> (forall d, d ∈ D -> ~ d `prefix_of` ks) ->
  match G ks with
  | Some l => select_path (view (hp s)) ks input = Some (VMap l) /\ exists kvs, select_path tview ks doc = Some (TObj kvs) /\ getp ks doc = Some (TObj kvs)
  | None => option_Forall2 (repr h) (select_path (view (hp s)) ks input) (select_path tview ks doc)
  end.
Proof.
  intros Hi HD.
  assert (Hview : forall a b, repr h a b -> vrel (repr h) (view (hp s) a) (tview b)).
  { intros a b. apply repr_view_sub. apply Hi. }
  assert (Hnone : forall p ks, G p = None -> G (p ++ ks) = None).
  { intros p ks'. induction ks' as [|k ks' IH] using rev_ind; intros Hp; [by rewrite app_nil_r|]. rewrite app_assoc.
    destruct (G ((p ++ ks') ++ [k])) as [l|] eqn:E; [|done]. destruct (h_node _ _ _ _ Hi _ _ E) as (_ & kvs & _ & Hg & _).
    assert (is_Some (G (p ++ ks'))) as [? Hc]; [|rewrite IH in Hc by done; done].
    apply (h_full _ _ _ _ Hi); [eapply up_up; by eapply (h_dom _ _ _ _ Hi)|]. rewrite getp_snoc in Hg.
    destruct (getp (p ++ ks') doc) as [[| |ks2| |]|] eqn:E'; try done. by eexists. }
  assert (Hgen : forall ks p l kvs, (forall d, d ∈ D -> ~ d `prefix_of` p ++ ks) -> G p = Some l -> getp p doc = Some (TObj kvs) ->
    match G (p ++ ks) with
    | Some l' => select_path (view (hp s)) ks (VMap l) = Some (VMap l') /\ exists kvs', select_path tview ks (TObj kvs) = Some (TObj kvs') /\ getp (p ++ ks) doc = Some (TObj kvs')
    | None => option_Forall2 (repr h) (select_path (view (hp s)) ks (VMap l)) (select_path tview ks (TObj kvs))
    end).
  { clear ks HD. induction ks as [|k ks IH]; intros p l kvs HD Hp Hg.
    - rewrite app_nil_r, Hp. split; [done|]. by exists kvs.
    - destruct (h_node _ _ _ _ Hi p l Hp) as (m & kvs' & Hl & Hg' & Hk). rewrite Hg in Hg'. injection Hg' as <-.
      cbn [select_path]. rewrite select_obj.
      assert (E : select (view (hp s)) k (VMap l) = m !! k). { unfold select. cbn. unfold hmap. by rewrite Hl. }
      rewrite E. specialize (Hk k). replace (p ++ k :: ks) with ((p ++ [k]) ++ ks) in * by (by rewrite <- app_assoc).
      assert (HpD : p ++ [k] ∉ D). { intros Hc. apply (HD _ Hc). by apply prefix_app_r. } specialize (Hk HpD).
      destruct (G (p ++ [k])) as [l'|] eqn:Ek.
      + rewrite Hk. destruct (h_node _ _ _ _ Hi _ _ Ek) as (_ & kvs2 & _ & Hg2 & _). pose proof Hg2 as Hg3.
        rewrite getp_snoc, Hg in Hg2. cbn in Hg2. rewrite Hg2. cbn [mbind option_bind]. by apply (IH (p ++ [k])).
      + rewrite Hnone by done. destruct Hk as [x y Hxy|]; [|constructor]. by apply select_path_rel. }
  pose proof (h_root _ _ _ _ Hi) as Hr. destruct (G []) as [l|] eqn:E0.
  - destruct (h_node _ _ _ _ Hi _ _ E0) as (_ & kvs & _ & Hg & _). pose proof (Hgen ks [] l kvs HD E0 Hg) as H.
    assert (Hd : doc = TObj kvs) by (by injection Hg). rewrite <- Hd, <- Hr in H. exact H.
  - rewrite (Hnone [] ks E0 : G ks = None). by apply select_path_rel.
Qed.
End hinv.

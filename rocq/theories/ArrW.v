(** Storing an array in the input document, and loading a document with its spine. *)
From stdpp Require Import strings list gmap.
From Coq Require Import ZArith Lia.
From Verif Require Import GoStr GoStrL Val Conv Instr Heap SpecPath PathL Den Param HeapL Refine Top SpecProj ProjL SpecArr ArrT ArrH SaveL.

Lemma stored_blocked p : forall k r b t kvs y, getp p t = Some (TObj kvs) -> r <> [] -> tmap kvs !! k = Some y ->
  y <> TS SNil -> (forall ks, y <> TObj ks) -> stored (p ++ k :: r) b t = None.
Proof.
  induction p as [|j p IH]; intros k r b t kvs y Hg Hr Hk Hy Ho.
  - injection Hg as ->. cbn [app]. rewrite stored_eq by done.
    assert (E : sub k kvs = y) by (unfold sub; rewrite Hk; destruct y as [[]| | | |]; done). rewrite E.
    destruct r as [|k2 r]; [done|]. destruct y as [sc| |ks| |]; try done. by destruct (Ho ks).
  - cbn [getp] in Hg. destruct t as [| |ks| |]; try done. destruct (member j (TObj ks)) as [u|] eqn:Eu; [|done]. cbn in Hg.
    assert (Hsub : sub j ks = u).
    { unfold sub. cbn in Eu. rewrite Eu. destruct u as [[]| | | |]; try done. by destruct p. }
    cbn [app]. rewrite stored_eq by (by destruct p). rewrite Hsub. by rewrite (IH k r b u kvs y).
Qed.

Definition sp (ws : list (list string)) (p : list string) : Prop := Exists (fun w => p `prefix_of` w /\ p <> w) ws.
Global Instance sp_dec ws p : Decision (sp ws p).
Proof. unfold sp. apply Exists_dec. intros w. apply _. Defined.
Lemma sp_up ws p k : sp ws (p ++ [k]) -> sp ws p.
Proof.
  unfold sp. rewrite !Exists_exists. intros (w & Hin & Hp & Hne). exists w. split; [done|].
  assert (Hpp : p `prefix_of` w) by (etrans; [by apply prefix_app_r|exact Hp]). split; [done|]. intros ->. by apply not_longer in Hp.
Qed.

Lemma map_set_eq l k v s m : hmap (hp s) l = m ->
  map_set l k v s = (St (<[l := CMap (<[k := v]> m)]> (hp s)) (nxt s) (froms s) (tick s), Ok tt).
Proof. by intros <-. Qed.
Section store.
Context (W : oracles) (ws : list (list string)).
Context (Hws : forall w w', w ∈ ws -> w' ∈ ws -> w = w' \/ apart w w').
Lemma ws_not_sp w : w ∈ ws -> ~ sp ws w.
Proof.
  intros Hw. unfold sp. rewrite Exists_exists. intros (w' & Hin & Hp & Hne). destruct (Hws w w' Hw Hin) as [|[H _]]; done.
Qed.
Lemma sp_mid p k r : p ++ k :: r ∈ ws -> r <> [] -> sp ws (p ++ [k]).
Proof.
  intros Hw Hr. unfold sp. rewrite Exists_exists. exists (p ++ k :: r). split; [done|]. split.
  - rewrite (cons_middle k p r), app_assoc. by apply prefix_app_r.
  - intros E. apply (f_equal length) in E. rewrite !app_length in E. cbn in E. destruct r; [done|]. cbn in E. lia.
Qed.
Lemma ident_dollar k : ident k = true -> k <> "$".
Proof. by intros H ->. Qed.

Lemma splits_step b0 l k k2 ks v s : ident k = true -> save_splits W b0 l (k :: k2 :: ks) v s =
  match hmap (hp s) l !! k with
  | None | Some (VS SNil) => (nt <-- alloc (CMap ∅) ;; map_set l k (VMap nt) ;;; save_splits W false nt (k2 :: ks) v) s
  | Some (VMap l') => (map_set l k (VMap l') ;;; save_splits W false l' (k2 :: ks) v) s
  | Some _ => (s, Err)
  end.
Proof.
  intros Hk. remember (k2 :: ks) as r eqn:Er. cbn [save_splits]. rewrite (bool_decide_false (k = "$")) by (by apply ident_dollar).
  rewrite andb_false_r. rewrite (plain_split k) by (by apply ident_plain). 
  destruct r as [|k2' r']; [done|]. injection Er as -> ->.
  unfold Heap.mbind at 1. unfold mheap at 1. unfold Heap.mbind at 1.
  destruct (hmap (hp s) l !! k) as [[sc| | | |]|]; [destruct sc| | | | |]; done.
Qed.
Lemma splits_last b0 l k v s : ident k = true -> save_splits W b0 l [k] v s = map_set l k v s.
Proof.
  intros Hk. cbn [save_splits]. rewrite (bool_decide_false (k = "$")) by (by apply ident_dollar).
  rewrite andb_false_r. unfold save_leaf. by rewrite (plain_split k) by (by apply ident_plain).
Qed.

Lemma splits_inv ks : forall p l b0 G s h input cur v b, p ++ ks ∈ ws -> ks <> [] -> Forall (fun k => ident k = true) ks ->
  inv (sp ws) G s h input cur -> G p = Some l -> repr h v b ->
  let r := save_splits W b0 l ks v s in
  fr G s r.1 /\
  match stored (p ++ ks) b cur with
  | Some cur' => r.2 = Ok tt /\ exists G', gext s G G' /\ inv (sp ws) G' r.1 h input cur'
  | None => r.2 = Err
  end.
Proof.
  induction ks as [|k ks IH]; intros p l b0 G s h input cur v b Hw Hne Hid Hi Hp Hv; [done|]. clear Hne.
  inversion Hid as [|? ? Hk Hid']; subst. cbv zeta.
  destruct (inv_node _ _ _ _ _ _ Hi p l Hp) as (Hh & m & kvs & Hl & Hg & Hkk).
  assert (Hhm : hmap (hp s) l = m) by (unfold hmap; by rewrite Hl).
  assert (Hlt : l < nxt s) by (by eapply inv_lt).
  assert (Hfr : forall hp' n, (forall x c, hp s !! x = Some c -> x <> l -> hp' !! x = Some c) -> stok (St hp' n (froms s) (tick s)) -> nxt s <= n ->
     fr G s (St hp' n (froms s) (tick s))).
  { intros hp' n H1 H2 H3. split; [done|]. split; [done|]. split; [done|]. intros x c Hx Hgx. apply H1; [done|]. intros ->. by eapply Hgx. }
  destruct ks as [|k2 ks].
  - rewrite splits_last by done. rewrite (map_set_eq l k v s m Hhm). cbn [fst snd].
    destruct (inv_set (sp ws) (sp_up ws) G s h input cur p l m k v b (nxt s) Hi Hp Hl) as (cur' & Hs & Hi'); [by apply ws_not_sp|done|done|].
    rewrite Hs. split.
    + apply Hfr; [|apply Hi'|done]. intros x c Hx Hne. by rewrite lookup_insert_ne.
    + split; [done|]. exists G. split; [apply gext_refl|done].
  - rewrite splits_step by done. rewrite Hhm.
    pose proof (sp_mid p k (k2 :: ks) Hw ltac:(done)) as Hsp.
    assert (Hw' : (p ++ [k]) ++ k2 :: ks ∈ ws) by (by rewrite <- app_assoc).
    specialize (Hkk k) as Hkk1.
    destruct (G (p ++ [k])) as [l'|] eqn:Egk.
    + rewrite Hkk1. unfold Heap.mbind. rewrite (map_set_eq l k (VMap l') s m Hhm).
      rewrite (insert_id m) by done. rewrite (insert_id (hp s)) by done.
      assert (Es : St (hp s) (nxt s) (froms s) (tick s) = s) by (by destruct s). rewrite Es.
      destruct (IH (p ++ [k]) l' false G s h input cur v b Hw' ltac:(done) Hid' Hi Egk Hv) as [H1 H2].
      rewrite <- app_assoc in H2. split; [exact H1|exact H2].
    + assert (Hblock : forall x y, m !! k = Some x -> tmap kvs !! k = Some y -> repr h x y -> x <> VS SNil ->
        (forall l', x <> VMap l') /\ stored (p ++ k :: k2 :: ks) b cur = None).
      { intros x y Hx Hy Hr Hnx.
        assert (Hno : forall ks, y <> TObj ks).
        { intros ks' ->. assert (is_Some (G (p ++ [k]))) as [? ?]; [|congruence]. apply (inv_full _ _ _ _ _ _ Hi); [done|].
          exists ks'. rewrite getp_snoc, Hg. exact Hy. }
        split.
        - intros l' ->. destruct y as [sc|ts|ks'|nn|ln]; [by apply repr_s in Hr| |by destruct (Hno ks')|by apply repr_node in Hr|by apply repr_nodes in Hr].
          apply repr_arr in Hr as (? & ? & ? & ? & _). done.
        - eapply stored_blocked; try done. intros ->. apply repr_s in Hr. done. }
      assert (Hmk : m !! k = None \/ m !! k = Some (VS SNil) -> 
        let r := (nt <-- alloc (CMap ∅) ;; map_set l k (VMap nt) ;;; save_splits W false nt (k2 :: ks) v) s in
        fr G s r.1 /\ match stored (p ++ k :: k2 :: ks) b cur with
          | Some cur' => r.2 = Ok tt /\ exists G', gext s G G' /\ inv (sp ws) G' r.1 h input cur'
          | None => r.2 = Err end).
      { intros Hmk. destruct (inv_mkdir (sp ws) (sp_up ws) G s h input cur p l m k (S (nxt s)) Hi Hp Hl Hsp Hmk ltac:(lia))
          as (cur1 & kvs' & Hg' & Hkn & Hs1 & Hi1). rewrite Hg in Hg'. injection Hg' as <-.
        set (G1 := fun q => if decide (q = p ++ [k]) then Some (nxt s) else G q) in *.
        set (s1 := St (<[l := CMap (<[k := VMap (nxt s)]> m)]> (<[nxt s := CMap ∅]> (hp s))) (S (nxt s)) (froms s) (tick s)) in *.
        assert (Eq : (nt <-- alloc (CMap ∅) ;; map_set l k (VMap nt) ;;; save_splits W false nt (k2 :: ks) v) s = save_splits W false (nxt s) (k2 :: ks) v s1).
        { unfold Heap.mbind, alloc. rewrite (map_set_eq _ _ _ _ m); [done|]. cbn [hp]. unfold hmap. rewrite lookup_insert_ne by lia. by rewrite Hl. }
        rewrite Eq. cbv zeta.
        assert (Hgk : G1 (p ++ [k]) = Some (nxt s)) by (unfold G1; by rewrite decide_True).
        destruct (IH (p ++ [k]) (nxt s) false G1 s1 h input cur1 v b Hw' ltac:(done) Hid' Hi1 Hgk Hv) as [H1 H2].
        rewrite <- app_assoc in H2. cbn [app] in H2.
        rewrite (stored_mkdir p k (k2 :: ks) b cur kvs Hg ltac:(done) Hkn), Hs1. change (Some cur1 ≫= ?f) with (f cur1). cbv beta.
        assert (Hge : gext s G G1).
        { split.
          - intros q x Hx. unfold G1. rewrite decide_False; [done|]. intros ->. congruence.
          - intros q x. unfold G1. case_decide; [intros [= <-]; by right|by left]. }
        assert (Hf1 : fr G s s1).
        { apply Hfr; [|apply Hi1|lia]. intros x c Hx Hne. assert (x < nxt s) by (apply (inv_ok _ _ _ _ _ _ Hi); by eexists).
          rewrite lookup_insert_ne by done. rewrite lookup_insert_ne by lia. done. }
        split; [eapply fr_trans; [apply Hi|exact Hf1|exact Hge|exact H1]|].
        destruct (stored (p ++ k :: k2 :: ks) b cur1) as [cur2|]; [|done]. destruct H2 as (H2 & G2 & H3 & H4). split; [done|].
        exists G2. split; [|done]. eapply (gext_trans s s1); [cbn; lia|done|done]. }
      destruct (m !! k) as [x|] eqn:Emk; [|by apply Hmk; left].
      inversion Hkk1 as [x' y Hxy E1 E2|]; subst.
      destruct x as [sc|l'|l' n|nn|ln].
      * destruct sc; try (destruct (Hblock _ _ eq_refl (eq_sym E2) Hxy ltac:(done)) as [_ Hb]; rewrite Hb; (split; [apply step_fr, step_refl, Hi|done])).
        apply Hmk. by right.
      * destruct (Hblock _ _ eq_refl (eq_sym E2) Hxy ltac:(done)) as [Hb _]. by destruct (Hb l').
      * destruct (Hblock _ _ eq_refl (eq_sym E2) Hxy ltac:(done)) as [_ Hb]. rewrite Hb. split; [apply step_fr, step_refl, Hi|done].
      * destruct (Hblock _ _ eq_refl (eq_sym E2) Hxy ltac:(done)) as [_ Hb]. rewrite Hb. split; [apply step_fr, step_refl, Hi|done].
      * destruct (Hblock _ _ eq_refl (eq_sym E2) Hxy ltac:(done)) as [_ Hb]. rewrite Hb. split; [apply step_fr, step_refl, Hi|done].
Qed.

Lemma names_split w : Forall (fun k => ident k = true) w -> split (path_of (Nm <$> w)) "." = "$" :: w.
Proof.
  induction w as [|k w IH] using rev_ind; intros H; [done|]. apply Forall_app in H as [H1 H2]. inversion H2; subst.
  rewrite fmap_app. cbn [fmap list_fmap]. rewrite split_path_name; [by rewrite IH| |by apply ident_plain].
  apply Forall_fmap. eapply Forall_impl; [exact H1|]. intros j Hj. by apply ident_plain.
Qed.

(** What an array instruction with a transform or a default does to the input document. *)
Lemma save_inv w G s h input cur v b : w ∈ ws -> w <> [] -> Forall (fun k => ident k = true) w ->
  inv (sp ws) G s h input cur -> repr h v (TArr b) ->
  let r := match input with VMap l => (save_in_tree W l (path_of (Nm <$> w)) v ;;; mret input) s | _ => mfail s end in
  fr G s r.1 /\
  match stored w (TArr b) cur with
  | Some cur' => r.2 = Ok input /\ exists G', gext s G G' /\ inv (sp ws) G' r.1 h input cur'
  | None => r.2 = Err
  end.
Proof.
  intros Hw Hne Hid Hi Hv. destruct w as [|k w]; [done|].
  assert (Hsp : sp ws []) by (apply Exists_exists; exists (k :: w); split; [done|]; split; [apply prefix_nil|done]).
  pose proof (inv_root _ _ _ _ _ _ Hi) as Hroot.
  destruct (G []) as [l|] eqn:E0.
  - subst input.
    destruct (splits_inv (k :: w) [] l true G s h (VMap l) cur v (TArr b) Hw ltac:(done) Hid Hi E0 Hv) as [H1 H2]. cbn [app] in H2.
    assert (Hn : vnil v = false) by (apply repr_arr in Hv as (? & ? & ? & -> & _); done).
    assert (E : save_in_tree W l (path_of (Nm <$> k :: w)) v s = save_splits W true l (k :: w) v s).
    { unfold save_in_tree. rewrite Hn. rewrite names_split by done. done. }
    unfold Heap.mbind. rewrite E. destruct (save_splits W true l (k :: w) v s) as [s1 [[]| |]]; cbn [fst snd] in *.
    + split; [done|]. destruct (stored (k :: w) (TArr b) cur); [|done]. by destruct H2 as [_ H2].
    + split; [done|]. destruct (stored (k :: w) (TArr b) cur); [|done]. by destruct H2 as [? _].
    + split; [done|]. destruct (stored (k :: w) (TArr b) cur); [by destruct H2 as [? _]|done].
  - assert (Hno : forall kvs, cur <> TObj kvs).
    { intros kvs ->. assert (is_Some (G [])) as [? ?]; [|congruence]. apply (inv_full _ _ _ _ _ _ Hi); [done|]. by exists kvs. }
    assert (Hst : stored (k :: w) (TArr b) cur = None) by (destruct cur as [| |kvs| |]; try done; by destruct (Hno kvs)).
    rewrite Hst. assert (Hnm : forall l, input <> VMap l).
    { intros l ->. destruct cur as [sc|ts|ks'|nn|ln]; [by apply repr_s in Hroot| |by destruct (Hno ks')|by apply repr_node in Hroot|by apply repr_nodes in Hroot].
      apply repr_arr in Hroot as (? & ? & ? & ? & _). done. }
    destruct input as [| | | |]; try (split; [apply step_fr, step_refl, Hi|done]). by destruct (Hnm l).
Qed.
End store.

(** ** parsing *)
Lemma inv_flat (S : list string -> Prop) (G : spine) s h v t : (forall p, G p = None) -> stok s -> h ⊆ hp s -> repr h v t -> (forall p, S p -> ~ objp p t) -> inv S G s h v t.
Proof.
  intros HG Hs Hh Hr Hno. split; try done.
  - by rewrite HG.
  - intros p l Hp. by rewrite HG in Hp.
  - intros p p' l Hp. by rewrite HG in Hp.
  - intros p l Hp. by rewrite HG in Hp.
  - intros p Hp Ho. by destruct (Hno p Hp).
Qed.
Lemma prefixes_nil (S : list string -> Prop) : (forall p k, S (p ++ [k]) -> S p) -> forall p, S p -> S [].
Proof. intros HS p. induction p as [|k p IH] using rev_ind; [done|]. intros H. by eapply IH, HS. Qed.
Lemma getp_cons k p kvs : getp (k :: p) (TObj kvs) = x ← tmap kvs !! k; getp p x.
Proof. done. Qed.

Lemma load_flat t (S : list string -> Prop) s h : distinct_keys t -> stok s -> h ⊆ hp s -> (forall p, S p -> ~ objp p t) ->
  step s (load t s).1 /\ exists v G h', (load t s).2 = Ok v /\ vis s (load t s).1 h h' /\ inv S G (load t s).1 h' v t /\
    (forall p l, G p = Some l -> nxt s <= l).
Proof.
  intros Hd Hs Hh Hno. destruct (load_spec (N := True) t s h Hd Hs Hh) as (Hst & v & h' & Hv & Hvis & Hr). split; [done|].
  exists v, (fun _ => None), h'. split; [done|]. split; [done|]. split; [|done]. apply inv_flat; [done|apply Hst|apply Hvis|done|done].
Qed.
Lemma load_inv t : forall S : list string -> Prop, (forall p k, S (p ++ [k]) -> S p) -> (forall p, S p \/ ~ S p) -> forall s h, distinct_keys t -> stok s -> h ⊆ hp s ->
  step s (load t s).1 /\ exists v G h', (load t s).2 = Ok v /\ vis s (load t s).1 h h' /\ inv S G (load t s).1 h' v t /\
    (forall p l, G p = Some l -> nxt s <= l).
Proof.
  induction t as [sc|ts IH|kvs IH|n|l] using tree_ind'; intros S HS Hdec s h Hd Hs Hh.
  1,2,4,5: apply load_flat; [done|done|done|]; intros [|k p] _ [ks Hks]; done.
  destruct (Hdec []) as [H0|H0].
  2: { apply load_flat; [done|done|done|]. intros p Hp. destruct H0. by eapply prefixes_nil. }
  cbn [load]. 
  set (go := fix go (l : list (string * tree)) : M (gmap string val) :=
             match l with
             | [] => mret ∅
             | (k, t) :: l' => v <-- load t ;; m <-- go l' ;; mret (<[k := v]> m)
             end).
  destruct Hd as [Hnd Hd].
  assert (Hgo : forall s h, stok s -> h ⊆ hp s -> step s (go kvs s).1 /\ exists m (G : spine) h', (go kvs s).2 = Ok m /\ vis s (go kvs s).1 h h' /\
    (forall k, match G [k] with Some l' => m !! k = Some (VMap l') | None => option_Forall2 (repr h') (m !! k) (tmap kvs !! k) end) /\
    (forall p l, G p = Some l -> p <> [] /\ nxt s <= l /\ S p /\ h' !! l = None /\ exists m kvs', hp (go kvs s).1 !! l = Some (CMap m) /\
      getp p (TObj kvs) = Some (TObj kvs') /\
      forall k, match G (p ++ [k]) with Some l' => m !! k = Some (VMap l') | None => option_Forall2 (repr h') (m !! k) (tmap kvs' !! k) end) /\
    (forall p p' l, G p = Some l -> G p' = Some l -> p = p') /\
    (forall p, p <> [] -> S p -> objp p (TObj kvs) -> is_Some (G p))).
  { clear s h Hs Hh Hnd. induction kvs as [|[k t] kvs IHt]; intros s h Hs Hh.
    - cbn [go]. split; [by apply step_refl|]. exists ∅, (fun _ => None), h. split; [done|]. split; [by apply vis_refl|].
      split; [intros k; unfold tmap; cbn; rewrite !lookup_empty; constructor|]. split; [done|]. split; [done|].
      intros [|k p] Hne _ [ks Hks]; [done|]. by rewrite getp_cons in Hks.
    - destruct Hd as [Hd1 Hd]. inversion IH as [|? ? IH1 IH2]; subst. cbn [snd] in IH1.
      destruct (IH1 (fun p => S (k :: p)) ltac:(intros p j; apply (HS (k :: p) j)) ltac:(intros p; apply Hdec) s h Hd1 Hs Hh)
        as (Hst1 & v1 & G1 & h1 & Hv1 & Hvis1 & Hi1 & Hge1).
      destruct (IHt IH2 Hd (load t s).1 h1 ltac:(apply Hst1) ltac:(apply Hvis1)) as (Hst2 & m & G2 & h2 & Hv2 & Hvis2 & Hm & Hn2 & Hinj2 & Hf2).
      assert (Eg : go ((k, t) :: kvs) s = ((go kvs (load t s).1).1, Ok (<[k := v1]> m))).
      { cbn [go]. fold go. unfold Heap.mbind. destruct (load t s) as [s1 r1]. cbn [fst snd] in *. rewrite Hv1.
        destruct (go kvs s1) as [s2 r2]. cbn [fst snd] in *. by rewrite Hv2. }
      rewrite Eg. cbn [fst snd]. set (s2 := (go kvs (load t s).1).1) in *. set (s1 := (load t s).1) in *.
      pose proof (inv_step _ G1 s1 s2 h1 h2 v1 t Hst2 Hvis2 Hi1) as Hi2.
      assert (Hnx : nxt s <= nxt s1) by apply Hst1.
      split; [by eapply step_trans|].
      exists (<[k := v1]> m), (fun q => match q with [] => None | j :: q' => if decide (j = k) then G1 q' else G2 q end), h2.
      split; [done|]. split; [by eapply vis_trans|]. change (tmap ((k, t) :: kvs)) with (<[k := t]> (tmap kvs)).
      assert (Hgp : forall j p, j <> k -> getp (j :: p) (TObj ((k, t) :: kvs)) = getp (j :: p) (TObj kvs)).
      { intros j p Hj. rewrite !getp_cons. change (tmap ((k, t) :: kvs)) with (<[k := t]> (tmap kvs)). by rewrite lookup_insert_ne. }
      assert (Hgk : forall p, getp (k :: p) (TObj ((k, t) :: kvs)) = getp p t).
      { intros p. rewrite getp_cons. change (tmap ((k, t) :: kvs)) with (<[k := t]> (tmap kvs)). by rewrite lookup_insert. }
      split; [|split; [|split]].
      + intros j. destruct (decide (j = k)) as [->|Hj].
        * rewrite !lookup_insert. pose proof (inv_root _ _ _ _ _ _ Hi2) as Hr. destruct (G1 []); [by subst|]. by constructor.
        * rewrite !lookup_insert_ne by done. apply Hm.
      + intros [|j p] l Hp; [done|]. split; [done|]. destruct (decide (j = k)) as [->|Hj].
        * split; [by eapply Hge1|]. split; [by apply (inv_dom _ _ _ _ _ _ Hi2 p l)|].
          destruct (inv_node _ _ _ _ _ _ Hi2 p l Hp) as (A & m' & ks' & B & C & D). split; [done|]. exists m', ks'. split; [done|].
          split; [by rewrite Hgk|]. intros k'. cbn [app]. rewrite decide_True by done. apply D.
        * destruct (Hn2 _ _ Hp) as (_ & A & B & C & m' & ks' & D & E & F). split; [lia|]. split; [done|]. split; [done|].
          exists m', ks'. split; [done|]. split; [by rewrite Hgp|]. intros k'. cbn [app]. rewrite decide_False by done. apply (F k').
      + intros [|j p] [|j' p'] l Hp Hp'; try done. repeat case_decide; subst.
        * f_equal. by eapply (inv_inj _ _ _ _ _ _ Hi1).
        * exfalso. assert (l < nxt s1) by (eapply inv_lt; [apply Hi1|done]). destruct (Hn2 _ _ Hp) as (_ & A & _). lia.
        * exfalso. assert (l < nxt s1) by (eapply inv_lt; [apply Hi1|done]). destruct (Hn2 _ _ Hp') as (_ & A & _). lia.
        * by eapply Hinj2.
      + intros [|j p] Hne Hp [ks Hks]; [done|]. case_decide; subst.
        * apply (inv_full _ _ _ _ _ _ Hi2); [done|]. exists ks. by rewrite <- Hgk.
        * apply Hf2; [done|done|]. exists ks. by rewrite <- Hgp. }
  destruct (Hgo s h Hs Hh) as (Hst & m & G & h1 & Hm & Hv & Hk & Hn & Hinj & Hf).
  assert (E : (m <-- go kvs ;; a <-- alloc (CMap m) ;; mret (VMap a)) s = (St (<[nxt (go kvs s).1 := CMap m]> (hp (go kvs s).1)) (Datatypes.S (nxt (go kvs s).1)) (froms (go kvs s).1) (tick (go kvs s).1), Ok (VMap (nxt (go kvs s).1)))).
  { unfold Heap.mbind. destruct (go kvs s) as [s1 r1]. cbn [fst snd] in *. by rewrite Hm. }
  rewrite E. clear E. cbn [fst snd]. set (s1 := (go kvs s).1) in *.
  assert (Hfresh : hp s1 !! nxt s1 = None).
  { destruct (hp s1 !! nxt s1) eqn:E; [|done]. assert (nxt s1 < nxt s1); [|lia]. apply Hst. by eexists. }
  assert (Hsub : hp s1 ⊆ <[nxt s1 := CMap m]> (hp s1)) by (by apply insert_subseteq).
  assert (Hst2 : step s (St (<[nxt s1 := CMap m]> (hp s1)) (Datatypes.S (nxt s1)) (froms s1) (tick s1))).
  { split; [|split; [|split]]; cbn.
    - intros x [c Hx]. cbn in *. destruct (decide (x = nxt s1)) as [->|Hne]; [lia|]. rewrite lookup_insert_ne in Hx by done.
      assert (x < nxt s1) by (apply Hst; by eexists). lia.
    - etrans; [apply Hst|done].
    - transitivity (nxt s1); [apply Hst|lia].
    - apply Hst. }
  split; [done|]. exists (VMap (nxt s1)), (fun q => match q with [] => Some (nxt s1) | _ => G q end), h1. split; [done|].
  assert (Hltn : forall p l, G p = Some l -> l < nxt s1).
  { intros p l Hp. destruct (Hn p l Hp) as (_ & _ & _ & _ & m' & ks' & D & _). apply Hst. by eexists. }
  split; [split; [apply Hv|split; [|apply Hv]]|].
  { etrans; [apply Hv|done]. }
  split; [split|].
  - apply Hst2.
  - etrans; [apply Hv|done].
  - done.
  - intros [|j p] l Hp.
    + injection Hp as <-. split.
      * destruct (h1 !! nxt s1) eqn:E; [|done]. assert (hp s1 !! nxt s1 = Some c) by (eapply lookup_weaken; [exact E|apply Hv]). congruence.
      * exists m, kvs. split; [cbn; by rewrite lookup_insert|]. split; [done|]. intros k. apply (Hk k).
    + destruct (Hn _ _ Hp) as (_ & A & B & C & m' & ks' & D & F & H). split; [done|]. exists m', ks'. split; [cbn; rewrite lookup_insert_ne; [done|]|].
      * specialize (Hltn _ _ Hp). lia.
      * split; [done|]. intros k. apply (H k).
  - intros [|j p] [|j' p'] l Hp Hp'; [done| | |by eapply Hinj].
    + injection Hp as <-. specialize (Hltn _ _ Hp'). lia.
    + injection Hp' as <-. specialize (Hltn _ _ Hp). lia.
  - intros [|j p] l Hp; [done|]. by apply (Hn _ _ Hp).
  - intros [|j p] Hp Ho; [by eexists|]. by apply Hf.
  - intros [|j p] l Hp; [injection Hp as <-; apply Hst|]. by apply (Hn _ _ Hp).
Qed.

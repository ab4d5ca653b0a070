(** Storing values in documents, as trees. *)
From stdpp Require Import strings list gmap.
From Coq Require Import ZArith Lia.
From Verif Require Import GoStr GoStrL Val Conv Instr Heap SpecPath Den SpecProj SpecArr.

Lemma tmap_set k b kvs : tmap (set_key k b kvs) = <[k := b]> (tmap kvs).
Proof.
  unfold tmap, set_key. change (list_to_map ((k, b) :: ?l) : gmap string tree) with (<[k := b]> (list_to_map l : gmap string tree)).
  apply map_eq. intros k'. destruct (decide (k = k')) as [->|Hne]; [by rewrite !lookup_insert|].
  rewrite !lookup_insert_ne by done. induction kvs as [|[k2 t] kvs IH]; [done|]. rewrite filter_cons. cbn [fst].
  case_decide as E; cbn [list_to_map foldr uncurry].
  - change (list_to_map ((k2, t) :: ?l) : gmap string tree) with (<[k2 := t]> (list_to_map l : gmap string tree)).
    destruct (decide (k2 = k')) as [->|]; [by rewrite !lookup_insert|]. by rewrite !lookup_insert_ne.
  - change (list_to_map ((k2, t) :: kvs) : gmap string tree) with (<[k2 := t]> (list_to_map kvs : gmap string tree)).
    destruct (decide (k2 = k)) as [->|]; [|done]. by rewrite lookup_insert_ne.
Qed.
Lemma tmap_nil : tmap [] = ∅. Proof. done. Qed.

(** values reached by member names only *)
Fixpoint getp (p : list string) (t : tree) : option tree :=
  match p with [] => Some t | k :: p' => member k t ≫= getp p' end.
Lemma getp_app p q t : getp (p ++ q) t = getp p t ≫= getp q.
Proof. revert t. induction p as [|k p IH]; intros t; [done|]. cbn. destruct (member k t); [apply IH|done]. Qed.
Lemma getp_snoc p k t : getp (p ++ [k]) t = getp p t ≫= member k.
Proof. rewrite getp_app. destruct (getp p t); [|done]. cbn. by destruct (member k t0). Qed.
Lemma member_set k k' b kvs : member k' (TObj (set_key k b kvs)) = if decide (k = k') then Some b else member k' (TObj kvs).
Proof. unfold member. rewrite tmap_set. case_decide as E; [subst; by rewrite lookup_insert|by rewrite lookup_insert_ne]. Qed.
Lemma select_obj k kvs : select tview k (TObj kvs) = tmap kvs !! k.
Proof. done. Qed.
Lemma select_set k k' b kvs : select tview k' (TObj (set_key k b kvs)) = if decide (k = k') then Some b else select tview k' (TObj kvs).
Proof. rewrite !select_obj. apply member_set. Qed.

Lemma prefix_nil_r {A} (l : list A) : l `prefix_of` [] -> l = [].
Proof. intros [r Hr]. by destruct l. Qed.
Lemma apart_same (k : string) w w' : apart (k :: w) (k :: w') -> apart w w'.
Proof. intros [H1 H2]. split; intros H; [apply H1|apply H2]; by apply prefix_cons. Qed.
Lemma apart_nil_l {A} (w : list A) : ~ apart [] w.
Proof. intros [H _]. apply H. apply prefix_nil. Qed.
Lemma apart_nil_r {A} (w : list A) : ~ apart w [].
Proof. intros [_ H]. apply H. apply prefix_nil. Qed.
Lemma apart_sym {A} (a b : list A) : apart a b -> apart b a.
Proof. by intros [? ?]. Qed.
(** what is apart from a place is apart from everything inside it *)
Lemma apart_app {A} (w p q : list A) : apart w p -> apart w (p ++ q).
Proof.
  intros [H1 H2]. split.
  - intros H. destruct (prefix_weak_total w p (p ++ q)); [done|by apply prefix_app_r|done|done].
  - intros H. apply H2. etrans; [|exact H]. by apply prefix_app_r.
Qed.

(** the object a member stands for when something is stored below it *)
Definition sub (k : string) (kvs : list (string * tree)) : tree :=
  match tmap kvs !! k with None | Some (TS SNil) => TObj [] | Some u => u end.
Lemma stored_eq k w b kvs : w <> [] -> stored (k :: w) b (TObj kvs) = t' ← stored w b (sub k kvs); Some (TObj (set_key k t' kvs)).
Proof. intros Hw. cbn [stored]. destruct w; [done|]. done. Qed.
Lemma stored_one k b kvs : stored [k] b (TObj kvs) = Some (TObj (set_key k b kvs)).
Proof. done. Qed.
Lemma stored_obj w b t t' : stored w b t = Some t' -> exists kvs kvs', t = TObj kvs /\ t' = TObj kvs'.
Proof.
  destruct w as [|k w]; [done|]. destruct t as [| |kvs| |]; try done. intros H. exists kvs.
  destruct w as [|k' w]; [injection H as <-; by eexists|]. rewrite stored_eq in H by done.
  destruct (stored (k' :: w) b (sub k kvs)); [|done]. injection H as <-. by eexists.
Qed.
Lemma sub_select k kvs ks : ks <> [] -> select_path tview ks (sub k kvs) = select tview k (TObj kvs) ≫= select_path tview ks.
Proof.
  intros Hks. rewrite select_obj. unfold sub. destruct (tmap kvs !! k) as [[[]| | | |]|]; cbn; try done; destruct ks; try done.
Qed.
(** places apart from [w] are unchanged *)
Lemma stored_apart w : forall b t t' ks, stored w b t = Some t' -> apart w ks -> select_path tview ks t' = select_path tview ks t.
Proof.
  induction w as [|k w IH]; intros b t t' ks Hs Ha; [done|].
  destruct ks as [|k' ks]; [by apply apart_nil_r in Ha|].
  destruct t as [| |kvs| |]; try done. destruct (decide (k = k')) as [->|Hne].
  - apply apart_same in Ha. destruct w as [|k2 w]; [by apply apart_nil_l in Ha|]. rewrite stored_eq in Hs by done.
    destruct (stored (k2 :: w) b (sub k' kvs)) as [u|] eqn:Eu; [|done]. injection Hs as <-.
    cbn [select_path]. rewrite select_set, decide_True by done.
    etrans; [|apply (sub_select k' kvs ks)]; [|intros ->; by apply apart_nil_r in Ha]. by eapply IH.
  - assert (E : exists u, t' = TObj (set_key k u kvs)).
    { destruct w; [injection Hs as <-; by eexists|]. rewrite stored_eq in Hs by done. destruct (stored _ b _); [|done].
      injection Hs as <-. by eexists. }
    destruct E as [u ->]. cbn [select_path]. by rewrite select_set, decide_False.
Qed.
(** the value is found where it was stored *)
Lemma stored_at w : forall b t t' ks, stored w b t = Some t' -> select_path tview (w ++ ks) t' = select_path tview ks b.
Proof.
  induction w as [|k w IH]; intros b t t' ks Hs; [done|]. destruct t as [| |kvs| |]; try done. cbn [app select_path].
  destruct w as [|k2 w].
  - injection Hs as <-. by rewrite select_set, decide_True.
  - rewrite stored_eq in Hs by done. destruct (stored (k2 :: w) b (sub k kvs)) as [u|] eqn:Eu; [|done]. injection Hs as <-.
    rewrite select_set, decide_True by done. cbn [mbind option_bind]. by eapply IH.
Qed.
(** whether something can be stored does not depend on what *)
Fixpoint can (w : list string) (t : tree) : Prop :=
  match w, t with
  | k :: w', TObj kvs => w' = [] \/ can w' (sub k kvs)
  | _, _ => False
  end.
Lemma stored_can w : forall b t, is_Some (stored w b t) <-> can w t.
Proof.
  induction w as [|k w IH]; intros b t; [split; [by intros []|done]|].
  destruct t as [| |kvs| |]; try (split; [by intros []|done]). cbn [can]. destruct w as [|k2 w].
  - split; [by left|by eexists].
  - rewrite stored_eq by done. rewrite <- (IH b). destruct (stored (k2 :: w) b (sub k kvs)); cbn; split.
    + intros _. right. by eexists.
    + intros _. by eexists.
    + by intros [].
    + by intros [?|[]].
Qed.
Lemma can_nil w : w <> [] -> can w (TObj []).
Proof. induction w as [|k w IH]; [done|]. intros _. cbn [can]. destruct w as [|k2 w]; [by left|right]. apply IH. done. Qed.
(** storing elsewhere does not matter *)
Lemma can_stored w : forall w' b t t', stored w' b t = Some t' -> apart w' w -> can w t' <-> can w t.
Proof.
  induction w as [|k w IH]; intros w' b t t' Hs Ha; [by apply apart_nil_r in Ha|].
  destruct w' as [|k' w']; [done|]. destruct t as [| |kvs| |]; try done.
  assert (E : exists u, t' = TObj (set_key k' u kvs)).
  { destruct w'; [injection Hs as <-; by eexists|]. rewrite stored_eq in Hs by done. destruct (stored _ b _); [|done].
    injection Hs as <-. by eexists. }
  destruct (decide (k' = k)) as [->|Hne].
  - apply apart_same in Ha. destruct w' as [|k2 w']; [by apply apart_nil_l in Ha|]. rewrite stored_eq in Hs by done.
    destruct (stored (k2 :: w') b (sub k kvs)) as [u|] eqn:Eu; [|done]. injection Hs as <-. clear E.
    cbn [can]. assert (Es : sub k (set_key k u kvs) = u).
    { unfold sub. rewrite tmap_set, lookup_insert. destruct (stored_obj _ _ _ _ Eu) as (? & ? & _ & ->). done. }
    rewrite Es. by rewrite (IH _ _ _ _ Eu Ha).
  - destruct E as [u ->]. cbn [can]. assert (Es : sub k (set_key k' u kvs) = sub k kvs); [|by rewrite Es].
    unfold sub. by rewrite tmap_set, lookup_insert_ne.
Qed.

(** ** storing one step below an object *)
Definition objp (p : list string) (t : tree) : Prop := exists kvs, getp p t = Some (TObj kvs).
Lemma stored_step p : forall k b t kvs, getp p t = Some (TObj kvs) ->
  exists t', stored (p ++ [k]) b t = Some t' /\ getp p t' = Some (TObj (set_key k b kvs)) /\
    forall q, ~ (p ++ [k]) `prefix_of` q ->
      (objp q t' <-> objp q t) /\
      forall kq, getp q t = Some (TObj kq) -> exists kq', getp q t' = Some (TObj kq') /\
        forall k', ~ (q ++ [k']) `prefix_of` (p ++ [k]) -> tmap kq' !! k' = tmap kq !! k'.
Proof.
  induction p as [|j p IH]; intros k b t kvs Hg.
  - injection Hg as ->. exists (TObj (set_key k b kvs)). split; [done|]. split; [done|]. intros q Hq.
    destruct q as [|k' q].
    + split; [split; intros _; by eexists|]. intros kq [= <-]. eexists. split; [done|]. intros k' Hk'.
      rewrite tmap_set. apply lookup_insert_ne. intros <-. by apply Hk'.
    + assert (Hne : k <> k').
      { intros <-. apply Hq. apply prefix_cons, prefix_nil. }
      assert (E : getp (k' :: q) (TObj (set_key k b kvs)) = getp (k' :: q) (TObj kvs)).
      { cbn [getp]. by rewrite member_set, decide_False. }
      unfold objp. rewrite E. split; [done|]. intros kq Hkq. exists kq. done.
  - cbn [getp] in Hg. destruct t as [| |ks| |]; try done.
    destruct (member j (TObj ks)) as [u|] eqn:Eu; [|done]. cbn in Hg.
    destruct (IH k b u kvs Hg) as (u' & Hu' & Hgp & Hq). cbn [app].
    assert (Hsub : sub j ks = u).
    { unfold sub. cbn in Eu. rewrite Eu. destruct u as [[]| | | |]; try done. by destruct p. }
    rewrite stored_eq by (by destruct p). rewrite Hsub, Hu'. cbn. eexists. split; [done|]. split.
    { rewrite member_set, decide_True by done. done. }
    intros q Hnq. destruct q as [|j' q].
    + split; [split; intros _; by eexists|]. intros kq [= <-]. eexists. split; [done|]. intros k' Hk'.
      rewrite tmap_set. apply lookup_insert_ne. intros <-. apply Hk'. apply prefix_cons, prefix_nil.
    + destruct (decide (j = j')) as [<-|Hne].
      * assert (Hn' : ~ (p ++ [k]) `prefix_of` q) by (intros Hp; apply Hnq; by apply prefix_cons).
        destruct (Hq q Hn') as [H1 H2]. unfold objp. cbn [getp]. rewrite member_set, decide_True by done. rewrite Eu.
        split; [exact H1|]. intros kq Hkq. destruct (H2 kq Hkq) as (kq' & H3 & H4). exists kq'. split; [done|].
        intros k' Hk'. apply H4. intros Hp. apply Hk'. cbn. by apply prefix_cons.
      * assert (E : getp (j' :: q) (TObj (set_key j u' ks)) = getp (j' :: q) (TObj ks)).
        { cbn [getp]. by rewrite member_set, decide_False. }
        unfold objp. rewrite E. split; [done|]. intros kq Hkq. exists kq. done.
Qed.
(** storing below a missing object is storing below the object made there *)
Lemma stored_mkdir p : forall k r b t kvs, getp p t = Some (TObj kvs) -> r <> [] ->
  (tmap kvs !! k = None \/ tmap kvs !! k = Some (TS SNil)) ->
  stored (p ++ k :: r) b t = (stored (p ++ [k]) (TObj []) t ≫= stored (p ++ k :: r) b).
Proof.
  induction p as [|j p IH]; intros k r b t kvs Hg Hr Hk.
  - injection Hg as ->. cbn [app]. rewrite stored_one. change (Some ?x ≫= ?f) with (f x). cbv beta. rewrite !stored_eq by done.
    assert (E1 : sub k kvs = TObj []) by (unfold sub; by destruct Hk as [-> | ->]).
    assert (E2 : sub k (set_key k (TObj []) kvs) = TObj []) by (unfold sub; by rewrite tmap_set, lookup_insert).
    rewrite E1, E2. destruct (stored r b (TObj [])) as [u|]; [|done]. cbn. do 2 f_equal.
    unfold set_key. f_equal. rewrite filter_cons_False by (cbn; by intros ?).
    clear. induction kvs as [|[k' t] kvs IH]; [done|]. rewrite filter_cons. case_decide as E; [|exact IH]. rewrite filter_cons_True by exact E.
    by f_equal.
  - cbn [getp] in Hg. destruct t as [| |ks| |]; try done.
    destruct (member j (TObj ks)) as [u|] eqn:Eu; [|done]. cbn in Hg.
    assert (Hsub : sub j ks = u).
    { unfold sub. cbn in Eu. rewrite Eu. destruct u as [[]| | | |]; try done. by destruct p. }
    cbn [app]. rewrite !stored_eq by (by destruct p). rewrite Hsub, (IH k r b u kvs Hg Hr Hk).
    destruct (stored (p ++ [k]) (TObj []) u) as [u'|] eqn:Eu'; [|done]. change (Some u' ≫= ?f) with (f u'). cbv beta. change (Some (TObj ?y) ≫= ?f) with (f (TObj y)). cbv beta.
    rewrite stored_eq by (by destruct p).
    assert (E2 : sub j (set_key j u' ks) = u').
    { unfold sub. rewrite tmap_set, lookup_insert. destruct (stored_obj _ _ _ _ Eu') as (? & ? & _ & ->). done. }
    rewrite E2. destruct (stored (p ++ k :: r) b u') as [u2|]; [|done]. cbn. do 2 f_equal.
    unfold set_key. f_equal. rewrite filter_cons_False by (cbn; by intros ?).
    clear. induction ks as [|[k' t] kvs IH]; [done|]. rewrite filter_cons. case_decide as E; [|exact IH]. rewrite filter_cons_True by exact E.
    by f_equal.
Qed.

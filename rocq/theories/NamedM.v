(** The file generated from a schema when structs are not nested is the one its declarations describe. *)
From stdpp Require Import strings list gmap.
From Coq Require Import Ascii ZArith Lia.
From Verif Require Import GoStr GoStrL Val Conv Schema Inst Load SpecPath PathL SpecWalk WalkL SpecLoad FlatL SpecGen SpecNamed Gen GenL SortL GenP GenM KeyedL NamedL.

Section gen.
Context (W : oracles) (A : args) (root_name : string).
Notation rename := (a_fieldNames A).
Notation title := (exported W).
Notation pointers := (a_pointers A).
Notation K0 := (title root_name).
Notation does := (does title K0 (gmk) (gfld W A)).
Notation does_value := (does_value title K0 (gmk) (gfld W A)).
Notation ngood := (ngood A).

Definition matches (n : string * gstruct) (s : string * list gdecl) : Prop :=
  n.1 = s.1 /\ g_name n.2 = n.1 /\ g_embeds n.2 = [] /\ (g_fields n.2 = [] <-> s.2 = []).
Definition wrote (nested : list (string * gstruct)) (excl : list string) (n : string * gstruct) (s : string * list gdecl) : Prop :=
  include_time (g_fields n.2) = existsb uses_time s.2 /\
  forall ord, key_order ord -> write_struct W A ord excl nested n.2 = show_struct (a_descTag A) (title s.1) [] s.2.
(** in every file where the structs [Ss] are as declared *)
Definition mw (Ss : gstructs) (n : string * gstruct) (s : string * list gdecl) : Prop :=
  matches n s /\ forall nested excl, cons nested excl Ss -> wrote nested excl n s.
Lemma mw_sub Ss Ss' n s : (forall x, x ∈ Ss -> x ∈ Ss') -> mw Ss n s -> mw Ss' n s.
Proof. intros Hs [H1 H2]. split; [done|]. intros nested excl Hc. apply H2. by eapply cons_sub. Qed.
Definition field_res (req : bool) (d : gdecl) (Ss : gstructs) (f : field) (N : list (string * gstruct)) : Prop :=
  (exists N', N' ≡ₚ N /\ Forall2 (mw Ss) N' Ss) /\ d_go d = f_name f /\ has_time f = uses_time d /\
  forall nested excl, cons nested excl Ss -> ngood nested excl req f d.
Definition vitem (arr : bool) (k : string) (r : tree) (i : instance) (req null : bool) (desc name : string) (ty : gtype) (Ss : gstructs) : item :=
  Item k r Ss.*1 (fun s => start W A arr (g_fields s) k i desc name null /\ bool_decide (k ∈ g_req s) = req)
    (fun s s' N => exists f, s' = with_fields s (put k f (g_fields s)) /\ f_json f = k /\ field_res req (GDecl desc name k req (Some (arrt arr ty))) Ss f N).
Record ent := Ent { e_k : string; e_r : tree; e_d : option gdecl; e_S : gstructs }.
Definition pitem (req : bool) (e : ent) : item :=
  Item (e_k e) (e_r e) (e_S e).*1 (fun s => assocd (e_k e) (g_fields s) = None /\ bool_decide (e_k e ∈ g_req s) = req)
    (fun s s' N => match e_d e with
       | None => s' = s /\ N = []
       | Some d => exists f, s' = with_fields s (put (e_k e) f (g_fields s)) /\ f_json f = e_k e /\ field_res req d (e_S e) f N
       end).
Definition ritem (reqs : list string) (e : ent) : item := pitem (bool_decide (e_k e ∈ reqs)) e.

Lemma with_with s fs fs' : with_fields (with_fields s fs) fs' = with_fields s fs'.
Proof. done. Qed.
Lemma with_same s : with_fields s (g_fields s) = s.
Proof. by destruct s. Qed.
Lemma ritem_keys reqs es : map (ritem reqs) es ≫= it_keys = (es ≫= e_S).*1.
Proof. induction es as [|e es IH]; [done|]. cbn. rewrite fmap_app. f_equal. exact IH. Qed.
Lemma ritem_pairs reqs es : map pair_of (map (ritem reqs) es) = map (fun e => (e_k e, e_r e)) es.
Proof. rewrite map_map. done. Qed.
Lemma ritem_step reqs e s s' N : it_R (ritem reqs e) s s' N -> g_req s' = g_req s /\ forall k, k <> e_k e -> assocd k (g_fields s') = assocd k (g_fields s).
Proof.
  cbn. destruct (e_d e); [|by intros [-> _]]. intros (f & -> & _). split; [done|]. intros k Hk. cbn. by rewrite assocd_put, decide_False.
Qed.
Lemma ritem_compat reqs es : NoDup (map e_k es) -> compat (map (ritem reqs) es).
Proof.
  intros Hnd a b l Hl s s' N Hb Ha.
  apply (Permutation_map it_k) in Hl as Hk. cbn in Hk.
  assert (Hkk : map it_k (map (ritem reqs) es) = map e_k es) by (by rewrite map_map). rewrite Hkk in Hk. rewrite Hk in Hnd.
  apply NoDup_cons in Hnd as [Hab _]. apply not_elem_of_cons in Hab as [Hab _].
  assert (Hin : a ∈ map (ritem reqs) es /\ b ∈ map (ritem reqs) es). { rewrite Hl. split; [left|right; left]. }
  destruct Hin as [(ea & -> & _)%elem_of_list_fmap (eb & -> & _)%elem_of_list_fmap]. cbn in Hab.
  apply ritem_step in Ha as [Hr Hf]. cbn in Hb |- *. rewrite Hr, Hf by done. done.
Qed.
(** what a list of properties does *)
Definition good_at (Ss : gstructs) (reqs : list string) (kf : string * field) (d : gdecl) : Prop :=
  f_json kf.2 = kf.1 /\ d_go d = f_name kf.2 /\ has_time kf.2 = uses_time d /\
  forall nested excl, cons nested excl Ss -> ngood nested excl (bool_decide (kf.1 ∈ reqs)) kf.2 d.
Lemma good_at_sub Ss Ss' reqs kf d : (forall x, x ∈ Ss -> x ∈ Ss') -> good_at Ss reqs kf d -> good_at Ss' reqs kf d.
Proof. intros Hs (H1 & H2 & H3 & H4). split_and!; [done..|]. intros nested excl Hc. apply H4. by eapply cons_sub. Qed.
Lemma chain_fields reqs es s s' N : NoDup (map e_k es) -> (forall e, e ∈ es -> assocd (e_k e) (g_fields s) = None) -> Forall (fun e => e_d e = None -> e_S e = []) es ->
  chain (map (ritem reqs) es) s s' N ->
  exists L N', s' = with_fields s (g_fields s ++ L) /\ sublist L.*1 (map e_k es) /\ N' ≡ₚ N /\ 
    Forall2 (good_at (es ≫= e_S) reqs) L (omap e_d es) /\ Forall2 (mw (es ≫= e_S)) N' (es ≫= e_S).
Proof.
  revert s N. induction es as [|e es IH]; intros s N Hnd Hfr Hn Hc; cbn [map chain] in Hc.
  - destruct Hc as [-> ->]. exists [], []. rewrite app_nil_r, with_same. split_and!; [done|constructor|done|constructor..].
  - destruct Hc as (s1 & N1 & N2 & HR & Hc & ->). cbn in Hnd. apply NoDup_cons in Hnd as [Hk Hnd]. apply Forall_cons in Hn as [Hn Hns].
    assert (Hst := ritem_step _ _ _ _ _ HR). destruct Hst as [_ Hst].
    assert (Hfr' : forall e', e' ∈ es -> assocd (e_k e') (g_fields s1) = None).
    { intros e' He'. rewrite Hst; [apply Hfr; by right|]. intros E. apply Hk. rewrite <- E. apply elem_of_list_fmap. by exists e'. }
    destruct (IH s1 N2 Hnd Hfr' Hns Hc) as (L & N' & -> & Hsub & HN & HL & Hw). clear IH.
    cbn [it_R ritem pitem] in HR. cbn [omap list_omap mbind list_bind map]. destruct (e_d e) as [d|] eqn:Ed.
    + destruct HR as (f & -> & Hj & (N1' & HN1 & Hw1) & Hgo & Htm & Hg). exists ((e_k e, f) :: L), (N1' ++ N'). cbn [g_fields with_fields].
      rewrite (put_new _ _ _ (Hfr e ltac:(left))). rewrite <- app_assoc. split; [done|]. split; [by constructor|]. split; [by rewrite HN1, HN|].
      split.
      * constructor.
        -- eapply good_at_sub; [|split; [exact Hj|]; split; [exact Hgo|]; split; [exact Htm|exact Hg]]. intros x Hx. apply elem_of_app. by left.
        -- eapply Forall2_impl; [exact HL|]. intros kf d' H. eapply good_at_sub; [|exact H]. intros x Hx. apply elem_of_app. by right.
      * apply Forall2_app.
        -- eapply Forall2_impl; [exact Hw1|]. intros n x H. eapply mw_sub; [|exact H]. intros y Hy. apply elem_of_app. by left.
        -- eapply Forall2_impl; [exact Hw|]. intros n x H. eapply mw_sub; [|exact H]. intros y Hy. apply elem_of_app. by right.
    + destruct HR as [-> ->]. rewrite Hn by done. exists L, N'. split_and!; [done|by constructor|done..].
Qed.
(** a struct of such fields *)
Lemma fields_text ord loc L ds' ds (Rl : string * field -> gdecl -> Prop) g tx : key_order ord -> Forall2 Rl L ds' -> ds' ≡ₚ ds -> NoDup L.*1 -> NoDup (map d_go ds) ->
  (forall k f d, (k, f) ∈ L -> Rl (k, f) d -> tx k f = g d /\ d_go d = f_name f) ->
  let subs := map (fun kf : string * field => let (k, sub) := kf in (k, (f_name sub, tx k sub))) L in
  join "" (sorted (iterate (ord loc subs.*1) subs)) = join "" (map g (by_name ds)).
Proof.
  intros Hord HL Hp HndL Hnd Htx subs. assert (Hk : subs.*1 = L.*1).
  { unfold subs. clear. induction L as [|[k f] L IH]; [done|]. cbn. by f_equal. }
  assert (Hs2 : subs.*2 = map (fun d => (d_go d, g d)) ds').
  { unfold subs. clear -HL Htx. induction HL as [|[k f] d L ds H HL IH]; [done|]. cbn. rewrite IH.
    - destruct (Htx k f d) as [-> ->]; [left|done|done].
    - intros k' f' d' Hin. apply Htx. by right. }
  assert (Hi : iterate (ord loc subs.*1) subs ≡ₚ map (fun d => (d_go d, g d)) ds).
  { rewrite iterate_perm; [|by rewrite Hk|apply Hord]. rewrite Hs2. by rewrite Hp. }
  rewrite <- sorted_decls by done. f_equal. apply sorted_perm; [|done].
  rewrite Hi. assert (Hf : forall l, (map (fun d => (d_go d, g d)) l).*1 = map d_go l) by (induction l as [|d l IH]; [done|]; cbn; by f_equal).
  by rewrite Hf.
Qed.
Lemma time_all Ss reqs L ds : Forall2 (good_at Ss reqs) L ds -> include_time L = existsb uses_time ds.
Proof. unfold include_time. induction 1 as [|[k f] d L ds (_ & _ & Ht & _) H IH]; [done|]. cbn in *. by rewrite Ht, IH. Qed.
Lemma struct_text Ss nested excl reqs ord name embeds L ds' ds : cons nested excl Ss -> key_order ord -> Forall2 (good_at Ss reqs) L ds' -> ds' ≡ₚ ds -> NoDup L.*1 -> NoDup (map d_go ds) ->
  write_struct W A ord excl nested (GStruct name L reqs embeds) = show_struct (a_descTag A) (title name) embeds (by_name ds).
Proof.
  intros Hc Hord HL Hp HndL Hnd. unfold write_struct, show_struct. cbn [g_name g_embeds g_fields g_req]. change nl with newline. do 5 f_equal.
  f_equal. rewrite (fields_text ord [name] L ds' ds (good_at Ss reqs) (show (a_descTag A) tabulator)); [done..|].
  intros k' f d Hin (Hj & Hgo & _ & Hw). cbn in Hj, Hw, Hgo. rewrite Hj. split; [|done]. by apply (Hw nested excl Hc).
Qed.
End gen.

(** Walking a schema while keeping one record for each object, by a key made of the names on the way to it. *)
From stdpp Require Import strings list gmap.
From Coq Require Import Ascii ZArith Lia.
From Verif Require Import GoStr GoStrL Val Conv Schema Inst Load SpecPath PathL SpecWalk WalkL SpecGen Gen GenL GenP GenM.

Section keyed.
Context {X : Type} (title : string -> string) (K0 : string).
(** a new record for an object, and what the object or another value does to the record it is in *)
Context (mk : bool -> X -> string -> string -> instance -> X) (fld : bool -> X -> string -> string -> instance -> res X).
Definition state : Type := X * list (string * X).
Definition cur (st : state) (P : string) : X := default st.1 (assocd P st.2).
Definition top (st : state) (P : string) : bool := match assocd P st.2 with None => true | Some _ => false end.
Definition upd (P : string) (s : X) (st : state) : state :=
  match assocd P st.2 with Some _ => (st.1, put P s st.2) | None => (s, st.2) end.
Definition ext (st : state) (N : list (string * X)) : state := (st.1, st.2 ++ N).
Definition key (ns : list string) : string := join "" (K0 :: map title ns).
Definition step (ns : list string) (i : instance) (st : state) : state * res unit :=
  match List.rev ns with
  | [] => (st, Panic)
  | n :: _ =>
    let P := join "" (removelast (K0 :: map title ns)) in
    let gen := cur st P in
    match fld (top st P) gen n (key ns) i with
    | Ok s => let st' := upd P s st in
        (if has_type "object" i then (st'.1, put (key ns) (mk (top st P) gen n (key ns) i) st'.2) else st', Ok tt)
    | Err => (st, Err)
    | Panic => (st, Panic)
    end
  end.
Definition visit (path : string) (i : instance) (st : state) : state * res unit := step (split_json_path path) i st.
Fixpoint goes (vs : list (list seg * tree)) (st : state) : res state :=
  match vs with
  | [] => Ok st
  | (σ, r) :: vs' => match visit (path_of σ) (inst_of r) st with (st', Ok _) => goes vs' st' | (_, Err) => Err | (_, Panic) => Panic end
  end.
Lemma goes_app vs vs' st : goes (vs ++ vs') st = rbind (goes vs st) (goes vs').
Proof. revert st. induction vs as [|[σ r] vs IH]; intros st; [done|]. cbn. destruct (visit _ _ _) as [st' [[]| |]]; [|done..]. apply IH. Qed.
Lemma goes_calls vs st st' : goes vs st = Ok st' -> calls (on_inst visit) vs (Ok tt) st = (st', Ok tt).
Proof.
  revert st. induction vs as [|[σ r] vs IH]; intros st H; [by injection H as ->|]. cbn [goes] in H. cbn [calls]. unfold on_inst at 1.
  destruct (visit _ _ _) as [s [[]| |]]; [|done..]. by apply IH.
Qed.

(** ** keys *)
Lemma join_nil_app l l' : join "" (l ++ l') = join "" l +:+ join "" l'.
Proof.
  induction l as [|x l IH]; [by rewrite sapp_nil_l|]. cbn [app]. destruct l as [|y l].
  - cbn [app]. destruct l' as [|z l']; [cbn; by rewrite sapp_nil_r|]. rewrite (join_cons "" x (z :: l')) by done. by rewrite sapp_nil_l.
  - cbn [app] in *. rewrite (join_cons "" x (y :: l ++ l')) by done. rewrite (join_cons "" x (y :: l)) by done. rewrite IH. by rewrite !app_assoc_s.
Qed.
Lemma key_snoc ns k : key (ns ++ [k]) = key ns +:+ title k.
Proof. unfold key. rewrite map_app. cbn [map]. change (K0 :: map title ns ++ [title k]) with ((K0 :: map title ns) ++ [title k]). by rewrite join_nil_app. Qed.
Lemma removelast_snoc {B} (l : list B) x : removelast (l ++ [x]) = l.
Proof. apply removelast_last. Qed.
Lemma step_snoc ns k i st : step (ns ++ [k]) i st =
  match fld (top st (key ns)) (cur st (key ns)) k (key ns +:+ title k) i with
  | Ok s => let st' := upd (key ns) s st in
      (if has_type "object" i then (st'.1, put (key ns +:+ title k) (mk (top st (key ns)) (cur st (key ns)) k (key ns +:+ title k) i) st'.2) else st', Ok tt)
  | Err => (st, Err)
  | Panic => (st, Panic)
  end.
Proof.
  unfold step. rewrite rev_app_distr. cbn [List.rev app]. rewrite key_snoc. rewrite map_app. cbn [map].
  change (K0 :: map title ns ++ [title k]) with ((K0 :: map title ns) ++ [title k]). rewrite removelast_snoc. done.
Qed.

(** ** states *)
Lemma keys_put {B} k (v : B) l : is_Some (assocd k l) -> (put k v l).*1 = l.*1.
Proof.
  induction l as [|[x y] l IH]; cbn; [by intros [? [=]]|]. destruct (decide (x = k)) as [->|N]; [done|]. intros H. cbn. f_equal. by apply IH.
Qed.
Lemma cur_upd P s st : cur (upd P s st) P = s.
Proof. unfold cur, upd. destruct (assocd P st.2) eqn:E; cbn; [by rewrite assocd_put, decide_True|by rewrite E]. Qed.
Lemma top_upd P s st P' : top (upd P s st) P' = top st P'.
Proof. unfold top, upd. destruct (assocd P st.2) eqn:E; cbn; [|done]. rewrite assocd_put. destruct (decide (P' = P)) as [->|N]; [by rewrite E|done]. Qed.
Lemma upd_upd P s s' st : upd P s' (upd P s st) = upd P s' st.
Proof. unfold upd. destruct (assocd P st.2) eqn:E; cbn; [rewrite assocd_put, decide_True by done; by rewrite put_put|by rewrite E]. Qed.
Lemma upd_same P st : upd P (cur st P) st = st.
Proof. unfold upd, cur. destruct st as [r n]. cbn. destruct (assocd P n) eqn:E; cbn; [by rewrite put_same|done]. Qed.
Lemma keys_upd P s st : (upd P s st).2.*1 = st.2.*1.
Proof. unfold upd. destruct (assocd P st.2) eqn:E; cbn; [apply keys_put; by rewrite E|done]. Qed.
Lemma assocd_ext P st N : P ∉ N.*1 -> assocd P (ext st N).2 = assocd P st.2.
Proof. intros H. cbn. rewrite assocd_app. destruct (assocd P st.2); [done|]. by apply assocd_none. Qed.
Lemma cur_ext P st N : P ∉ N.*1 -> cur (ext st N) P = cur st P.
Proof. intros H. unfold cur. by rewrite assocd_ext. Qed.
Lemma top_ext P st N : P ∉ N.*1 -> top (ext st N) P = top st P.
Proof. intros H. unfold top. by rewrite assocd_ext. Qed.
Lemma put_app {B} k (v : B) l l' : is_Some (assocd k l) -> put k v (l ++ l') = put k v l ++ l'.
Proof. induction l as [|[x y] l IH]; cbn; [by intros [? [=]]|]. destruct (decide (x = k)) as [->|N]; [done|]. intros H. cbn. f_equal. by apply IH. Qed.
Lemma upd_ext P s st N : P ∉ N.*1 -> upd P s (ext st N) = ext (upd P s st) N.
Proof. intros H. unfold upd. rewrite assocd_ext by done. destruct (assocd P st.2) eqn:E; [|done]. unfold ext. cbn. by rewrite put_app. Qed.
Lemma ext_ext st N N' : ext (ext st N) N' = ext st (N ++ N').
Proof. unfold ext. cbn. by rewrite app_assoc. Qed.
Lemma ext_nil st : ext st [] = st.
Proof. unfold ext. rewrite app_nil_r. by destruct st. Qed.
Lemma put_fresh Q c st : Q ∉ st.2.*1 -> (st.1, put Q c st.2) = ext st [(Q, c)].
Proof. intros H. unfold ext. rewrite put_new; [done|]. by apply assocd_none. Qed.
Lemma cur_new Q c N st : Q ∉ st.2.*1 -> cur (ext st ((Q, c) :: N)) Q = c.
Proof. intros H. unfold cur. cbn. rewrite assocd_app. rewrite (proj2 (assocd_none Q st.2)) by done. cbn. by rewrite decide_True. Qed.
Lemma top_new Q c N st : top (ext st ((Q, c) :: N)) Q = false.
Proof. unfold top. cbn. rewrite assocd_app. destruct (assocd Q st.2); [done|]. cbn. by rewrite decide_True. Qed.
Lemma upd_new Q c c' N st : Q ∉ st.2.*1 -> upd Q c' (ext st ((Q, c) :: N)) = ext st ((Q, c') :: N).
Proof.
  intros H. unfold upd, ext. cbn. rewrite assocd_app. apply assocd_none in H as H'. rewrite H'. cbn. rewrite decide_True by done.
  f_equal. clear H. induction st.2 as [|[x y] l IH]; cbn in *; [by rewrite decide_True|]. destruct (decide (x = Q)) as [->|N']; [done|]. f_equal. by apply IH.
Qed.

(** ** items
    The property [k] with schema [r] makes records for the keys [it_keys]; from a record of which [it_pre] holds it makes one
    related by [it_R]. *)
Record item := Item { it_k : string; it_r : tree; it_keys : list string; it_pre : X -> Prop; it_R : X -> X -> list (string * X) -> Prop }.
Definition fresh (P : string) (st : state) (ks : list string) : Prop := NoDup ks /\ P ∉ ks /\ forall k, k ∈ ks -> k ∉ st.2.*1.
Definition does (tp : bool) (P : string) (it : item) : Prop :=
  field_name (it_k it) /\
  forall gs st vs ok, key (names gs) = P -> named_path gs -> top st P = tp -> it_pre it (cur st P) -> fresh P st (it_keys it) ->
    walks KW (gpath gs ++ [Nm (it_k it)]) (it_r it) vs ok ->
    ok = true /\ exists s N, goes vs st = Ok (ext (upd P s st) N) /\ N.*1 ≡ₚ it_keys it /\ it_R it (cur st P) s N.
Fixpoint chain (its : list item) (s s' : X) (N : list (string * X)) : Prop :=
  match its with
  | [] => s' = s /\ N = []
  | it :: its' => exists s1 N1 N2, it_R it s s1 N1 /\ chain its' s1 s' N2 /\ N = N1 ++ N2
  end.
Definition compat (its : list item) : Prop :=
  forall a b its', its ≡ₚ a :: b :: its' -> forall s s' N, it_pre b s -> it_R a s s' N -> it_pre b s'.
Lemma compat_perm its its' : its ≡ₚ its' -> compat its -> compat its'.
Proof. intros Hp H a b l Hl. apply (H a b l). by rewrite Hp. Qed.
Lemma compat_tail it its : compat (it :: its) -> compat its.
Proof. intros H a b l Hl. apply (H a b (it :: l)). rewrite Hl. exact (Permutation_middle [a; b] l it). Qed.
Lemma compat_head it its : compat (it :: its) -> forall s s' N, it_R it s s' N -> Forall (fun b => it_pre b s) its -> Forall (fun b => it_pre b s') its.
Proof.
  intros H s s' N HR Hf. apply Forall_forall. intros b Hb. apply elem_of_Permutation in Hb as [l Hl]. eapply (H it b l); [by rewrite Hl| |exact HR].
  rewrite Hl in Hf. by inversion Hf.
Qed.
Definition pair_of (it : item) : string * tree := (it_k it, it_r it).
Lemma all_goes tp P its : Forall (does tp P) its -> compat its -> forall gs st vs ok,
  key (names gs) = P -> named_path gs -> top st P = tp -> Forall (fun it => it_pre it (cur st P)) its -> fresh P st (its ≫= it_keys) ->
  walks_all KW (gpath gs) (map pair_of its) vs ok ->
  ok = true /\ exists s N, goes vs st = Ok (ext (upd P s st) N) /\ N.*1 ≡ₚ its ≫= it_keys /\ chain its (cur st P) s N.
Proof.
  intros Hd. induction Hd as [|it its [Hk Hd] Hds IH]; intros Hc gs st vs ok Hkey Hgs Htop Hpre Hfr Hw; apply walks_all_inv in Hw; cbn [map] in Hw.
  - destruct Hw as [-> ->]. split; [done|]. exists (cur st P), []. rewrite upd_same, ext_nil. done.
  - cbn [mbind list_bind] in Hfr. destruct Hfr as (Hnd & HP & Hst). apply NoDup_app in Hnd as (Hnd1 & Hdis & Hnd2).
    apply Forall_cons in Hpre as [Hp1 Hp2].
    assert (Hf1 : fresh P st (it_keys it)). { split_and!; [done|set_solver|]. intros k Hk'. apply Hst. apply elem_of_app. by left. }
    unfold pair_of at 1 in Hw. destruct Hw as [[Hw _]|(v1 & v2 & -> & Hw1 & Hw2)].
    { by destruct (Hd gs st vs false Hkey Hgs Htop Hp1 Hf1 Hw). }
    destruct (Hd gs st v1 true Hkey Hgs Htop Hp1 Hf1 Hw1) as (_ & s1 & N1 & Hr & HN & HR). rewrite goes_app, Hr. cbn [rbind].
    assert (HPN : P ∉ N1.*1) by (rewrite HN; set_solver).
    assert (Hcur : cur (ext (upd P s1 st) N1) P = s1) by (by rewrite cur_ext, cur_upd).
    destruct (IH (compat_tail _ _ Hc) gs (ext (upd P s1 st) N1) v2 ok) as (Hok & s & N2 & Hr2 & HN2 & HR2); [done|done| | | |done|].
    + by rewrite top_ext, top_upd.
    + rewrite Hcur. by eapply compat_head.
    + split_and!; [done|set_solver|]. intros k Hk'. cbn. rewrite fmap_app, keys_upd, HN. intros [H|H]%elem_of_app; [|by eapply Hdis].
      eapply Hst; [|exact H]. apply elem_of_app. by right.
    + split; [done|]. exists s, (N1 ++ N2). rewrite Hr2, upd_ext, upd_upd, ext_ext by done. split; [done|]. split.
      * rewrite fmap_app, HN, HN2. done.
      * rewrite Hcur in HR2. cbn. by exists s1, N1, N2.
Qed.

(** ** values *)
(** what the first value at a place does: the property itself, or the items of an array *)
Definition does_value (tp : bool) (P : string) (it : item) : Prop :=
  field_name (it_k it) /\
  forall gs arr st vs ok, key (names gs) = P -> named_path gs -> top st P = tp -> it_pre it (cur st P) -> fresh P st (it_keys it) ->
    walks KW (gpath (gs ++ [(it_k it, arr)])) (it_r it) vs ok ->
    ok = true /\ exists s N, goes vs st = Ok (ext (upd P s st) N) /\ N.*1 ≡ₚ it_keys it /\ it_R it (cur st P) s N.
Lemma visit_snoc gs k arr i st : named_path gs -> field_name k -> visit (path_of (gpath (gs ++ [(k, arr)]))) i st = step (names gs ++ [k]) i st.
Proof. intros Hgs Hk. unfold visit. by rewrite split_snoc. Qed.
Lemma does_plain tp P it : does_value tp P it -> does tp P it.
Proof. intros [Hk H]. split; [done|]. intros gs st vs ok Hkey Hgs Htop Hp Hf Hw. rewrite gpath_snoc in Hw. by eapply (H gs false). Qed.
Lemma value_leaf tp P k r i (pre : X -> Prop) (R : X -> X -> Prop) : field_name k -> d_inst false r = Ok i ->
  has_type "object" i = false -> has_type "array" i = false ->
  (forall s, pre s -> exists s', fld tp s k (P +:+ title k) i = Ok s' /\ R s s') ->
  does_value tp P (Item k r [] pre (fun s s' N => R s s' /\ N = [])).
Proof.
  intros Hk Hi Ho Ha HR. split; [done|]. cbn [it_k it_r it_keys it_pre it_R]. intros gs arr st vs ok Hkey Hgs Htop Hp Hf Hw.
  assert (HK : KW r = (true, KLeaf)) by (by rewrite (KW_ok _ _ Hi), Ho, Ha).
  apply walks_inv in Hw as [[? Hx]|[Hx|[(_ & -> & ->)|[(? & ? & ? & Hx & _)|(? & ? & Hx & _)]]]]; try congruence.
  split; [done|]. destruct (HR _ Hp) as (s' & Hs & HRs). exists s', []. split; [|done]. cbn [goes]. rewrite (inst_of_ok _ _ Hi), visit_snoc, step_snoc, Hkey, Htop, Hs, Ho by done.
  cbn. by rewrite ext_nil.
Qed.
(** an object: [its] for its properties *)
Lemma value_object tp P k r i ps its (pre : X -> Prop) (R : X -> X -> Prop) : field_name k -> d_inst false r = Ok i ->
  has_type "object" i = true -> n_props i = Some ps -> map pair_of its = ps -> Forall (does false (P +:+ title k)) its -> compat its ->
  (forall s, pre s -> Forall (fun it => it_pre it (mk tp s k (P +:+ title k) i)) its) ->
  (forall s, pre s -> exists s', fld tp s k (P +:+ title k) i = Ok s' /\ R s s') ->
  does_value tp P (Item k r ((P +:+ title k) :: its ≫= it_keys) pre
    (fun s s' N => R s s' /\ exists its' c N', its' ≡ₚ its /\ N = (P +:+ title k, c) :: N' /\ chain its' (mk tp s k (P +:+ title k) i) c N')).
Proof.
  intros Hk Hi Ho Hps Hits Hds Hc Hpre HR. set (Q := P +:+ title k) in *. split; [done|]. cbn [it_k it_r it_keys it_pre it_R].
  intros gs arr st vs ok Hkey Hgs Htop Hp Hf Hw.
  assert (HK : KW r = (true, KObj ps)) by (by rewrite (KW_ok _ _ Hi), Ho, Hps).
  apply walks_inv in Hw as [[? Hx]|[Hx|[(Hx & _)|[(ps0 & ps' & vs' & Hx & Hp' & -> & Hwa)|(? & ? & Hx & _)]]]]; try congruence.
  assert (ps0 = ps) as -> by congruence. rewrite <- Hits in Hp'. apply Permutation_map_inv in Hp' as (its' & -> & Hits').
  destruct (HR _ Hp) as (s' & Hs & HRs). cbn [goes]. rewrite (inst_of_ok _ _ Hi), visit_snoc, step_snoc, Hkey, Htop by done. fold Q. rewrite Hs, Ho.
  set (c0 := mk tp (cur st P) k Q i). destruct Hf as (Hnd & HP & Hst). apply NoDup_cons in Hnd as [HQ Hnd]. apply not_elem_of_cons in HP as [HPQ HP].
  assert (HQst : Q ∉ (upd P s' st).2.*1). { rewrite keys_upd. apply Hst. left. }
  cbn zeta. rewrite (put_fresh _ _ _ HQst). set (st1 := ext (upd P s' st) [(Q, c0)]).
  assert (Hbk : its' ≫= it_keys ≡ₚ its ≫= it_keys) by (by rewrite Hits').
  destruct (all_goes false Q its' ltac:(by rewrite <- Hits') ltac:(by eapply compat_perm) (gs ++ [(k, arr)]) st1 vs' ok) as (Hok & c & N & Hr & HN & HR').
  - rewrite names_snoc, key_snoc, Hkey. done.
  - by apply named_snoc.
  - apply top_new.
  - unfold st1. rewrite (cur_new _ _ _ _ HQst). rewrite <- Hits'. by apply Hpre.
  - split_and!; [by rewrite Hbk|by rewrite Hbk|]. intros x Hx'. rewrite Hbk in Hx'. unfold st1. cbn. rewrite fmap_app, keys_upd. cbn.
    intros [H|H]%elem_of_app; [eapply Hst; [|exact H]; by right|]. apply elem_of_list_singleton in H as ->. done.
  - done.
  - split; [done|]. exists s', ((Q, c) :: N). rewrite Hr. unfold st1 in *. rewrite upd_new by done. rewrite ext_ext. split; [done|]. split.
    + cbn. by rewrite HN, Hbk.
    + split; [done|]. exists its', c, N. split; [by symmetry|]. split; [done|]. rewrite (cur_new _ _ _ _ HQst) in HR'. done.
Qed.
(** an array of values *)
Lemma does_array tp P k r i x keys (pre pre' : X -> Prop) R' (R : X -> X -> Prop) : d_inst false r = Ok i ->
  has_type "object" i = false -> has_type "array" i = true -> n_items i = Some x ->
  does_value tp P (Item k x keys pre' R') ->
  (forall s, pre s -> exists s', fld tp s k (P +:+ title k) i = Ok s' /\ R s s' /\ pre' s') ->
  does tp P (Item k r keys pre (fun s s'' N => exists s', R s s' /\ R' s' s'' N)).
Proof.
  intros Hi Ho Ha Hx [Hk Hd] HR. split; [done|]. cbn [it_k it_r it_keys it_pre it_R] in *. intros gs st vs ok Hkey Hgs Htop Hp Hf Hw. rewrite gpath_snoc in Hw.
  assert (HK : KW r = (true, KArr x)) by (by rewrite (KW_ok _ _ Hi), Ho, Ha, Hx).
  apply walks_inv in Hw as [[? Hy]|[Hy|[(Hy & _)|[(? & ? & ? & Hy & _)|(x' & vs' & Hy & -> & Hw)]]]]; try congruence.
  assert (x' = x) as -> by congruence. rewrite gpath_star in Hw.
  destruct (HR _ Hp) as (s' & Hs & HRs & Hp'). cbn [goes]. rewrite (inst_of_ok _ _ Hi), visit_snoc, step_snoc, Hkey, Htop, Hs, Ho by done. cbn zeta.
  destruct (Hd gs true (upd P s' st) vs' ok Hkey Hgs) as (Hok & s & N & Hr & HN & HR').
  - by rewrite top_upd.
  - by rewrite cur_upd.
  - destruct Hf as (? & ? & ?). split_and!; [done..|]. by rewrite keys_upd.
  - done.
  - split; [done|]. exists s, N. rewrite Hr, upd_upd, cur_upd in *. split; [done|]. split; [done|]. by exists s'.
Qed.
(** the whole schema, for a callback that keeps its state in some other form *)
Context (Inv : X -> Prop) {Y : Type} (fn : string -> instance -> Y -> Y * res unit) (emb : state -> Y).
Context (Hinv : forall tp s n Q i s', Inv s -> fld tp s n Q i = Ok s' -> Inv s').
Context (Hfn : forall p i st, Inv st.1 -> fn p i (emb st) = let (st', e) := visit p i st in (emb st', e)).
Lemma visit_inv p i st st' : Inv st.1 -> visit p i st = (st', Ok tt) -> Inv st'.1.
Proof.
  intros HI. unfold visit, step. destruct (List.rev _) as [|n ?]; [done|]. set (P := join "" _). set (Q := key _).
  destruct (fld (top st P) (cur st P) n Q i) as [s| |] eqn:E; [|done..]. intros [= <-].
  assert (H : Inv (upd P s st).1).
  { unfold upd. unfold cur in E. destruct (assocd P st.2) as [x|]; cbn; [done|]. cbn in E. by eapply Hinv. }
  by destruct (has_type "object" i).
Qed.
Lemma goes_emb vs st st' : Inv st.1 -> goes vs st = Ok st' -> calls (on_inst fn) vs (Ok tt) (emb st) = (emb st', Ok tt).
Proof.
  revert st. induction vs as [|[σ r] vs IH]; intros st HI H; [by injection H as ->|]. cbn [goes] in H. cbn [calls]. unfold on_inst at 1.
  rewrite Hfn by done. destruct (visit (path_of σ) (inst_of r) st) as [s [[]| |]] eqn:E; [|done..]. apply IH; [|done]. by eapply visit_inv.
Qed.
Lemma schema_goes ord props its (s0 : X) : Inv s0 -> map_order ord -> map pair_of its = default [] props -> named (default [] props) ->
  (forall σ r ps, skinst KW (default [] props) None σ r -> KW r = (true, KObj ps) -> named ps) ->
  Forall (does true K0) its -> compat its -> Forall (fun it => it_pre it s0) its -> NoDup (K0 :: its ≫= it_keys) ->
  exists its' s N, its' ≡ₚ its /\ walk_schema fn ord props None (emb (s0, [])) = (emb (s, N), Ok tt) /\ N.*1 ≡ₚ its ≫= it_keys /\ chain its' s0 s N.
Proof.
  intros HI Hord Hits Hnm Hall Hds Hc Hpre Hnd.
  destruct (inst_top ord Hord props None Hnm Hall) as (props' & vs & ok & Hp & Ht & He).
  rewrite <- Hits in Hp. apply Permutation_map_inv in Hp as (its' & -> & Hits').
  assert (Hbk : its' ≫= it_keys ≡ₚ its ≫= it_keys) by (by rewrite Hits').
  apply NoDup_cons in Hnd as [HK0 Hnd].
  assert (Hgo : forall vs ok, walks_all KW [] (map pair_of its') vs ok -> ok = true /\ exists s N, goes vs (s0, []) = Ok (s, N) /\ N.*1 ≡ₚ its' ≫= it_keys /\ chain its' s0 s N).
  { intros vs0 ok0 Hw. destruct (all_goes true K0 its' ltac:(by rewrite <- Hits') ltac:(by eapply compat_perm) [] (s0, []) vs0 ok0) as (Hok & s & N & Hr & HN & HR).
    - done.
    - constructor.
    - done.
    - by rewrite <- Hits'.
    - split_and!; [by rewrite Hbk|by rewrite Hbk|]. intros k _. apply not_elem_of_nil.
    - done.
    - split; [done|]. exists s, N. done. }
  exists its'. rewrite He. inversion Ht as [items vs0 Hw E1 E2 E3|vs0 Hw E1 E2 E3|]; subst.
  - by destruct (Hgo _ _ Hw).
  - destruct (Hgo _ _ Hw) as (_ & s & N & Hr & HN & HR). exists s, N. split_and!; [by symmetry| |by rewrite <- Hbk|done]. cbn [fin]. by apply goes_emb.
Qed.
End keyed.

(** A pure reading of JSON transformers with array transforms and defaults, and what it depends on. *)
From stdpp Require Import strings list gmap.
From Coq Require Import ZArith Lia.
From Verif Require Import GoStr GoStrL Val Conv Instr Heap SpecPath PathL Den Param HeapL Refine Top SpecProj ProjL SpecArr ArrT ArrH ArrW.

Definition listed (t : tree) : list tree := match t with TArr l => l | _ => [t] end.
Section jden.
Context (W : oracles).
Definition jbase (path : string) (d : option (list tree)) (ts : option ptis) (cur : tree) (m : modifier) : option (list tree * bool) :=
  v ← run_ptis W FJson ts cur "array" m;
  if negb (tnil v) then Some (listed v, true) else
  match jget W tview path cur with
  | Some g => if negb (tnil (gtree g)) then Some (listed (gtree g), false) else Some (default [] d, bool_decide (is_Some d))
  | None => Some (default [] d, bool_decide (is_Some d))
  end.
Definition jarr (q : string) (d : option (list tree)) (ts : option ptis) (dn : tree -> modifier -> option tree) (cur : tree) (m : modifier) : option tree :=
  let path := apply_mod m q in
  b ← jbase path d ts cur m;
  doc' ← (if b.2 : bool then stored (default [] (plain_path path)) (TArr b.1) cur else Some cur);
  arr_of <$> all_of (imap (fun i _ => dn doc' (path_replace (path +:+ "[*]") (path +:+ idx_str i) m)) b.1).
Fixpoint jden (p : pitr) (cur : tree) (m : modifier) : option tree :=
  match p with
  | PScal q jt d ts => den_scal W FJson q jt d ts cur m
  | PObj _ _ _ cs => obj_of <$> all_of (List.map (fun kc => match kc with (k, c) => pair k <$> jden c cur m end) cs)
  | PArr q d ts c => jarr q d ts (jden c) cur m
  end.
End jden.

(** where a transformer stores something *)
Fixpoint pwrites (p : pitr) : list (list string) :=
  match p with
  | PScal _ _ _ _ => []
  | PObj _ _ _ cs => List.concat (List.map (fun kc => match kc with (_, c) => pwrites c end) cs)
  | PArr q None None c => pwrites c
  | PArr q _ _ c => [default [] (plain_path q)]
  end.

Section ok.
Context (ws : list (list string)).
(** a place is read that is neither on the way to a place in [ws], nor inside one that is not in [o] *)
Definition reads_ok (o : list (list string)) (path : string) : Prop :=
  exists ks, plain_path path = Some ks /\ ~ sp ws ks /\ forall w, w ∈ ws -> w ∉ o -> apart w ks.
Definition ts_ok (o : list (list string)) (ts : option ptis) (m : modifier) : Prop :=
  match ts with None => True | Some (_, _, from) => forall x, x ∈ from -> reads_ok o (apply_mod m (i_jpath x)) end.
Fixpoint jok (o : list (list string)) (p : pitr) (m : modifier) : Prop :=
  match p with
  | PScal q _ _ ts => pure_ts ts /\ reads_ok o (apply_mod m q) /\ ts_ok o ts m
  | PObj q d ts cs => d = None /\ ts = None /\ NoDup (pwrites p) /\
    (fix all (cs : list (string * pitr)) : Prop := match cs with [] => True | (_, c) :: cs' => jok o c m /\ all cs' end) cs
  | PArr q d ts c => let path := apply_mod m q in pwrites c = [] /\
    ((d = None /\ ts = None /\ reads_ok o path /\ forall i, jok o c (path_replace (path +:+ "[*]") (path +:+ idx_str i) m)) \/
     (~ (d = None /\ ts = None) /\ m = [] /\ o = [] /\ pure_ts ts /\ exists w, w ∈ ws /\ w <> [] /\ Forall (fun k => ident k = true) w /\ q = path_of (Nm <$> w) /\
        ts_ok [w] ts m /\ forall i, jok [w] c (path_replace (path +:+ "[*]") (path +:+ idx_str i) m)))
  end.
Context (Hws : forall w w', w ∈ ws -> w' ∈ ws -> w = w' \/ apart w w').

Lemma seg_key_names (w : list string) : seg_key <$> (Nm <$> w) = w.
Proof. induction w as [|k w IH]; [done|]. cbn. by f_equal. Qed.
Lemma plain_names (w : list string) : Forall (fun k => ident k = true) w -> plain_path (path_of (Nm <$> w)) = Some w.
Proof.
  intros H. rewrite plain_path_of; [by rewrite seg_key_names|]. apply Forall_fmap. eapply Forall_impl; [exact H|]. done.
Qed.
Lemma reads_own w : w ∈ ws -> Forall (fun k => ident k = true) w -> reads_ok [w] (path_of (Nm <$> w)).
Proof.
  intros Hw Hid. exists w. split; [by apply plain_names|]. split; [by apply ws_not_sp|].
  intros w' Hw' Hne. destruct (Hws w w' Hw Hw') as [<-|Ha]; [|by apply apart_sym]. destruct Hne. by apply elem_of_list_singleton.
Qed.
Lemma jok_children o q d ts cs m : jok o (PObj q d ts cs) m -> Forall (fun kc => jok o kc.2 m) cs.
Proof. intros (_ & _ & _ & H). induction cs as [|[k c] cs IH]; constructor; [apply H|apply IH, H]. Qed.
Lemma pwrites_child q d ts cs kc : kc ∈ cs -> pwrites kc.2 ⊆ pwrites (PObj q d ts cs).
Proof.
  intros Hin w Hw. cbn [pwrites]. apply elem_of_list_In, in_concat. exists (pwrites kc.2). split; [|by apply elem_of_list_In].
  apply in_map_iff. exists kc. split; [by destruct kc|by apply elem_of_list_In].
Qed.
Lemma jok_writes p : forall o m, jok o p m -> Forall (fun w => w ∈ ws) (pwrites p) /\ (o <> [] -> pwrites p = []).
Proof.
  induction p as [q jt d ts|q d ts cs IH|q d ts c IH] using pitr_ind'; intros o m Hj.
  - split; [constructor|done].
  - apply jok_children in Hj. cbn [pwrites]. induction cs as [|[k c] cs IHc]; [split; [constructor|done]|]. inversion IH as [|? ? IH1 IH2]; subst. inversion Hj as [|? ? Hj1 Hj2]; subst.
    cbn [List.map List.concat]. destruct (IH1 o m Hj1) as [A B]. destruct (IHc IH2 Hj2) as [C D]. split; [by apply Forall_app|].
    intros Ho. cbn [snd] in B. rewrite (B Ho), (D Ho). done.
  - destruct Hj as [Hc [(-> & -> & _)|(Hne & -> & -> & _ & w & Hw & _ & Hid & -> & _)]].
    + cbn [pwrites]. rewrite Hc. split; [constructor|done].
    + assert (E : pwrites (PArr (path_of (Nm <$> w)) d ts c) = [w]).
      { cbn [pwrites]. rewrite plain_names by done. destruct d, ts; try done. by destruct Hne. }
      rewrite E. split; [by constructor|done].
Qed.

(** ** dependency *)
Context (W : oracles).
Lemma jget_same path a b ks : plain_path path = Some ks -> select_path tview ks a = select_path tview ks b -> jget W tview path a = jget W tview path b.
Proof. intros Hp E. unfold jget. by rewrite Hp, E. Qed.
Lemma json_instr_same x a b ft m : jget W tview (apply_mod m (i_jpath x)) a = jget W tview (apply_mod m (i_jpath x)) b ->
  json_instr W tview x a ft m = json_instr W tview x b ft m.
Proof. intros E. unfold json_instr. by rewrite E. Qed.
Lemma run_first_ext {V} (vw : V -> vw V) st1 st2 from : (forall i, i ∈ from -> st1 i = st2 i) -> run_first vw st1 from = run_first vw st2 from.
Proof.
  induction from as [|i from IH]; intros H; [done|]. cbn [run_first]. rewrite (H i) by (by left). destruct (st2 i); [|done|done]. cbn.
  destruct (is_nil vw a); [|done]. apply IH. intros j Hj. apply H. by right.
Qed.
Lemma run_concat_ext {V} (vw : V -> vw V) st1 st2 dl from : (forall i, i ∈ from -> st1 i = st2 i) -> forall r, run_concat vw st1 dl r from = run_concat vw st2 dl r from.
Proof.
  induction from as [|i from IH]; intros H r; [done|]. cbn [run_concat]. rewrite (H i) by (by left). destruct (st2 i); [|done|done]. cbn.
  destruct (concat vw r a dl); [|done|done]. cbn. apply IH. intros j Hj. apply H. by right.
Qed.
Definition same (o : list (list string)) (a b : tree) : Prop :=
  forall ks, (forall w, w ∈ ws -> w ∉ o -> apart w ks) -> ~ sp ws ks -> select_path tview ks a = select_path tview ks b.
Lemma same_get o path a b : reads_ok o path -> same o a b -> jget W tview path a = jget W tview path b.
Proof. intros (ks & Hp & Hs & Ha) H. eapply jget_same; [done|]. by apply H. Qed.
Lemma run_ptis_same o ts ft m a b : ts_ok o ts m -> same o a b -> run_ptis W FJson ts a ft m = run_ptis W FJson ts b ft m.
Proof.
  intros Hts H. destruct ts as [[[me dl] from]|]; [|done]. unfold run_ptis, tis_run. cbn [fst ti_meth ti_delim].
  assert (E : forall i, i ∈ from -> instr_run W tview FJson i a ft m = instr_run W tview FJson i b ft m).
  { intros i Hi. apply json_instr_same. eapply same_get; [by apply Hts|done]. }
  destruct me.
  - by rewrite (run_first_ext _ _ (fun ins => instr_run W tview FJson ins b ft m)).
  - rewrite (run_first_ext _ _ (fun ins => instr_run W tview FJson ins b ft m)); [done|]. intros i Hi. apply E.
    apply elem_of_list_In. apply in_rev. by apply elem_of_list_In.
  - by rewrite (run_concat_ext _ _ (fun ins => instr_run W tview FJson ins b ft m)).
Qed.
Lemma jbase_same o path d ts a b m : ts_ok o ts m -> reads_ok o path -> same o a b -> jbase W path d ts a m = jbase W path d ts b m.
Proof. intros Hts Hp H. unfold jbase. rewrite (run_ptis_same o ts "array" m a b) by done. by rewrite (same_get o path a b). Qed.
Lemma imap_ext_all {A B} (f g : nat -> A -> B) l : (forall i x, f i x = g i x) -> imap f l = imap g l.
Proof. intros H. apply imap_ext. intros. apply H. Qed.

Lemma jden_same p : forall o m a b, jok o p m ->
  (forall ks, (forall w, w ∈ ws -> w ∉ o -> w ∉ pwrites p -> apart w ks) -> ~ sp ws ks -> select_path tview ks a = select_path tview ks b) ->
  (forall w, w ∈ pwrites p -> can w a <-> can w b) -> jden W p a m = jden W p b m.
Proof.
  induction p as [q jt d ts|q d ts cs IH|q d ts c IH] using pitr_ind'; intros o m a b Hj Hs Hc.
  - destruct Hj as (_ & Hq & Hts). assert (H : same o a b) by (intros ks Hk; apply Hs; intros w Hw Ho _; by apply Hk).
    cbn [jden]. unfold den_scal. rewrite (run_ptis_same o ts jt m a b) by done. by rewrite (same_get o _ a b).
  - cbn [jden]. do 2 f_equal. pose proof (jok_children _ _ _ _ _ _ Hj) as Hjc.
    apply map_ext_in. intros [k c] Hin. apply elem_of_list_In in Hin. rewrite Forall_forall in IH, Hjc. f_equal.
    pose proof (pwrites_child q d ts cs _ Hin) as Hsub. cbn [snd] in Hsub.
    apply (IH _ Hin o m a b); [by apply (Hjc _ Hin)| |].
    + intros ks Hk. apply Hs. intros w Hw Ho Hn. apply Hk; [done|done|]. intros Hw'. by apply Hn, Hsub.
    + intros w Hw. by apply Hc, Hsub.
  - destruct Hj as [Hcw [(-> & -> & Hq & Hch)|(Hne & -> & -> & _ & w & Hw & Hwne & Hid & -> & Hts & Hch)]]; cbn [jden]; unfold jarr; cbv zeta.
    + assert (Hs' : same o a b) by (intros ks Hk; apply Hs; intros w Hw Ho _; by apply Hk).
      rewrite (jbase_same o _ _ None a b) by done. destruct (jbase W (apply_mod m q) None None b m) as [[its ch]|] eqn:Eb; [|done].
      cbn. assert (ch = false) as ->.
      { unfold jbase in Eb. cbn in Eb. destruct (jget W tview _ b) as [g|]; [|by injection Eb]. destruct (tnil (gtree g)); by injection Eb. }
      cbn. do 2 f_equal. apply imap_ext_all. intros i x. apply (IH o); [apply Hch| |].
      * intros ks Hk. apply Hs'. intros w Hw Ho. apply Hk; [done|done|]. rewrite Hcw. apply not_elem_of_nil.
      * rewrite Hcw. intros w Hw. by apply elem_of_nil in Hw.
    + assert (E : pwrites (PArr (path_of (Nm <$> w)) d ts c) = [w]).
      { cbn [pwrites]. rewrite plain_names by done. destruct d, ts; try done. by destruct Hne. }
      rewrite E in Hs, Hc. cbn [apply_mod foldl].
      assert (Hs' : same [w] a b). { intros ks Hk. apply Hs. intros w' Hw' _ Hn. by apply Hk. }
      change (apply_mod [] (path_of (Nm <$> w))) with (path_of (Nm <$> w)) in *.
      rewrite (jbase_same [w] _ _ ts a b []); [|done|by apply reads_own|done].
      destruct (jbase W (path_of (Nm <$> w)) d ts b []) as [[its ch]|]; [|done]. cbn.
      rewrite plain_names by done. cbn.
      assert (Hitems : forall a' b', same [w] a' b' -> forall i, jden W c a' (path_replace (path_of (Nm <$> w) +:+ "[*]") (path_of (Nm <$> w) +:+ idx_str i) [])
         = jden W c b' (path_replace (path_of (Nm <$> w) +:+ "[*]") (path_of (Nm <$> w) +:+ idx_str i) [])).
      { intros a' b' H i. apply (IH [w]); [apply Hch| |].
        - intros ks Hk. apply H. intros w' Hw' Ho. apply Hk; [done|done|]. rewrite Hcw. apply not_elem_of_nil.
        - rewrite Hcw. intros w' Hw'. by apply elem_of_nil in Hw'. }
      destruct ch; cbn.
      * destruct (stored w (TArr its) a) as [a'|] eqn:Ea.
        -- assert (Hb : is_Some (stored w (TArr its) b)).
           { apply stored_can, Hc; [by apply elem_of_list_singleton|]. apply (stored_can w (TArr its)). by eexists. }
           destruct Hb as [b' Eb]. rewrite Eb. cbn. do 2 f_equal. apply imap_ext_all. intros i x. apply Hitems.
           intros ks Hk Hsp. destruct (decide (w `prefix_of` ks)) as [[r ->]|Hnp].
           ++ by rewrite (stored_at _ _ _ _ _ Ea), (stored_at _ _ _ _ _ Eb).
           ++ assert (Hap : apart w ks).
              { split; [done|]. intros Hp. apply Hsp. apply Exists_exists. exists w. split; [done|]. split; [done|]. by intros ->. }
              rewrite (stored_apart _ _ _ _ _ Ea Hap), (stored_apart _ _ _ _ _ Eb Hap). by apply Hs'.
        -- assert (Hb : stored w (TArr its) b = None).
           { destruct (stored w (TArr its) b) eqn:Eb; [|done]. assert (is_Some (stored w (TArr its) a)) as [? ?]; [|congruence].
             apply stored_can, Hc; [by apply elem_of_list_singleton|]. apply (stored_can w (TArr its)). by eexists. }
           by rewrite Hb.
      * do 2 f_equal. apply imap_ext_all. intros i x. by apply Hitems.
Qed.
End ok.

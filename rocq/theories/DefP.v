(** The reading with object defaults is the projection with object defaults. *)
From stdpp Require Import strings list gmap.
From Coq Require Import Ascii ZArith Lia.
From Verif Require Import GoStr GoStrL Val Conv Instr Heap Schema Build Api SpecPath PathL Den Param HeapL Refine Top
  SpecSchema BuildL SpecProj ProjL SpecXml XmlL SpecRun RunL SpecDef DefD DefE DefB DefS.

(** ** lists of options *)
Lemma all_of_rel {A B} (R : A -> B -> Prop) l1 l2 : Forall2 (option_Forall2 R) l1 l2 ->
  option_Forall2 (Forall2 R) (all_of l1) (all_of l2).
Proof.
  intros HF. induction HF as [|x y l1 l2 Hxy HF IH]; cbn; [repeat constructor|].
  inversion Hxy; subst; cbn; [|constructor]. inversion IH; subst; cbn; repeat constructor; done.
Qed.
Lemma Forall2_map {A B C D} (R : C -> D -> Prop) (f : A -> C) (g : B -> D) l1 l2 :
  Forall2 (fun a b => R (f a) (g b)) l1 l2 -> Forall2 R (List.map f l1) (List.map g l2).
Proof. intros HF. induction HF; cbn; by constructor. Qed.

(** ** the reading keeps the form *)
Lemma wf_obj q d ts cs : wf_paths (PObj q d ts cs) <->
  NoDup cs.*1 /\ Forall (fun kc => name_ok kc.1 /\ p_path kc.2 = q +:+ "." +:+ kc.1 /\ wf_paths kc.2) cs.
Proof.
  cbn [wf_paths]. apply and_iff_compat_l. induction cs as [|[k c] cs IH]; [split; [constructor|done]|].
  rewrite Forall_cons, IH. done.
Qed.
Lemma dpure_obj f q ts cs : dpure f (PObj q None ts cs) <->
  pure_ts ts /\ (f = FJson -> ts = None) /\ Forall (fun kc => dpure f kc.2) cs.
Proof.
  cbn [dpure]. do 2 apply and_iff_compat_l. induction cs as [|[k c] cs IH]; [split; [constructor|done]|].
  rewrite Forall_cons, IH. done.
Qed.
Lemma with_node_some {A} W f ts it m (none empty : A) run r : with_node W f ts it m none empty run = Some r ->
  r = none \/ r = empty \/ exists it', run it' = Some r.
Proof.
  unfold with_node. destruct f; [eauto|]. destruct ts as [ts|]; [|eauto].
  destruct (run_ptis W FXml (Some ts) it "object" m) as [v|]; cbn; [|done].
  destruct v as [[]|l|kvs|n|[|n l]]; try done; eauto; [intros [= <-]; auto|]. destruct s; try done. intros [= <-]; auto.
Qed.
Lemma dden_form W f p : forall it m t p', dden W f p it m = Some (t, p') -> wf_paths p -> dpure f p ->
  wf_paths p' /\ dpure f p' /\ p_path p' = p_path p.
Proof.
  induction p as [q jt d ts|q d ts cs IH|q d ts c IH] using pitr_ind'; intros it m t p' Hd Hwf Hp.
  - cbn [dden] in Hd. destruct (den W f (PScal q jt d ts) it m); [|done]. injection Hd as _ <-. done.
  - destruct d as [kvs|].
    + cbn [dden] in Hd. apply with_node_some in Hd as [[= -> ->]|[[= -> ->]|[it' Hd]]]; [done|done|].
      destruct (all_of _); [|done]. injection Hd as _ <-. done.
    + cbn [dden] in Hd. apply with_node_some in Hd as [[= -> ->]|[[= -> ->]|[it' Hd]]]; [done|done|].
      destruct (all_of _) as [r|] eqn:Er; [|done]. injection Hd as _ <-.
      apply wf_obj in Hwf as [Hnd Hwf]. apply dpure_obj in Hp as (Hp1 & Hp2 & Hp3).
      assert (HF : Forall2 (fun kc kr : string * pitr => kr.1 = kc.1 /\ wf_paths kr.2 /\ dpure f kr.2 /\ p_path kr.2 = p_path kc.2) cs
        (List.map (fun kr : string * (tree * pitr) => (kr.1, kr.2.2)) r)).
      { clear Hnd Hp1 Hp2. revert r Er. induction IH as [|[k c] cs IH1 _ IHcs]; intros r Er; [injection Er as <-; constructor|].
        inversion Hwf as [|? ? (W1 & W2 & W3) Hwf']; subst. inversion Hp3 as [|? ? P1 P2]; subst. cbn in Er.
        destruct (dden W f c it' m) as [[t1 p1]|] eqn:E1; [|done]. cbn in Er.
        destruct (all_of (List.map _ cs)) as [r'|] eqn:E2; [|done]. injection Er as <-. cbn. constructor; [|by apply IHcs].
        split; [done|]. by eapply IH1. }
      split; [|split].
      * apply wf_obj. split.
        -- replace ((List.map (fun kr : string * (tree * pitr) => (kr.1, kr.2.2)) r).*1) with (cs.*1); [done|].
           clear -HF. induction HF as [|? ? ? ? (? & _) HF IH]; cbn; [done|by f_equal].
        -- clear -HF Hwf. induction HF as [|x y l1 l2 (H1 & H2 & H3 & H4) HF IH]; [constructor|].
           inversion Hwf as [|? ? (W1 & W2 & W3) Hwf']; subst. constructor; [|by apply IH]. by rewrite H1, H4.
      * apply dpure_obj. split; [done|]. split; [done|]. clear -HF. induction HF as [|x y l1 l2 (H1 & H2 & H3 & H4) HF IH]; by constructor.
      * done.
  - cbn [dden] in Hd. destruct (den W f (PArr q d ts c) it m); [|done]. injection Hd as _ <-. done.
Qed.

(** ** JSON *)
Section json.
Context (W : oracles).
Inductive dprel : list seg -> list seg -> dsch -> pitr -> Prop :=
| dprel_same σ σp s p : prel σ σp s p -> dprel σ σp (DSame s) p
| dprel_rec σ σp cs cs' : dprel_all σ cs cs' -> dprel σ σp (DRec cs) (PObj (path_of σ) None None cs')
| dprel_def σ σp d cs cs' : prel_all σ cs cs' -> dprel σ σp (DDef d cs) (PObj (path_of σ) (Some d) None cs')
with dprel_all : list seg -> list (string * dsch) -> list (string * pitr) -> Prop :=
| dprel_nil σ : dprel_all σ [] []
| dprel_cons σ k c cs c' cs' : ident k = true -> dprel (σ ++ [Nm k]) σ c c' -> dprel_all σ cs cs' ->
    dprel_all σ ((k, c) :: cs) ((k, c') :: cs').
Scheme dprel_ind2 := Induction for dprel Sort Prop with dprel_all_ind2 := Induction for dprel_all Sort Prop.
Combined Scheme dprel_mutind from dprel_ind2, dprel_all_ind2.
Lemma dprel_pure :
  (forall σ σp s p, dprel σ σp s p -> dpure FJson p) /\
  (forall σ cs cs', dprel_all σ cs cs' -> Forall (fun kc => dpure FJson kc.2) cs').
Proof.
  apply dprel_mutind.
  - intros σ σp s p Hp. apply pure_dpure. by eapply prel_pure.
  - intros σ σp cs cs' Hall IH. apply dpure_obj. by split_and!.
  - intros σ σp d cs cs' Hall. cbn [dpure]. split; [done|]. split; [done|]. by eapply prel_pure.
  - constructor.
  - intros. by constructor.
Qed.
Lemma dden_dproject :
  (forall σ σp s p, dprel σ σp s p -> forall ρ ρp m doc, nested m σ ρ -> nested m σp ρp -> Forall concrete ρ -> Forall concrete ρp ->
   small doc -> option_Forall2 (fun r1 r2 => r1.1 = r2.1 /\ dprel σ σp r2.2 r1.2)
     (dden W FJson p doc m) (dproject W doc s (locate ρp doc) (locate ρ doc))) /\
  (forall σ cs cs', dprel_all σ cs cs' -> forall ρ m doc, nested m σ ρ -> Forall concrete ρ -> small doc ->
   option_Forall2 (fun l1 l2 => List.map (fun kr : string * (tree * pitr) => (kr.1, kr.2.1)) l1 =
                                List.map (fun kr : string * (tree * dsch) => (kr.1, kr.2.1)) l2 /\
       dprel_all σ (List.map (fun kr : string * (tree * dsch) => (kr.1, kr.2.2)) l2)
                   (List.map (fun kr : string * (tree * pitr) => (kr.1, kr.2.2)) l1))
     (all_of (List.map (fun kc => match kc with (k, c) => pair k <$> dden W FJson c doc m end) cs'))
     (all_of (List.map (fun kc => match kc with (k, c) => pair k <$> dproject W doc c (locate ρ doc) (locate ρ doc ≫= member k) end) cs))).
Proof.
  apply dprel_mutind.
  - intros σ σp s p Hp ρ ρp m doc Hn Hnp Hρ Hρp Hdoc. rewrite (pure_dden W) by (by eapply prel_pure). cbn [dproject].
    rewrite (proj1 (den_project W) σ σp s p Hp ρ ρp) by done.
    destruct (project W doc s (locate ρp doc) (locate ρ doc)); constructor. split; [done|]. by constructor.
  - intros σ σp cs cs' Hall IH ρ ρp m doc Hn Hnp Hρ Hρp Hdoc. cbn [dden dproject with_node].
    specialize (IH ρ m doc Hn Hρ Hdoc).
    inversion IH as [l1 l2 [H1 H2] E1 E2|E1 E2]; [|constructor]. cbn. constructor. cbn. split; [by rewrite H1|]. by constructor.
  - intros σ σp d cs cs' Hall ρ ρp m doc Hn Hnp Hρ Hρp Hdoc. cbn [dden dproject with_node].
    pose proof (proj2 (den_project W) σ cs cs' Hall ρ m doc Hn Hρ Hdoc) as E. rewrite List.map_map in E.
    replace (List.map (fun kc : string * pitr => let (k, c) := kc in pair k <$> den W FJson c doc m) cs') with
      (List.map (fun x : string * pitr => pair (let (k, c) := x in (k, den W FJson c)).1 <$> (let (k, c) := x in (k, den W FJson c)).2 doc m) cs')
      by (apply map_ext; by intros [k c]).
    rewrite E. destruct (all_of _); cbn; constructor. split; [done|]. by constructor.
  - intros σ ρ m doc _ _ _. cbn. constructor. split; [done|]. constructor.
  - intros σ k c cs c' cs' Hk Hc IHc Hcs IHcs ρ m doc Hn Hρ Hdoc. cbn [List.map all_of].
    assert (Hρ' : Forall concrete (ρ ++ [Nm k])) by (apply Forall_app; split; [done|]; constructor; [exact Hk|constructor]).
    assert (Hx := IHc (ρ ++ [Nm k]) ρ m doc ltac:(by constructor) Hn Hρ' Hρ Hdoc). rewrite locate_name in Hx.
    inversion Hx as [[t1 p1] [t2 s2] [H1 H2] E1 E2|E1 E2]; cbn; [|constructor]. cbn in H1, H2. subst t2.
    specialize (IHcs ρ m doc Hn Hρ Hdoc). inversion IHcs as [l1 l2 [H3 H4] E3 E4|E3 E4]; cbn; [|constructor].
    constructor. cbn. split; [by f_equal|]. by constructor.
Qed.
Lemma dshape_reads tid :
  (forall raw s, dshape W tid raw s -> forall σ σp, at_parent σ σp -> exists p, reads W tid σ raw p /\ dprel σ σp s p) /\
  (forall ps cs, dshape_all W tid ps cs -> forall σ, Forall seg_ok σ -> Forall (fun kp => ident kp.1 = true) ps ->
   exists cs', reads_all W tid σ ps cs' /\ dprel_all σ cs cs').
Proof.
  apply dshape_mutind.
  - intros raw s Hs σ σp Hp. destruct (proj1 (shape_reads W tid) raw s Hs σ σp Hp) as (p & H1 & H2). exists p. split; [done|by constructor].
  - intros raw nl ps cs Hft Hps Hne [Hd Hs] Hnd Hid Hall IH σ σp [Hσ _].
    destruct (IH σ Hσ Hid) as (cs' & H1 & H2). exists (PObj (path_of σ) None None cs'). split; [|by constructor].
    eapply reads_obj; try done.
    + by apply section_bare.
    + unfold dflt_of. by rewrite Hd.
    + unfold dflt_of. by rewrite Hd.
    + eapply Forall_impl; [exact Hid|]. intros kp. apply ident_plain.
  - intros raw nl ps d cs Hft Hps Hne Hd Hdk Hs Hnd Hid Hall σ σp [Hσ _].
    destruct (proj2 (shape_reads W tid) ps cs Hall σ Hσ Hid) as (cs' & H1 & H2). exists (PObj (path_of σ) (Some d) None cs'). split; [|by constructor].
    eapply reads_obj; try done.
    + by apply section_bare.
    + unfold dflt_of. by rewrite Hd.
    + unfold dflt_of. by rewrite Hd.
    + eapply Forall_impl; [exact Hid|]. intros kp. apply ident_plain.
  - intros σ _ _. exists []. split; constructor.
  - intros k p ps c cs Hp IHp Hps IHps σ Hσ Hid. inversion Hid as [|? ? Hk Hid']; subst. cbn in Hk.
    destruct (IHp (σ ++ [Nm k]) σ) as (p' & H1 & H2).
    { split; [apply Forall_app; split; [done|]; constructor; [by apply ident_plain|constructor]|]. left. exists k. split; [by apply ident_plain|done]. }
    destruct (IHps σ Hσ Hid') as (cs' & H3 & H4). exists ((k, p') :: cs'). split; by constructor.
Qed.
End json.

(** ** XML *)
Section xml.
Context (W : oracles).
Inductive xdrel : list seg -> xdsch -> pitr -> Prop :=
| xdrel_same σ s p : xrel σ s p -> xdrel σ (XDSame s) p
| xdrel_rec σ ts pt cs cs' : xtsr ts pt -> xdrel_all σ cs cs' -> xdrel σ (XDRec ts cs) (PObj (path_of σ) None pt cs')
| xdrel_def σ d ts pt cs cs' : xtsr ts pt -> xrel_all σ cs cs' -> xdrel σ (XDDef d ts cs) (PObj (path_of σ) (Some d) pt cs')
with xdrel_all : list seg -> list (string * xdsch) -> list (string * pitr) -> Prop :=
| xdrel_nil σ : xdrel_all σ [] []
| xdrel_cons σ k c cs c' cs' : xdrel (σ ++ [Nm k]) c c' -> xdrel_all σ cs cs' ->
    xdrel_all σ ((k, c) :: cs) ((k, c') :: cs').
Scheme xdrel_ind2 := Induction for xdrel Sort Prop with xdrel_all_ind2 := Induction for xdrel_all Sort Prop.
Combined Scheme xdrel_mutind from xdrel_ind2, xdrel_all_ind2.
Lemma xtsr_pure ts pt : xtsr ts pt -> pure_ts pt.
Proof.
  destruct ts as [[[me delim] from]|], pt as [[[me' delim'] is]|]; try done. intros (-> & -> & Hl & HF). cbn.
  destruct me; try done. rewrite <- (Forall2_length _ _ _ HF). by apply Hl.
Qed.
Lemma xrel_pure :
  (forall σ s p, xrel σ s p -> pure FXml p) /\
  (forall σ cs cs', xrel_all σ cs cs' -> (fix all (cs : list (string * pitr)) : Prop :=
       match cs with [] => True | (_, c) :: cs' => pure FXml c /\ all cs' end) cs').
Proof.
  apply xrel_mutind.
  - intros σ jt d ts pt Ht. cbn. by eapply xtsr_pure.
  - intros σ ts pt cs cs' Ht Hall IH. cbn. split; [by eapply xtsr_pure|]. done.
  - intros σ ts pt d d' c c' Ht Hd Hc IH. cbn. split; [by eapply xtsr_pure|]. done.
  - done.
  - intros. done.
Qed.
Lemma xdrel_pure :
  (forall σ s p, xdrel σ s p -> dpure FXml p) /\
  (forall σ cs cs', xdrel_all σ cs cs' -> Forall (fun kc => dpure FXml kc.2) cs').
Proof.
  apply xdrel_mutind.
  - intros σ s p Hp. apply pure_dpure. by eapply xrel_pure.
  - intros σ ts pt cs cs' Ht Hall IH. apply dpure_obj. split; [by eapply xtsr_pure|]. done.
  - intros σ d ts pt cs cs' Ht Hall. cbn [dpure]. split; [by eapply xtsr_pure|]. split; [done|]. by eapply xrel_pure.
  - constructor.
  - intros. by constructor.
Qed.
Lemma with_node_selected {A B} (R : A -> B -> Prop) ts pt n m σ ρ none empty none' empty' run run' : nested m σ ρ -> xtsr ts pt ->
  R none none' -> R empty empty' -> (forall k, option_Forall2 R (run (TNode k)) (run' k)) ->
  option_Forall2 R (with_node W FXml pt (TNode n) m none empty run) (selected W ts n none' empty' run').
Proof.
  intros Hn Ht H1 H2 H3. unfold with_node, selected.
  destruct pt as [pt|], ts as [ts|]; try (by destruct ts as [[]]); try (by destruct pt as [[]]); [|apply H3].
  rewrite (run_xvalue W (Some pt) (Some ts) n "object" m σ ρ) by done.
  destruct (xvalue W "object" n (Some ts)) as [g| |]; try constructor. cbn.
  destruct (gtree g) as [[| | | | |[]|]| | |k|[|k l]]; try constructor; try done; apply H3.
Qed.
Lemma dden_xdproject :
  (forall σ s p, xdrel σ s p -> forall ρ m n, nested m σ ρ ->
   option_Forall2 (fun r1 r2 => r1.1 = r2.1 /\ xdrel σ r2.2 r1.2) (dden W FXml p (TNode n) m) (xdproject W s n)) /\
  (forall σ cs cs', xdrel_all σ cs cs' -> forall ρ m n, nested m σ ρ ->
   option_Forall2 (fun l1 l2 => List.map (fun kr : string * (tree * pitr) => (kr.1, kr.2.1)) l1 =
                                List.map (fun kr : string * (tree * xdsch) => (kr.1, kr.2.1)) l2 /\
       xdrel_all σ (List.map (fun kr : string * (tree * xdsch) => (kr.1, kr.2.2)) l2)
                   (List.map (fun kr : string * (tree * pitr) => (kr.1, kr.2.2)) l1))
     (all_of (List.map (fun kc => match kc with (k, c) => pair k <$> dden W FXml c (TNode n) m end) cs'))
     (all_of (List.map (fun kc => match kc with (k, c) => pair k <$> xdproject W c n end) cs))).
Proof.
  apply xdrel_mutind.
  - intros σ s p Hp ρ m n Hn. rewrite (pure_dden W) by (by eapply xrel_pure). cbn [xdproject].
    rewrite (proj1 (den_xproject W) σ s p Hp ρ) by done.
    destruct (xproject W s n); constructor. split; [done|]. by constructor.
  - intros σ ts pt cs cs' Ht Hall IH ρ m n Hn. cbn [dden xdproject].
    apply (with_node_selected _ ts pt n m σ ρ); try done; [split; [done|by constructor]..|]. intros k.
    specialize (IH ρ m k Hn).
    inversion IH as [l1 l2 [H1 H2] E1 E2|E1 E2]; [|constructor]. cbn. constructor. cbn. split; [by rewrite H1|]. by constructor.
  - intros σ d ts pt cs cs' Ht Hall ρ m n Hn. cbn [dden xdproject].
    apply (with_node_selected _ ts pt n m σ ρ); try done; [split; [done|by constructor]..|]. intros j.
    pose proof (proj2 (den_xproject W) σ cs cs' Hall ρ m j Hn) as E. rewrite List.map_map in E.
    replace (List.map (fun kc : string * pitr => let (k, c) := kc in pair k <$> den W FXml c (TNode j) m) cs') with
      (List.map (fun x : string * pitr => pair (let (k, c) := x in (k, den W FXml c)).1 <$> (let (k, c) := x in (k, den W FXml c)).2 (TNode j) m) cs')
      by (apply map_ext; by intros [k c]).
    rewrite E. destruct (all_of _); cbn; constructor. split; [done|]. by constructor.
  - intros σ ρ m n _. cbn. constructor. split; [done|]. constructor.
  - intros σ k c cs c' cs' Hc IHc Hcs IHcs ρ m n Hn. cbn [List.map all_of].
    assert (Hx := IHc (ρ ++ [Nm k]) m n ltac:(by constructor)).
    inversion Hx as [[t1 p1] [t2 s2] [H1 H2] E1 E2|E1 E2]; cbn; [|constructor]. cbn in H1, H2. subst t2.
    specialize (IHcs ρ m n Hn). inversion IHcs as [l1 l2 [H3 H4] E3 E4|E3 E4]; cbn; [|constructor].
    constructor. cbn. split; [by f_equal|]. by constructor.
Qed.
Lemma xdshape_reads tid :
  (forall raw s, xdshape W tid raw s -> forall σ, exists p, reads W tid σ raw p /\ xdrel σ s p) /\
  (forall ps cs, xdshape_all W tid ps cs -> forall σ, exists cs', reads_all W tid σ ps cs' /\ xdrel_all σ cs cs').
Proof.
  apply xdshape_mutind.
  - intros raw s Hs σ. destruct (proj1 (xshape_reads W tid) raw s Hs σ) as (p & H1 & H2). exists p. split; [done|by constructor].
  - intros raw nl ps ts cs Hft Hps Hne Hd Hsec Hnd Hid Hall IH σ.
    destruct (section_xsec W tid raw ts (parent_path (path_of σ) KObject) Hsec) as (pt & Hpt & Htr).
    destruct (IH σ) as (cs' & H1 & H2). exists (PObj (path_of σ) None pt cs'). split; [|by constructor].
    eapply reads_obj; try done; [by rewrite Hd|]. eapply Forall_impl; [exact Hid|]. intros kp. apply ident_plain.
  - intros raw nl ps d ts cs Hft Hps Hne Hd Hdk Hsec Hnd Hid Hall σ.
    destruct (section_xsec W tid raw ts (parent_path (path_of σ) KObject) Hsec) as (pt & Hpt & Htr).
    destruct (proj2 (xshape_reads W tid) ps cs Hall σ) as (cs' & H1 & H2). exists (PObj (path_of σ) (Some d) pt cs'). split; [|by constructor].
    eapply reads_obj; try done; [unfold dflt_of; by rewrite Hd|unfold dflt_of; by rewrite Hd|].
    eapply Forall_impl; [exact Hid|]. intros kp. apply ident_plain.
  - intros σ. exists []. split; constructor.
  - intros k p ps c cs Hp IHp Hps IHps σ. destruct (IHp (σ ++ [Nm k])) as (p' & H1 & H2).
    destruct (IHps σ) as (cs' & H3 & H4). exists ((k, p') :: cs'). split; by constructor.
Qed.
End xml.

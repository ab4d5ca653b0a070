(** The transformers of schemas without shared defaults: their calls keep in step. *)
From stdpp Require Import strings list gmap.
From Coq Require Import Ascii ZArith Lia.
From Verif Require Import GoStr GoStrL Val Conv Instr Heap Schema Build Api SpecPath PathL Den Param HeapL Refine Top SpecSchema BuildL SpecProj ProjL SpecRun RunL
  Conc ConcL ConcR ConcS SpecConc.

(** ** calm transformers *)
Definition shared (flat : bool) (h : heap) (l : nat) : Prop := exists ss, h !! l = Some (CArr (VS <$> ss)) /\ (flat = false -> ss = []).
Definition calm_d (flat : bool) (h : heap) (d : val) : Prop :=
  match d with VS _ => True | VArr (Some l) n => shared flat h l /\ (flat = false -> n = 0) | _ => False end.
Definition calm_t (F : gmap nat (list instr)) (ts : option tis) : Prop :=
  match ts with Some t => exists fr, F !! ti_id t = Some fr /\ (ti_meth t = MLast -> length fr <= 1) | None => True end.
Fixpoint calm (flat : bool) (h : heap) (F : gmap nat (list instr)) (i : itr) : Prop :=
  match i with
  | IScal _ _ d ts => calm_d flat h d /\ calm_t F ts
  | IObj _ d ts cs => d = None /\ calm_t F ts /\
      (fix all (l : list (string * itr)) : Prop := match l with [] => True | (_, c) :: l' => calm flat h F c /\ all l' end) cs
  | IArr _ d ts c => match d with Some s => calm_d flat h (slice_val s) | None => True end /\ calm_t F ts /\
      match c with Some c' => calm flat h F c' | None => True end
  end.
Definition calms (flat : bool) (h : heap) (F : gmap nat (list instr)) (cs : list (string * itr)) : Prop := Forall (fun kc => calm flat h F kc.2) cs.
Lemma calm_obj flat h F p d ts cs : calm flat h F (IObj p d ts cs) <-> d = None /\ calm_t F ts /\ calms flat h F cs.
Proof.
  cbn [calm]. assert (H : (fix all (l : list (string * itr)) : Prop := match l with [] => True | (_, c) :: l' => calm flat h F c /\ all l' end) cs <-> calms flat h F cs).
  { unfold calms. induction cs as [|[k c] cs IH]; [split; [constructor|done]|]. rewrite Forall_cons, IH. done. }
  rewrite H. done.
Qed.
Lemma calm_t_mono F F' ts : F ⊆ F' -> calm_t F ts -> calm_t F' ts.
Proof. intros Hs. destruct ts; [|done]. intros (fr & H1 & H2). exists fr. split; [by eapply lookup_weaken|done]. Qed.
Lemma calm_d_mono flat (h h' : gmap nat cell) d : h ⊆ h' -> calm_d flat h d -> calm_d flat h' d.
Proof. intros Hs. destruct d as [| |[l|] n| |]; cbn; try done. intros [(ss & H & H2) H3]. split; [|done]. exists ss. split; [by eapply lookup_weaken|done]. Qed.
Lemma calm_mono flat (h h' : gmap nat cell) F F' : h ⊆ h' -> F ⊆ F' -> forall i, calm flat h F i -> calm flat h' F' i.
Proof.
  intros Hs Hf. fix IH 1. intros [p jt d ts|p d ts cs|p d ts c].
  - cbn [calm]. intros [H1 H2]. split; [exact (calm_d_mono flat h h' d Hs H1)|exact (calm_t_mono F F' ts Hf H2)].
  - cbn [calm]. intros (H1 & H2 & H3). split; [exact H1|]. split; [exact (calm_t_mono F F' ts Hf H2)|].
    revert H3. induction cs as [|[k c] cs IHc]; [intros; exact I|]. intros [A B]. split; [exact (IH c A)|exact (IHc B)].
  - cbn [calm]. intros (H1 & H2 & H3). split; [destruct d as [s|]; [exact (calm_d_mono flat h h' _ Hs H1)|exact I]|].
    split; [exact (calm_t_mono F F' ts Hf H2)|]. destruct c as [c|]; [exact (IH c H3)|exact I].
Qed.

(** ** where calls write *)
Definition flat_path (p : string) : Prop := str_in "[" p = false /\ plainp p.
Fixpoint tidy (f : fmt) (i : itr) : Prop :=
  match i with
  | IScal _ _ _ _ => True
  | IObj p _ _ cs =>
      (fix all (l : list (string * itr)) : Prop :=
         match l with [] => True | (_, c) :: l' => (plainp (replace1 (it_path c) p "$") /\ tidy f c) /\ all l' end) cs
  | IArr p _ _ c => (f = FJson -> flat_path p) /\ match c with Some c' => tidy f c' | None => True end
  end.

Section exec.
Context (W : oracles) (HW : jpath_parametric W) (h : gmap nat cell) (F : gmap nat (list instr)) (flat : bool).
Let Z : nat -> Prop := shared flat h.
Lemma calm_calm_ts ts : calm_t F ts -> calm_ts F ts.
Proof. destruct ts as [t|]; [|done]. intros (fr & H1 & H2). cbn. intros Hm. rewrite H1. by apply H2. Qed.
Lemma calm_d_vR d : calm_d flat h d -> forall ρ, vR Z flat ρ d d.
Proof. destruct d as [| |[l|] n| |]; cbn; try done; [intros _ ρ; constructor|intros [H1 H2] ρ; by constructor]. Qed.
Lemma pexec_R f : forall i, calm flat h F i -> (flat = true -> tidy f i) -> exR Z F flat (pexec W f i).
Proof.
  destruct f; (fix IH 1; intros [p jt d ts|p d ts cs|p d ts c]; cbn [calm pexec tidy]).
  - intros [H1 H2] _ ρ input input' m Hm Hi. apply scal_json_R; [exact HW|apply calm_calm_ts; exact H2|exact Hi|apply calm_d_vR; exact H1].
  - intros (-> & H2 & H3) Ht ρ input input' m Hm Hi. apply obj_json_R; [exact HW|apply calm_calm_ts; exact H2| |exact Hm|exact Hi].
    clear -H3 IH Ht. induction cs as [|[k c] cs IHc]; [constructor|]. destruct H3 as [A B]. constructor.
    + split; [apply (IH c A); intros Hf; exact (proj2 (proj1 (Ht Hf)))|intros Hf; exact (proj1 (proj1 (Ht Hf)))].
    + apply IHc; [exact B|]. intros Hf. exact (proj2 (Ht Hf)).
  - intros (H1 & H2 & H3) Ht ρ input input' m Hm Hi. apply arr_json_R; [exact HW|apply calm_calm_ts; exact H2| | |exact Hm| |exact Hi].
    + intros s ->. apply calm_d_vR. exact H1.
    + destruct c as [c|]; [|intros ex E; discriminate E]. intros ex E. injection E as <-. apply (IH c H3). intros Hf. exact (proj2 (Ht Hf)).
    + intros Hf. exact (proj1 (Ht Hf) eq_refl).
  - intros [H1 H2] _ ρ input input' m Hm Hi. apply scal_xml_R; [exact HW|apply calm_calm_ts; exact H2|exact Hi|apply calm_d_vR; exact H1].
  - intros (-> & H2 & H3) Ht ρ input input' m Hm Hi. apply obj_xml_R; [exact HW|apply calm_calm_ts; exact H2| |exact Hm|exact Hi].
    clear -H3 IH Ht. induction cs as [|[k c] cs IHc]; [constructor|]. destruct H3 as [A B]. constructor.
    + split; [apply (IH c A); intros Hf; exact (proj2 (proj1 (Ht Hf)))|intros Hf; exact (proj1 (proj1 (Ht Hf)))].
    + apply IHc; [exact B|]. intros Hf. exact (proj2 (Ht Hf)).
  - intros (H1 & H2 & H3) Ht ρ input input' m Hm Hi. apply arr_xml_R; [exact HW|apply calm_calm_ts; exact H2| | |exact Hm|exact Hi].
    + intros s ->. apply calm_d_vR. exact H1.
    + destruct c as [c|]; [|intros ex E; discriminate E]. intros ex E. injection E as <-. apply (IH c H3). intros Hf. exact (proj2 (Ht Hf)).
Qed.
Lemma mod_nil : mod_ok flat [].
Proof. intros _. constructor. Qed.
Lemma pbase_R E f i raw : calm flat h F i -> (flat = true -> tidy f i) -> prl Z F flat (fun _ => eq) ∅ (pbase W E f i raw) (pbase W E f i raw).
Proof.
  intros Hc Ht. unfold pbase. destruct f.
  - destruct (e_json E raw) as [doc|]; [|apply prl_fail]. eapply prl_bind; [apply load_R|]. intros ρ1 v v' S1 Hv.
    eapply prl_bind; [apply (pexec_R FJson i Hc Ht); [apply mod_nil|done]|]. intros ρ2 o o' S2 Ho. by apply marshal_R.
  - destruct (e_xml E raw) as [n|]; [|apply prl_fail].
    eapply prl_bind; [apply (pexec_R FXml i Hc Ht); [apply mod_nil|constructor]|]. intros ρ2 o o' S2 Ho. by apply marshal_R.
Qed.
Lemma pcall_R E f i c : calm flat h F i -> (flat = true -> tidy f i) -> prl Z F flat (fun _ => eq) ∅ (pcall W E f i c) (pcall W E f i c).
Proof.
  intros Hc Ht. destruct c as [raw|raw]; [|by apply pbase_R]. cbn [pcall]. unfold ptransform. eapply prl_bind; [by apply pbase_R|].
  intros ρ d d' _ <-. unfold plift. destruct (validate E d) as [[]| |]; cbn; [by apply prl_pret|apply prl_fail|apply prl_fail|apply prl_panic].
Qed.
End exec.

(** ** building *)
Lemma walk_inv {S} (P : S -> Prop) (fn : string -> tree -> S -> S * res unit) n : forall raw path s, depth raw <= n ->
  (forall σ r p s, inst raw σ r -> P s -> P (fn p r s).1) -> P s -> P (walk_raw fn raw path s).1.
Proof.
  induction n as [|n IH]; intros raw path s Hd Hfn Hs; [destruct raw; cbn in Hd; lia|].
  rewrite walk_raw_eq. unfold Schema.seq. pose proof (Hfn [] raw path s ltac:(constructor) Hs) as H1.
  destruct (fn path raw s) as [s1 [[]| |]]; [|exact H1..]. cbn in H1.
  destruct (field_type raw) as [[ty nl]| |] eqn:Ef; [|exact H1..].
  case_decide as Ho; [subst|case_decide as Ha; [subst|exact H1]].
  - destruct (jlookup "properties" raw) as [[]|] eqn:Ep; try exact H1. rename kvs into ps.
    assert (Hall : forall q, q ∈ ps -> depth q.2 <= n /\ forall σ r p s, inst q.2 σ r -> P s -> P (fn p r s).1).
    { intros [k q] Hq. split; [pose proof (member_depth _ _ _ Hq); pose proof (jlookup_depth _ _ _ Ep); cbn [snd]; lia|].
      intros σ r p' s' Hi. apply (Hfn (Nm k :: σ)). by eapply inst_prop. }
    clear Ep. revert s1 H1. induction ps as [|[k q] ps IHp]; intros s1 H1; [exact H1|]. cbn [walk_each]. unfold Schema.seq.
    destruct (Hall (k, q) ltac:(left)) as [A B]. pose proof (IH q (prepend_path path k) s1 A B H1) as H2.
    destruct (walk_raw fn q (prepend_path path k) s1) as [s2 [[]| |]]; [|exact H2..]. apply IHp; [|exact H2].
    intros q' Hq'. apply Hall. by right.
  - destruct (jlookup "items" raw) as [v|] eqn:Ei; [|exact H1]. apply IH; [pose proof (jlookup_depth _ _ _ Ei); lia| |exact H1].
    intros σ r p' s' Hi. apply (Hfn (Star :: σ)). by eapply inst_item.
Qed.
Lemma walk_schema_inv {S} (P : S -> Prop) (fn : string -> tree -> S -> S * res unit) props items s :
  (forall σ r p s, sinst props items σ r -> P s -> P (fn p r s).1) -> P s -> P (walk_raw_schema fn props items s).1.
Proof.
  intros Hfn Hs. unfold walk_raw_schema, Schema.seq.
  assert (H1 : P (walk_each fn "$" props s).1).
  { assert (Hall : forall q, q ∈ props -> forall σ r p s, inst q.2 σ r -> P s -> P (fn p r s).1).
    { intros [k q] Hq σ r p' s' Hi. apply (Hfn (Nm k :: σ)). by eapply sinst_prop. }
    clear Hfn. revert s Hs. induction props as [|[k q] ps IHp]; intros s1 H1; [exact H1|]. cbn [walk_each]. unfold Schema.seq.
    pose proof (walk_inv P fn (depth q) q (prepend_path "$" k) s1 ltac:(done) (Hall (k, q) ltac:(left)) H1) as H2.
    destruct (walk_raw fn q (prepend_path "$" k) s1) as [s2 [[]| |]]; [|exact H2..]. apply IHp; [|exact H2].
    intros q' Hq'. apply Hall. by right. }
  destruct (walk_each fn "$" props s) as [s1 [[]| |]]; [|exact H1..]. destruct items as [i|]; [|exact H1].
  eapply walk_inv; [done| |exact H1]. intros σ r p' s' Hi. apply (Hfn (Star :: σ)). by eapply sinst_item.
Qed.

Section build.
Context (W : oracles) (tid : string) (flat : bool).
(** what matters of an instance here *)
Definition apart1 (r : tree) : Prop :=
  one_last W tid r /\ (scalar_default r \/ exists ss, dflt_of r = TArr (TS <$> ss) /\ (flat = false -> ss = [])).
Definition invB (x : st * itr) : Prop := stok x.1 /\ fok x.1 /\ calm flat (hp x.1) (froms x.1) x.2.
Lemma set_child_calm h F k c cs : calm flat h F c -> calms flat h F cs -> calms flat h F (set_child k c cs).
Proof.
  intros Hc. unfold calms. induction 1 as [|[n c'] cs H1 H2 IH]; cbn; [by repeat constructor|]. case_decide; by constructor.
Qed.
Lemma get_child_calm h F k c cs : calms flat h F cs -> get_child k cs = Some c -> calm flat h F c.
Proof. unfold calms. induction 1 as [|[n c'] cs H1 H2 IH]; cbn; [done|]. case_decide; [by intros [= <-]|done]. Qed.
Lemma insert_calm h F c steps : forall n n', calm flat h F n -> calm flat h F c -> insert_at steps n c = Ok n' -> calm flat h F n'.
Proof.
  induction steps as [|s steps IH]; intros n n' Hn Hc; cbn [insert_at].
  - destruct n as [p jt d ts|p d ts cs|p d ts c']; cbn [add_child].
    + by intros [= <-].
    + cbv zeta. case_decide; [|done]. intros [= <-]. apply calm_obj in Hn as (? & ? & ?). apply calm_obj. split; [done|]. split; [done|]. by apply set_child_calm.
    + intros [= <-]. destruct Hn as (? & ? & ?). split; [done|]. by split.
  - case_decide.
    + destruct n as [| |p d ts [c'|]]; try done. destruct Hn as (A & B & C). destruct (insert_at steps c' c) as [m| |] eqn:E; cbn; try done. intros [= <-].
      split; [done|]. split; [done|]. exact (IH _ _ C Hc E).
    + destruct n as [|p d ts cs|]; try done. apply calm_obj in Hn as (A & B & C). destruct (get_child s cs) as [c'|] eqn:G; [|done].
      destruct (insert_at steps c' c) as [m| |] eqn:E; cbn; try done. intros [= <-]. apply calm_obj. split; [done|]. split; [done|].
      apply set_child_calm; [|done]. eapply IH; [|exact Hc|exact E]. by eapply get_child_calm.
Qed.
Lemma attach_calm h F r c r' : calm flat h F r -> calm flat h F c -> attach r c = Ok r' -> calm flat h F r'.
Proof.
  intros Hr Hc. unfold attach. destruct (split _ _) as [|s0 rest]; [done|]. case_decide; [done|]. destruct rest; [done|]. by apply insert_calm.
Qed.
Lemma extract_calm raw path k s : stok s -> fok s -> apart1 raw ->
  bstep s (extract_tis W raw tid path k s).1 /\
  forall ts, (extract_tis W raw tid path k s).2 = Ok ts -> calm_t (froms (extract_tis W raw tid path k s).1) ts.
Proof.
  intros Hs Hf [Hl _]. destruct (extract_spec W tid raw (parent_path path k) path k s Hs Hf eq_refl) as [Hb Hsp]. split; [exact Hb|].
  intros ts Hts. destruct (section W tid raw (parent_path path k)) as [pt| |] eqn:Es; [|rewrite Hts in Hsp; by destruct Hsp..].
  destruct Hsp as (ts' & E & Hrel). rewrite Hts in E. injection E as <-.
  destruct ts as [t|]; [|done]. destruct pt as [[[me dl] fr]|]; [|done]. destruct Hrel as (H1 & H2 & H3). cbn. exists fr. split; [exact H3|].
  intros Hm. rewrite H1 in Hm. subst me. unfold section in Es.
  destruct (jlookup "transform" raw ≫= jlookup tid) as [t'|] eqn:Et; [|done].
  assert (Es' : rbind (dec_tis W t') (fun d => match all_some d.2 with None => Panic | Some is => Ok (Some (d.1.1, d.1.2, rebase (parent_path path k) <$> is)) end) = Ok (Some (MLast, dl, fr))).
  { try rewrite Hm in Es. destruct t' as [sc|l|kvs|n|l]; try exact Es. destruct sc as [|b|z|z|fl|str|tm]; try exact Es. destruct str; [discriminate Es|exact Es]. }
  clear Es. destruct (dec_tis W t') as [[[me de] from]| |] eqn:Ed; cbn in Es'; try done.
  destruct (all_some from) as [is|] eqn:Ea; [|done]. injection Es' as -> -> <-. rewrite fmap_length.
  specialize (Hl t' dl from Et Ed). assert (length is = length from); [|lia]. clear -Ea. revert is Ea.
  induction from as [|[x|] from IH]; intros is Ea; cbn in Ea; [by injection Ea as <-| |done]. destruct (all_some from) as [is'|]; [|done].
  injection Ea as <-. cbn. by rewrite (IH is').
Qed.
Lemma load_scalars ss s : load (TArr (TS <$> ss)) s =
  (St (<[nxt s := CArr (VS <$> ss)]> (hp s)) (S (nxt s)) (froms s) (tick s), Ok (VArr (Some (nxt s)) (length ss))).
Proof.
  assert (H : forall s, (fix go (l : list tree) : M (list val) :=
              match l with
              | [] => Heap.mret []
              | t :: l' => Heap.mbind (load t) (fun v => Heap.mbind (go l') (fun vs => Heap.mret (v :: vs)))
              end) (TS <$> ss) s = (s, Ok (VS <$> ss))).
  { induction ss as [|sc ss IH]; intros s'; [done|]. cbn [fmap list_fmap]. unfold Heap.mbind at 1. cbn [load]. unfold Heap.mret at 1. cbv beta iota.
    unfold Heap.mbind at 1. rewrite IH. done. }
  cbn [load]. unfold Heap.mbind at 1. rewrite H. unfold Heap.mbind, alloc, Heap.mret. by rewrite fmap_length.
Qed.
Lemma default_calm raw s : stok s -> apart1 raw ->
  step s (schema_default raw s).1 /\ exists v, (schema_default raw s).2 = Ok v /\ calm_d flat (hp (schema_default raw s).1) v.
Proof.
  intros Hs [_ Hd]. assert (Hk : distinct_keys (dflt_of raw)).
  { destruct Hd as [[sc ->]|(ss & -> & _)]; cbn; [done|]. clear. induction ss; cbn; [done|by split]. }
  destruct (default_spec raw s Hs Hk) as [Hst _]. split; [exact Hst|].
  unfold schema_default, scalar_default, dflt_of in *. destruct (jlookup "default" raw) as [t|]; [|by exists (VS SNil)].
  change (default (TS SNil) (Some t)) with t in *.
  destruct Hd as [[sc ->]|(ss & -> & Hf)]; [by exists (VS sc)|]. rewrite load_scalars. cbn. eexists. split; [done|]. cbn. split.
  - exists ss. split; [by rewrite lookup_insert|done].
  - intros H. by rewrite (Hf H).
Qed.
Definition finely (s : st) (X : M itr) : Prop :=
  bstep s (X s).1 /\ forall c, (X s).2 = Ok c -> calm flat (hp (X s).1) (froms (X s).1) c.
Lemma finely_bind {A} s (J : M A) K : stok s -> fok s -> (J s).1 = s -> (forall a, finely s (K a)) -> finely s (Heap.mbind J K).
Proof.
  intros Hs Hf HJ HK. unfold finely, Heap.mbind. destruct (J s) as [s1 [a| |]]; cbn [fst] in HJ; subst s1; [apply HK|by split..].
Qed.
Lemma finely_bad s (X : M itr) : stok s -> fok s -> (X s).1 = s -> (forall c, (X s).2 <> Ok c) -> finely s X.
Proof. intros Hs Hf H1 H2. split; [by rewrite H1|]. intros c Hc. by apply H2 in Hc. Qed.
Lemma new_node_calm path raw s : stok s -> fok s -> apart1 raw -> finely s (new_node W tid path raw).
Proof.
  intros Hs Hf Ha.
  assert (Hcore : forall k (K : option tis -> val -> M itr),
    (forall ts d s1, (K ts d s1).1 = s1 /\ forall c, (K ts d s1).2 = Ok c -> calm_t (froms s1) ts -> calm_d flat (hp s1) d -> calm flat (hp s1) (froms s1) c) ->
    finely s (Heap.mbind (extract_tis W raw tid path k) (fun ts => Heap.mbind (schema_default raw) (fun d => K ts d)))).
  { intros k K HK. destruct (extract_calm raw path k s Hs Hf Ha) as [Hb1 Ht]. unfold finely, Heap.mbind.
    destruct (extract_tis W raw tid path k s) as [s1 [ts| |]]; cbn [fst snd] in *; [|by split..].
    specialize (Ht ts eq_refl). pose proof Hb1 as (A1 & A2 & A3). destruct (default_calm raw s1 A1 Ha) as [Hst (v & Hv & Hcd)].
    pose proof (step_bstep _ _ A2 Hst) as Hb2.
    destruct (schema_default raw s1) as [s2 r2]. cbn [fst snd] in *. subst r2. destruct (HK ts v s2) as [E Hc].
    destruct (K ts v s2) as [s3 r3]. cbn [fst snd] in *. subst s3. split; [by eapply bstep_trans|].
    intros c Hr. apply Hc; [done| |done]. eapply calm_t_mono; [|exact Ht]. apply Hb2. }
  assert (Hscal : forall ty, finely s (new_scalar_tr W path tid raw ty)).
  { intros ty. unfold new_scalar_tr. apply finely_bind; [done|done| |].
    - case_decide; [|done]. destruct (jlookup "format" raw) as [[[]| | | |]|]; done.
    - intros jt'. apply (Hcore KScalar (fun ts d => mret (IScal path jt' d ts))). intros ts d s1. split; [done|]. by intros c [= <-]. }
  unfold new_node. apply finely_bind; [done|done|by destruct (field_type raw)|]. intros [ty nl]. cbn [fst]. cbv zeta.
  case_decide.
  - destruct (jlookup "properties" raw) as [pp|]; [|by apply finely_bad].
    assert (Hobj : finely s (new_object_tr W path tid raw)).
    { apply (Hcore KObject (fun ts d => match d with VS SNil => mret (IObj path None ts []) | VMap l => mret (IObj path (Some l) ts []) | _ => mfail end)).
      intros ts d s1. split; [by destruct d as [[]| | | |]|]. intros c Hc Ht Hd. destruct d as [[]| | | |]; try done. injection Hc as <-. done. }
    destruct pp as [| |[|]| |]; try exact Hobj. apply Hscal.
  - case_decide; [|apply Hscal].
    apply (Hcore KArray (fun ts d => match d with VS SNil => mret (IArr path None ts None) | VArr l n => mret (IArr path (Some (l, n)) ts None) | _ => mfail end)).
    intros ts d s1. split; [by destruct d as [[]| | | |]|]. intros c Hc Ht Hd. destruct d as [[]| | | |]; try done; injection Hc as <-; done.
Qed.
Lemma walker_inv p r x : apart1 r -> invB x -> invB (walker W tid p r x).1.
Proof.
  intros Ha (Hs & Hf & Hc). destruct x as [s root]. cbn [fst snd] in *. unfold walker. cbn [fst snd].
  destruct (new_node_calm p r s Hs Hf Ha) as [Hb Hn]. destruct (new_node W tid p r s) as [s' o]. cbn [fst snd] in *.
  assert (Hc' : calm flat (hp s') (froms s') root) by (eapply calm_mono; [| |exact Hc]; apply Hb).
  destruct Hb as (B1 & B2 & _). destruct o as [c| |]; [|by split..]. destruct (attach root c) as [root'| |] eqn:Ea; [|by split..].
  split; [done|]. split; [done|]. cbn. eapply attach_calm; [exact Hc'|by apply Hn|exact Ea].
Qed.
Lemma built_calm props items s i : (forall σ r, sinst (default [] props) items σ r -> apart1 r) ->
  new_transformer W tid props items st0 = (s, Ok i) -> stok s /\ calm flat (hp s) (froms s) i.
Proof.
  intros Ha. unfold new_transformer. set (root := match props with Some _ => _ | None => _ end). intros Hn.
  destruct root as [r|] eqn:Er; [|done].
  assert (H0 : invB (st0, r)).
  { split; [intros l [x Hl]; done|]. split; [intros l [x Hl]; done|]. unfold root in Er. destruct props; [injection Er as <-; done|]. destruct items; [injection Er as <-; done|done]. }
  pose proof (walk_schema_inv invB (walker W tid) (default [] props) items (st0, r)) as Hw.
  destruct (walk_raw_schema (walker W tid) (default [] props) items (st0, r)) as [[s1 i1] [[]| |]]; try done. injection Hn as <- <-.
  destruct Hw as (A & _ & B); [|exact H0|done]. intros σ x p' s' Hi. apply walker_inv. by eapply Ha.
Qed.
End build.

(** ** the paths of what is built *)
Definition named (s : seg) : Prop := match s with Ix _ => False | _ => seg_ok s end.
Lemma named_ok l : Forall named l -> Forall seg_ok l.
Proof. intros H. eapply Forall_impl; [exact H|]. intros [| |]; done. Qed.
Lemma plain_plain k : plain_name k -> plain k.
Proof. intros (_ & H & _). exists k. change "[" with (chr "["%char). apply split_chr_free. by rewrite free_of_str_in; unfold chr; rewrite H. Qed.
Lemma flat_path_of l : Forall named l -> Star ∉ l -> flat_path (path_of l).
Proof.
  intros Hn Hs. induction l as [|s l IH] using rev_ind.
  - split; [done|]. unfold plainp. repeat constructor. by exists "$".
  - apply Forall_app in Hn as [Hn Hk]. inversion Hk as [|? ? H1 _]; subst. assert (Hsl : Star ∉ l) by (intros Hin; apply Hs, elem_of_app; by left). destruct (IH Hn Hsl) as [A B].
    destruct s as [k| |]; [|by destruct Hs; apply elem_of_app; right; apply elem_of_list_singleton|done]. split.
    + rewrite path_of_name. cbn in H1. destruct H1 as (_ & H1 & _).
      apply not_true_is_false. intros H. assert (F : free_of "["%char (path_of l +:+ "." +:+ k) = true); [|rewrite free_of_str_in in F; unfold chr in F; by rewrite H in F].
      rewrite !free_of_app. rewrite !free_of_str_in. unfold chr. by rewrite A, H1.
    + unfold plainp. rewrite (split_path_name l k (named_ok l Hn) H1). apply Forall_app. split; [exact B|]. repeat constructor. by apply plain_plain.
Qed.
Lemma child_plain l k : plain_name k -> plainp (replace1 (path_of (l ++ [Nm k])) (path_of l) "$").
Proof.
  intros Hk. rewrite path_of_name, replace1_prefix. change ("$" +:+ "." +:+ k) with ("$" +:+ ("." +:+ k)).
  pose proof (path_of_name [] k) as E. cbn [app] in E. change (path_of []) with "$" in E. rewrite <- E.
  apply (flat_path_of [Nm k]); [constructor; [exact Hk|constructor]|]. rewrite elem_of_list_singleton. done.
Qed.
Section tidy.
Context (W : oracles) (tid : string) (f : fmt) (h : gmap nat cell) (fr : gmap nat (list instr)).
Definition tidys (p : string) := fix all (l : list (string * itr)) : Prop :=
  match l with [] => True | (_, c) :: l' => (plainp (replace1 (it_path c) p "$") /\ tidy f c) /\ all l' end.
Definition irels := fix all (cs : list (string * pitr)) (cs' : list (string * itr)) {struct cs} : Prop :=
  match cs, cs' with
  | [], [] => True
  | (k, c) :: cs, (k', c') :: cs' => (k' = k /\ irel h fr c' c) /\ all cs cs'
  | _, _ => False
  end.
Lemma reads_tidy :
  (forall σ raw p, reads W tid σ raw p -> Forall named σ ->
     (f = FJson -> forall σ' r nl, inst raw σ' r -> field_type r = Ok ("array", nl) -> Star ∉ σ ++ σ') ->
     forall i, irel h fr i p -> tidy f i) /\
  (forall σ ps cs, reads_all W tid σ ps cs -> Forall named σ -> Forall (fun kp => plain_name kp.1) ps ->
     (f = FJson -> forall k p σ' r nl, (k, p) ∈ ps -> inst p σ' r -> field_type r = Ok ("array", nl) -> Star ∉ σ ++ Nm k :: σ') ->
     forall cs', irels cs cs' -> tidys (path_of σ) cs').
Proof.
  apply reads_mutind.
  - intros σ raw jt nl jt' ts _ _ _ _ _ _ _ _ i Hi. by destruct i.
  - intros σ raw nl ps d ts cs Hft Hps Hne Hsec Hd Hdk Hnd Hpl Hall IH Hn Hs i Hi. destruct i as [|q' d' ts' cs'|]; try done.
    cbn [irel] in Hi. destruct Hi as (-> & _ & _ & Hcs). cbn [tidy]. apply (IH Hn Hpl); [|exact Hcs].
    intros Hf k p σ' r nl' Hin Hr Ha. eapply Hs; [done| |done]. by eapply inst_prop.
  - intros σ raw nl i d ts c Hft Hi Hsec Hd Hdk Hc IH Hn Hs j Hj. destruct j as [| |q' d' ts' [c'|]]; try done.
    cbn [irel] in Hj. destruct Hj as (-> & _ & _ & Hc'). cbn [tidy]. split.
    + intros Hf. apply flat_path_of; [done|]. specialize (Hs Hf [] raw nl ltac:(constructor) Hft). by rewrite app_nil_r in Hs.
    + apply IH; [|intros Hf σ' r nl' Hr Ha|done].
      * apply Forall_app. split; [done|]. by repeat constructor.
      * rewrite <- (assoc_L (++)). cbn [app]. eapply Hs; [done| |done]. by eapply inst_item.
  - intros σ _ _ _ [|]; done.
  - intros σ k p ps c cs Hp IHp Hps IHps Hn Hpl Hs [|[k' c'] cs'] Hi; [done|]. cbn [irels] in Hi. destruct Hi as [[-> Hc] Hcs].
    inversion Hpl as [|? ? Hk Hpl']; subst. cbn in Hk. cbn [tidys]. split; [split|].
    + rewrite (irel_path _ _ _ _ Hc), (reads_path _ _ _ _ _ Hp). by apply child_plain.
    + apply IHp; [apply Forall_app; split; [done|constructor; [exact Hk|constructor]]| |done].
      intros Hf σ' r nl Hr Ha. rewrite <- (assoc_L (++)). cbn [app]. eapply Hs; [done|left|done|done].
    + apply IHps; [done|done| |done]. intros Hf k1 p1 σ' r nl Hin Hr Ha. eapply Hs; [done|right; done|done|done].
Qed.
End tidy.
Lemma built_tidy W tid f props items s i : unchanging f props items -> new_transformer W tid props items st0 = (s, Ok i) -> tidy f i.
Proof.
  intros (Hw & Hs & _) Hn. destruct (new_reads W tid props items s i Hw Hn) as (p & Hp & _ & Hi). unfold schema_reads in Hp.
  destruct props as [ps|], items as [it|]; try done.
  - destruct Hp as (cs & -> & Hr). destruct i as [|q' d' ts' cs'|]; try done. cbn [irel] in Hi. destruct Hi as (-> & _ & _ & Hcs).
    destruct (proj1 Hw ps eq_refl) as [_ Hpl]. apply (proj2 (reads_tidy W tid f (hp s) (froms s)) [] ps cs Hr); [constructor|done| |done].
    intros Hf k p σ' r nl Hin Hr' Ha. cbn [app]. eapply Hs; [done| |done]. by eapply sinst_prop.
  - destruct Hp as (c & -> & Hr). destruct i as [| |q' d' ts' [c'|]]; try done. cbn [irel] in Hi. destruct Hi as (-> & _ & _ & Hc). cbn [tidy]. split.
    + intros _. apply (flat_path_of []); [constructor|]. apply not_elem_of_nil.
    + apply (proj1 (reads_tidy W tid f (hp s) (froms s)) [Star] it c Hr); [by repeat constructor| |done].
      intros Hf σ' r nl Hr' Ha. cbn [app]. eapply Hs; [done| |done]. by eapply sinst_item.
Qed.
(** ** all that a call needs *)
Lemma built_apart W tid f props items s i : apart W tid f props items -> new_transformer W tid props items st0 = (s, Ok i) ->
  exists flat, stok s /\ calm flat (hp s) (froms s) i /\ (flat = true -> tidy f i).
Proof.
  intros [Hl [Hd|Hu]] Hn.
  - exists false. destruct (built_calm W tid false props items s i) as [A B]; [|exact Hn|by split].
    intros σ r Hi. split; [by eapply Hl|]. destruct (Hd σ r Hi) as [H|H]; [by left|]. right. exists []. by split.
  - exists true. destruct (built_calm W tid true props items s i) as [A B]; [|exact Hn|].
    + intros σ r Hi. split; [by eapply Hl|]. destruct Hu as (_ & _ & Hd). destruct (Hd σ r Hi) as [H|[ss H]]; [by left|]. right. by exists ss.
    + split; [done|]. split; [done|]. intros _. by eapply built_tidy.
Qed.

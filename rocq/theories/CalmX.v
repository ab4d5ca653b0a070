(** XML transforms do not crash if the library compiles their XPaths and they do not use `max`. *)
From stdpp Require Import strings list gmap.
From Coq Require Import ZArith Lia.
From Verif Require Import GoStr GoStrL Val Conv Instr Heap Schema Build Api SpecPath PathL Den SpecSchema SpecProj SpecRun SpecTrans
  Param HeapL Refine Top BuildL RunL TransL SpecCalm.

Lemma mod_away m x : Forall (fun on : string * string => exists q, on.1 = q +:+ "[*]") m -> str_in "[*]" x = false -> apply_mod m x = x.
Proof.
  intros Hm Hx. unfold apply_mod. induction Hm as [|[old new] m [q Ho] _ IH]; [done|]. cbn [foldl fst snd] in *.
  rewrite replace1_absent; [done|]. destruct (str_in old x) eqn:E; [|done]. apply str_in_spec in E as (a & b & ->). subst old.
  enough (H : str_in "[*]" (a +:+ (q +:+ "[*]") +:+ b) = true) by (rewrite H in Hx; done).
  apply str_in_spec. exists (a +:+ q), b. by rewrite <- !app_assoc_s.
Qed.
Lemma convert_text W ft s : 0 < o_stack W -> convert W tview ft (GS (SStr s)) <> None.
Proof. intros Hs. apply (convert_depth W ft (GS (SStr s))). cbn. lia. Qed.
Lemma xml_instr_calm W ins it ft m : 0 < o_stack W -> findable1 W (i_xpath ins) -> (forall args, OpMax args ∉ i_ops ins) ->
  node_mod it m -> xml_instr W tview ins it ft m <> Panic.
Proof.
  intros Hs (_ & _ & Hx & C1 & C2 & C3) Hno [[n ->] Hm]. unfold xml_instr. cbn [tview].
  rewrite (mod_away m _ Hm Hx). specialize (C1 n). specialize (C2 n). specialize (C3 n).
  destruct (o_xfind W n (i_xpath ins)) as [[|n0 ns]|]; [done| |done].
  destruct (o_xfind W n (i_xpath ins +:+ "[*]")) as [wc|]; [|done].
  destruct (o_xfind W n (i_xpath ins +:+ "[not(*)]")) as [nc|]; [|done].
  pose proof (convert_text W ft (o_text W n0) Hs) as Hc.
  match goal with |- context[match ?v with None => Panic | Some _ => _ end] => assert (Hv : v <> None) end.
  { destruct (_ && _); [by destruct (convert W tview ft _)|]. destruct (decide _); [done|]. destruct (decide _); [done|].
    by destruct (convert W tview ft _). }
  cbv zeta. match goal with |- context[match ?v with None => Panic | Some _ => _ end] => destruct v as [w|] end; [|done].
  destruct (is_nil _ _); [done|]. by apply ops_calm.
Qed.
Lemma tis_calm_x W it t from ft m : 0 < o_stack W -> node_mod it m ->
  Forall (fun i => findable1 W (i_xpath i) /\ forall args, OpMax args ∉ i_ops i) from ->
  (tis_run W tview FXml t from it ft m).1 <> Panic.
Proof.
  intros Hs Hn Hno.
  assert (HF : forall from', from' ⊆ from -> Forall (fun i => instr_run W tview FXml i it ft m <> Panic) from').
  { intros from' Hsub. apply Forall_forall. intros i Hi. rewrite Forall_forall in Hno. destruct (Hno i) as [H1 H2]; [by apply Hsub|].
    by apply xml_instr_calm. }
  unfold tis_run. cbn [fst]. destruct (ti_meth t).
  - by apply run_first_calm, HF.
  - apply run_first_calm, HF. intros x. rewrite !elem_of_list_In. by rewrite <- in_rev.
  - by apply run_concat_calm, HF.
Qed.
Definition quiet1 (W : oracles) (tid : string) (r : tree) : Prop :=
  forall me delim is, transform_section W tid r me delim is ->
    Forall (fun i => findable1 W (i_xpath i) /\ forall args, OpMax args ∉ i_ops i) is.
Lemma section_calm_x W tid raw parent ft ts : 0 < o_stack W -> quiet1 W tid raw ->
  section W tid raw parent = Ok ts -> calm_ts W FXml node_mod ft ts.
Proof.
  intros Hr Hno Hs. destruct ts as [[[me delim] from]|]; [|done].
  apply section_inv in Hs as (is & Hsec & ->). intros it m Hm. apply tis_calm_x; [done|done|].
  apply Forall_fmap. eapply Forall_impl; [by eapply Hno|]. intros i [Hx Hi]. cbn [compose]. rewrite rebase_unfold. cbn.
  split; [|exact Hi]. unfold rebase1. destruct Hx as (P1 & P2 & Hx).
  rewrite (replace_prefix1_miss "@.") by done. rewrite (replace_prefix1_miss "@[") by done. done.
Qed.
Lemma reads_calm_x W tid : 0 < o_stack W ->
  (forall σ raw p, reads W tid σ raw p -> (forall τ r, inst raw τ r -> quiet1 W tid r) -> calm W FXml node_mod p) /\
  (forall σ ps cs, reads_all W tid σ ps cs -> (forall k p τ r, (k, p) ∈ ps -> inst p τ r -> quiet1 W tid r) ->
     (fix all (cs : list (string * pitr)) : Prop :=
       match cs with [] => True | (_, c) :: cs => calm W FXml node_mod c /\ all cs end) cs).
Proof.
  intros Hroom. apply reads_mutind.
  - intros σ raw jt nl jt' ts Hft Hna Hobj Hlt Hsec Hdk Hno. cbn [calm]. split; [|done].
    eapply section_calm_x; [done| |exact Hsec]. apply (Hno []). constructor.
  - intros σ raw nl ps d ts cs Hft Hps Hne Hsec Hd Hdk Hnd Hpl Hall IH Hno. cbn [calm]. split.
    + eapply section_calm_x; [done| |exact Hsec]. apply (Hno []). constructor.
    + apply IH. intros k p τ r Hin Hi. apply (Hno (Nm k :: τ)). by eapply inst_prop.
  - intros σ raw nl i d ts c Hft Hi Hsec Hd Hdk Hc IH Hno. cbn [calm]. split.
    + eapply section_calm_x; [done| |exact Hsec]. apply (Hno []). constructor.
    + apply IH. intros τ r Hr. apply (Hno (Star :: τ)). by eapply inst_item.
  - done.
  - intros σ k p ps c cs Hp IHp Hps IHps Hno. split.
    + apply IHp. intros τ r Hr. eapply Hno; [left|done].
    + apply IHps. intros k' p' τ r Hin Hr. eapply Hno; [by right|done].
Qed.
Lemma schema_calm_x W tid props items p : 0 < o_stack W -> no_max W tid props items -> findable W tid props items ->
  schema_reads W tid props items p -> calm W FXml node_mod p.
Proof.
  intros Hroom Hno Hfi. 
  assert (Hq : forall σ r, sinst (default [] props) items σ r -> quiet1 W tid r).
  { intros σ r Hr me delim is Hsec. pose proof (Hno σ r me delim is Hr Hsec) as H1. pose proof (Hfi σ r me delim is Hr Hsec) as H2.
    by apply Forall_and. }
  unfold schema_reads. destruct props as [ps|], items as [i|]; try done.
  - intros (cs & -> & Hr). cbn [calm]. split; [done|]. eapply (proj2 (reads_calm_x W tid Hroom)); [done|].
    intros k p σ' r Hin Hi. eapply Hq. by eapply sinst_prop.
  - intros (c & -> & Hr). cbn [calm]. split; [done|].
    eapply (proj1 (reads_calm_x W tid Hroom)); [done|]. intros σ' r Hi. eapply Hq. by eapply sinst_item.
Qed.
Lemma serve_calm_x W (HW : jpath_parametric W) E (HE : unmarshals E) tid props items i s perm c : 0 < o_stack W ->
  well_named props items -> tame W tid FXml props items -> no_max W tid props items -> findable W tid props items ->
  state W E FXml tid props items i s -> orders perm ->
  (serve W E perm FXml i c s).2 <> Panic.
Proof.
  intros Hstk Hw Ht Hno Hfi Hs Ho. destruct (state_reads W HW E HE _ _ _ _ _ _ Hw Ht Hs) as (p & Hr & Hst & Hi).
  assert (H : (transform_no_validation W E perm FXml i (raw_of c) s).2 <> Panic).
  { cbn [transform_no_validation]. unfold Api.base_xml. destruct (e_xml E (raw_of c)) as [n|] eqn:Ed; [|done].
    apply (xml_transform_calm W HW perm Ho i p n s); try done.
    - by eapply schema_wf. - by eapply schema_pure. - eapply schema_calm_x; eauto. }
  destruct c as [raw|raw]; cbn [serve raw_of] in *; [|done]. rewrite transform_eq. cbv zeta. cbn [snd].
  destruct (_.2) as [d| |]; cbn; try done. apply check_calm.
Qed.

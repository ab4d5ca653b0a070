(** Transform sections are decoded to what they say. *)
From stdpp Require Import strings list gmap.
From Coq Require Import ZArith.
From Verif Require Import GoStr Val Conv Instr Heap Schema Build SpecOps OpsThm SpecSection.
Set Default Proof Using "Type".

Lemma field_iff t k v : field t k v <-> default null (jlookup k t) = v.
Proof.
  destruct t as [s|l|kvs|n|l]; cbn; try (split; intros H; by symmetry). unfold null.
  induction kvs as [|[k' v'] kvs IH]; cbn.
  - split; [intros [(l & l' & H & _)|[_ ->]]; [by destruct l|done]|]. intros <-. right. split; [apply not_elem_of_nil|done].
  - case_decide as E.
    + subst k'. cbn. split.
      * intros [(l & l' & H & Hn)|[H _]]; [|exfalso; apply H; left]. destruct l as [|[k1 v1] l]; [by injection H as ->|]. injection H as -> -> _. exfalso. apply Hn. left.
      * intros <-. left. exists [], kvs. split; [done|apply not_elem_of_nil].
    + rewrite <- IH. split.
      * intros [(l & l' & H & Hn)|[H ->]].
        -- destruct l as [|[k1 v1] l]; [by injection H as -> -> ->|]. injection H as -> -> ->. left. exists l, l'. split; [done|]. intros H. apply Hn. by right.
        -- right. split; [|done]. intros H'. apply H. by right.
      * intros [(l & l' & -> & Hn)|[H ->]].
        -- left. exists ((k', v') :: l), l'. split; [done|]. cbn. by apply not_elem_of_cons.
        -- right. split; [|done]. by apply not_elem_of_cons.
Qed.
Lemma dec_str_iff k t s : dec_str k t = Ok s <-> exists v, field t k v /\ says_str v s.
Proof.
  setoid_rewrite field_iff. unfold dec_str. split.
  - destruct (jlookup k t) as [[[]| | | |]|]; try done; intros [= <-]; eexists; (split; [reflexivity|constructor]).
  - intros (v & <- & H). destruct (jlookup k t) as [v|]; cbn in H; inversion H; subst; done.
Qed.
Lemma dec_args_iff kvs m : dec_args kvs = Ok m <-> exists args, Forall2 (fun kv a => kv.1 = a.1 /\ says_str kv.2 a.2) kvs args /\ list_to_map args = m.
Proof.
  revert m. induction kvs as [|[k v] kvs IH]; intros m; cbn [dec_args].
  - split; [intros [= <-]; exists []; by split|]. intros (args & H & <-). by inversion H.
  - split.
    + destruct (dec_args kvs) as [m'| |] eqn:E; cbn; try done. destruct (proj1 (IH m') eq_refl) as (args & HF & <-).
      destruct v as [[]| | | |]; try done; intros [= <-]; [exists ((k, "") :: args)|exists ((k, s) :: args)]; (split; [|done]); constructor; try done; (split; [done|constructor]).
    + intros (args & H & <-). inversion H as [|? [k' s'] ? args' [H1 H2] HF]; subst. cbn in H1, H2. subst k'.
      rewrite (proj2 (IH (list_to_map args'))) by (by exists args'). cbn. inversion H2; subst; done.
Qed.
Lemma dec_op_iff W t o : dec_op W t = Ok o <-> exists no, says_op t no /\ op_init W no.1 (list_to_map no.2) = Some o.
Proof.
  assert (Ha : forall m, (match jlookup "args" t with None | Some (TS SNil) => Ok ∅ | Some (TObj kvs) => dec_args kvs | _ => Err end) = Ok m <->
    exists a args, field t "args" a /\ says_args a args /\ list_to_map args = m).
  { intros m. setoid_rewrite field_iff. split.
    - destruct (jlookup "args" t) as [[[]| |kvs| |]|]; try done; [intros [= <-]|intros (args & HF & <-)%dec_args_iff|intros [= <-]]; eexists.
      + exists []. split; [reflexivity|]. by split; [constructor|].
      + exists args. split; [reflexivity|]. by split; [constructor|].
      + exists []. split; [reflexivity|]. by split; [constructor|].
    - intros (a & args & <- & H & <-). destruct (jlookup "args" t) as [v|]; cbn in H; inversion H; subst; try done. apply dec_args_iff. by eexists. }
  set (R := match jlookup "args" t with None | Some (TS SNil) => Ok ∅ | Some (TObj kvs) => dec_args kvs | _ => Err end) in *.
  assert (Ho : object_or_null t -> (rbind (dec_str "type" t) (fun name => rbind R (fun args => match op_init W name args with Some o => Ok o | None => Err end)) = Ok o <->
    exists no, says_op t no /\ op_init W no.1 (list_to_map no.2) = Some o)).
  { intros Hon. split.
    - destruct (dec_str "type" t) as [name| |] eqn:E1; cbn; try done. destruct R as [m| |] eqn:E2; cbn; try done.
      apply dec_str_iff in E1 as (n & Hn & Hs). destruct (proj1 (Ha m) eq_refl) as (a & args & H1 & H2 & <-).
      destruct (op_init W name _) as [o'|] eqn:E3; [|done]. intros [= <-]. exists (name, args). split; [|done]. split; [done|]. exists n, a. done.
    - intros ([name args] & (_ & n & a & H1 & H2 & H3 & H4) & Hi). cbn in *.
      rewrite (proj2 (dec_str_iff "type" t name)) by eauto. cbn. rewrite (proj2 (Ha (list_to_map args))) by eauto 6. cbn. by rewrite Hi. }
  unfold dec_op. fold R. destruct t as [[]|l|kvs|n|l]; try (split; [done|intros (no & ([H|[kvs H]] & _) & _); done]).
  - apply Ho. by left.
  - apply Ho. right. by eexists.
Qed.
Lemma seq_iff {A B} (dec : tree -> res A) (decs : list tree -> res (list A)) (P : tree -> B -> Prop) (Q : B -> A -> Prop) :
  decs [] = Ok [] -> (forall t l, decs (t :: l) = rbind (dec t) (fun a => rbind (decs l) (fun r => Ok (a :: r)))) ->
  (forall t a, dec t = Ok a <-> exists b, P t b /\ Q b a) ->
  forall l r, decs l = Ok r <-> exists bs, Forall2 P l bs /\ Forall2 Q bs r.
Proof.
  intros H0 Hc Hd l. induction l as [|t l IH]; intros r.
  - rewrite H0. split; [intros [= <-]; exists []; by split|]. intros (bs & H1 & H2). inversion H1; subst. by inversion H2.
  - rewrite Hc. split.
    + destruct (dec t) as [a| |] eqn:E; cbn; try done. destruct (decs l) as [r'| |] eqn:E'; cbn; try done. intros [= <-].
      apply Hd in E as (b & H1 & H2). destruct (proj1 (IH r') eq_refl) as (bs & H3 & H4). exists (b :: bs). split; by constructor.
    + intros (bs & H1 & H2). inversion H1 as [|? b ? bs' H3 H4]; subst. inversion H2 as [|? a ? r' H5 H6]; subst.
      rewrite (proj2 (Hd t a)) by eauto. cbn. rewrite (proj2 (IH r')) by eauto. done.
Qed.
Lemma list_iff {A B} k t (decs : list tree -> res (list A)) (P : tree -> B -> Prop) (Q : B -> A -> Prop) :
  (forall l r, decs l = Ok r <-> exists bs, Forall2 P l bs /\ Forall2 Q bs r) ->
  forall r, (match jlookup k t with None | Some (TS SNil) => Ok [] | Some (TArr l) => decs l | _ => Err end) = Ok r <->
  exists v bs, field t k v /\ says_list P v bs /\ Forall2 Q bs r.
Proof.
  intros Hd r. setoid_rewrite field_iff. split.
  - destruct (jlookup k t) as [[[]|l| | |]|]; try done; [intros [= <-]|intros (bs & H1 & H2)%Hd|intros [= <-]]; eexists.
    + exists []. split; [reflexivity|]. split; constructor.
    + exists bs. split; [reflexivity|]. split; [by constructor|done].
    + exists []. split; [reflexivity|]. split; constructor.
  - intros (v & bs & <- & H & HQ). destruct (jlookup k t) as [v|]; cbn in H; inversion H; subst.
    + by inversion HQ.
    + apply Hd. by exists bs.
    + by inversion HQ.
Qed.
(** the operations of an entry as the operations [ops] *)
Notation inits W nos ops := (Forall2 (fun (no : string * list (string * string)) o => op_init W no.1 (list_to_map no.2) = Some o) nos ops).
Lemma dec_ops_iff W l os : dec_ops W l = Ok os <-> exists nos, Forall2 says_op l nos /\ inits W nos os.
Proof. apply (seq_iff (dec_op W) (dec_ops W) says_op (fun no o => op_init W no.1 (list_to_map no.2) = Some o)); [done|done|]. intros t a. apply dec_op_iff. Qed.
Lemma dec_instr_iff W t i : dec_instr W t = Ok i <-> exists e, says_entry t e /\ decoded_entry W e i.
Proof.
  unfold dec_instr. destruct t as [[]|l|kvs|n|l]; try (split; [done|intros (e & H & _); inversion H]).
  - split; [intros [= <-]; exists None; split; constructor|]. intros (e & H & H'). inversion H; subst. by inversion H'.
  - pose proof (list_iff "operations" (TObj kvs) (dec_ops W) says_op _ (dec_ops_iff W)) as Hops.
    set (R := match jlookup "operations" (TObj kvs) with None | Some (TS SNil) => Ok [] | Some (TArr l) => dec_ops W l | _ => Err end) in *. split.
    + destruct (dec_str "jsonPath" (TObj kvs)) as [jp| |] eqn:E1; cbn; try done. destruct (dec_str "xmlPath" (TObj kvs)) as [xp| |] eqn:E2; cbn; try done.
      destruct R as [ops| |] eqn:E3; cbn; try done. intros [= <-]. apply dec_str_iff in E1 as (v1 & F1 & S1). apply dec_str_iff in E2 as (v2 & F2 & S2).
      destruct (proj1 (Hops ops) eq_refl) as (v3 & nos & F3 & S3 & HQ). exists (Some (Entry jp xp nos)). split; [by eapply entry_object|by constructor].
    + intros (e & H & H'). inversion H as [|? j x o e' F1 S1 F2 S2 F3 S3]; subst. inversion H' as [|? ops HQ]; subst.
      rewrite (proj2 (dec_str_iff "jsonPath" _ _)) by eauto. cbn [rbind]. rewrite (proj2 (dec_str_iff "xmlPath" _ _)) by eauto. cbn [rbind].
      rewrite (proj2 (Hops ops)) by eauto. done.
Qed.
Lemma dec_from_iff W l is : dec_from W l = Ok is <-> exists es, Forall2 says_entry l es /\ Forall2 (decoded_entry W) es is.
Proof. apply (seq_iff (dec_instr W) (dec_from W)); [done|done|]. intros t a. apply dec_instr_iff. Qed.
Lemma dec_meth_iff s me : dec_meth s = Ok me <-> method_named s me.
Proof.
  unfold dec_meth, method_named. repeat case_decide; subst.
  all: destruct me; split; intros Hm; try done; try (by left); try (by right); try (by destruct Hm); try congruence.
  all: destruct Hm; congruence.
Qed.
Lemma dec_tis_iff W t me delim from : dec_tis W t = Ok (me, delim, from) <->
  exists entries method, says_section t entries method delim /\ method_named method me /\ Forall2 (decoded_entry W) entries from.
Proof.
  pose proof (list_iff "from" t (dec_from W) says_entry _ (dec_from_iff W)) as Hfrom.
  set (R := match jlookup "from" t with None | Some (TS SNil) => Ok [] | Some (TArr l) => dec_from W l | _ => Err end) in *.
  assert (Hopt : forall d, (match jlookup "methodOptions" t with None | Some (TS SNil) => Ok "" | Some (TObj o) => dec_str "concatenateDelimiter" (TObj o) | _ => Err end) = Ok d <->
    exists v, field t "methodOptions" v /\ says_options v d).
  { intros d. setoid_rewrite field_iff. split.
    - destruct (jlookup "methodOptions" t) as [[[]| |kvs| |]|]; try done; [intros [= <-]|intros (v & F & S)%dec_str_iff|intros [= <-]]; eexists; (split; [reflexivity|]); by econstructor.
    - intros (v & <- & H). destruct (jlookup "methodOptions" t) as [v|]; cbn in H; inversion H; subst; try done. apply dec_str_iff. by eexists. }
  set (R' := match jlookup "methodOptions" t with None | Some (TS SNil) => Ok "" | Some (TObj o) => dec_str "concatenateDelimiter" (TObj o) | _ => Err end) in *.
  assert (Hgo : object_or_null t -> (rbind R (fun from => rbind (dec_str "method" t) (fun ms => rbind R' (fun delim => rbind (dec_meth ms) (fun me => Ok (me, delim, from))))) = Ok (me, delim, from) <->
    exists entries method, says_section t entries method delim /\ method_named method me /\ Forall2 (decoded_entry W) entries from)).
  { intros Hon. split.
    - destruct R as [from'| |] eqn:E1; cbn; try done. destruct (dec_str "method" t) as [ms| |] eqn:E2; cbn; try done. destruct R' as [d| |] eqn:E3; cbn; try done.
      destruct (dec_meth ms) as [me'| |] eqn:E4; cbn; try done. intros [= <- <- <-]. apply dec_meth_iff in E4. apply dec_str_iff in E2.
      destruct (proj1 (Hfrom from') eq_refl) as (v & es & F & S & HQ). destruct (proj1 (Hopt d) eq_refl) as (v' & F' & S'). exists es, ms. split; [|done].
      split; [done|]. split; [by exists v|]. split; [done|]. by exists v'.
    - intros (es & ms & (_ & (v & F & S) & Hm & (v' & F' & S')) & Hme & HQ).
      rewrite (proj2 (Hfrom from)) by eauto. cbn. rewrite (proj2 (dec_str_iff "method" t ms)) by done. cbn. rewrite (proj2 (Hopt delim)) by eauto. cbn.
      by rewrite (proj2 (dec_meth_iff ms me)). }
  unfold dec_tis. fold R R'. destruct t as [[]|l|kvs|n|l]; try (split; [done|intros (? & ? & ([H|[? H]] & _) & _); done]).
  - apply Hgo. by left.
  - apply Hgo. right. by eexists.
Qed.

(** decoding never crashes *)
Lemma nb {A B} (m : res A) (f : A -> res B) : m <> Panic -> (forall a, f a <> Panic) -> rbind m f <> Panic.
Proof. destruct m; cbn; auto; done. Qed.
Lemma dec_str_calm k t : dec_str k t <> Panic.
Proof. unfold dec_str. by destruct (jlookup k t) as [[[]| | | |]|]. Qed.
Lemma dec_args_calm kvs : dec_args kvs <> Panic.
Proof. induction kvs as [|[k v] kvs IH]; cbn [dec_args]; [done|]. destruct (dec_args kvs); cbn; try done. by destruct v as [[]| | | |]. Qed.
Lemma dec_op_calm W t : dec_op W t <> Panic.
Proof.
  unfold dec_op. destruct t as [[]|l|kvs|n|l]; try done.
  all: apply nb; [apply dec_str_calm|]; intros name; apply nb; [|intros a; by destruct (op_init W name a)].
  all: destruct (jlookup "args" _) as [[[]| |kvs'| |]|]; try done; apply dec_args_calm.
Qed.
Lemma dec_ops_calm W l : dec_ops W l <> Panic.
Proof. induction l as [|t l IH]; [done|]. cbn. apply nb; [apply dec_op_calm|]. intros a. by apply nb. Qed.
Lemma dec_instr_calm W t : dec_instr W t <> Panic.
Proof.
  unfold dec_instr. destruct t as [[]|l|kvs|n|l]; try done.
  apply nb; [apply dec_str_calm|]; intros jp; apply nb; [apply dec_str_calm|]; intros xp. apply nb; [|done].
  destruct (jlookup "operations" _) as [[[]|l'| | |]|]; try done. apply dec_ops_calm.
Qed.
Lemma dec_from_calm W l : dec_from W l <> Panic.
Proof. induction l as [|t l IH]; [done|]. cbn. apply nb; [apply dec_instr_calm|]. intros a. by apply nb. Qed.
Lemma dec_tis_calm W t : dec_tis W t <> Panic.
Proof.
  unfold dec_tis. destruct t as [[]|l|kvs|n|l]; try done.
  all: apply nb; [destruct (jlookup "from" _) as [[[]|l'| | |]|]; try done; apply dec_from_calm|]; intros from.
  all: apply nb; [apply dec_str_calm|]; intros ms; apply nb; [destruct (jlookup "methodOptions" _) as [[[]| |o| |]|]; try done; apply dec_str_calm|]; intros d.
  all: apply nb; [|done]; unfold dec_meth; by repeat case_decide.
Qed.
Lemma entry_made W e : (exists i, decoded_entry W e i) <->
  match e with Some e => Forall (fun no => well_formed_op (o_re_ok W) no.1 (list_to_map no.2)) (e_ops e) | None => True end.
Proof.
  destruct e as [e|]; [|split; [done|eexists; constructor]]. split.
  - intros [i H]. inversion H as [|? ops HF]; subst. apply Forall_lookup. intros k no Hk. destruct (Forall2_lookup_l _ _ _ _ _ HF Hk) as (o & _ & Ho). apply op_init_thm. by eexists.
  - intros HF. assert (exists ops, Forall2 (fun no o => op_init W no.1 (list_to_map no.2) = Some o) (e_ops e) ops) as [ops Ho]; [|eexists; by constructor].
    induction HF as [|no nos Hn HF IH]; [exists []; constructor|]. destruct IH as [ops IH]. apply op_init_thm in Hn as [o Ho]. exists (o :: ops). by constructor.
Qed.
Lemma dec_tis_refused W t : dec_tis W t = Err <->
  ~ exists entries method delim me, says_section t entries method delim /\ method_named method me /\
      Forall (fun e => match e with Some e => Forall (fun no => well_formed_op (o_re_ok W) no.1 (list_to_map no.2)) (e_ops e) | None => True end) entries.
Proof.
  split.
  - intros E (es & ms & d & me & H1 & H2 & H3).
    assert (exists from, Forall2 (decoded_entry W) es from) as [from Hf].
    { clear H1. induction H3 as [|e es He _ IH]; [exists []; constructor|]. destruct IH as [from IH]. apply entry_made in He as [i Hi]. exists (i :: from). by constructor. }
    assert (dec_tis W t = Ok (me, d, from)) as Hc; [|congruence]. apply dec_tis_iff. eauto.
  - intros Hn. destruct (dec_tis W t) as [[[me d] from]| |] eqn:E; [|done|by apply dec_tis_calm in E]. exfalso. apply Hn.
    apply dec_tis_iff in E as (es & ms & H1 & H2 & H3). exists es, ms, d, me. split; [done|]. split; [done|].
    clear H1. induction H3; constructor; [|done]. apply entry_made. by eexists.
Qed.

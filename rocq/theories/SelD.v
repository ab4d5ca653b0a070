(** A pure reading of JSON transformers with transforms of objects. *)
From stdpp Require Import strings list gmap.
From Coq Require Import ZArith Lia.
From Verif Require Import GoStr GoStrL Val Conv Instr Heap SpecPath PathL Den Param HeapL Refine Top SpecProj ProjL SpecArr ArrT ArrH ArrW ArrD SelH.
From Verif Require Import SpecDef.

Definition base_of (v : tree) : option (list (string * tree)) :=
  match v with TS SNil => Some [] | TObj kvs => Some kvs | _ => None end.
Section oden.
Context (W : oracles) (doc : tree).
Definition oarr (q : string) (dn : modifier -> option tree) (m : modifier) : option tree :=
  let path := apply_mod m q in
  b ← jbase W path None None doc m;
  arr_of <$> all_of (imap (fun i _ => dn (path_replace (path +:+ "[*]") (path +:+ idx_str i) m)) b.1).
Fixpoint oden (p : pitr) (m : modifier) : option tree :=
  match p with
  | PScal q jt d ts => den_scal W FJson q jt d ts doc m
  | PObj _ _ ts cs =>
    v ← run_ptis W FJson ts doc "object" m;
    kvs ← base_of v;
    (fun r => obj_or_nil (overlay kvs r)) <$> all_of (List.map (fun kc => match kc with (k, c) => pair k <$> oden c m end) cs)
  | PArr q _ _ c => oarr q (oden c) m
  end.
End oden.

(** the maps of the document that a transformer takes *)
Definition sel_of (ts : option ptis) : wheres :=
  match ts with Some (_, _, x :: _) => [default [] (plain_path (i_jpath x))] | _ => [] end.
Fixpoint sels (p : pitr) : wheres :=
  match p with
  | PScal _ _ _ _ => []
  | PObj _ _ ts cs => sel_of ts ++ List.concat (List.map (fun kc => match kc with (_, c) => sels c end) cs)
  | PArr _ _ _ c => sels c
  end.
Definition csels (cs : list (string * pitr)) : wheres := List.concat (List.map (fun kc => match kc with (_, c) => sels c end) cs).

Section ok.
Context (ws wr : wheres).
(** a place is read that is neither a map that is taken, nor above one, nor inside a member that is written and not in [o] *)
Definition oreads (o : wheres) (path : string) : Prop :=
  exists ks, plain_path path = Some ks /\ ~ up ws ks /\ forall d, d ∈ wr -> d ∉ o -> ~ d `prefix_of` ks.
Definition ots (o : wheres) (ts : option ptis) (m : modifier) : Prop :=
  match ts with None => True | Some (_, _, from) => forall x, x ∈ from -> oreads o (apply_mod m (i_jpath x)) end.
Fixpoint ook (o : wheres) (p : pitr) (m : modifier) : Prop :=
  match p with
  | PScal q _ _ ts => pure_ts ts /\ oreads o (apply_mod m q) /\ ots o ts m
  | PObj q d ts cs => d = None /\ NoDup (sels p) /\
    match ts with
    | None =>
      (fix all (cs : list (string * pitr)) : Prop := match cs with [] => True | (_, c) :: cs' => ook o c m /\ all cs' end) cs
    | Some t => exists w dl x, t = (MFirst, dl, [x]) /\ i_ops x = [] /\ w ∈ ws /\ w <> [] /\ Forall (fun k => ident k = true) w /\
      i_jpath x = path_of (Nm <$> w) /\ m = [] /\
      (fix all (cs : list (string * pitr)) : Prop :=
         match cs with [] => True | (k, c) :: cs' => (w ++ [k] ∈ wr /\ ook ((w ++ [k]) :: o) c m) /\ all cs' end) cs
    end
  | PArr q d ts c => let path := apply_mod m q in sels c = [] /\ d = None /\ ts = None /\ oreads o path /\
      forall i, ook o c (path_replace (path +:+ "[*]") (path +:+ idx_str i) m)
  end.
Definition oadd (own : option (list string)) (k : string) (o : wheres) : wheres :=
  match own with Some w => (w ++ [k]) :: o | None => o end.
Lemma ook_children o q d ts cs m : ook o (PObj q d ts cs) m -> exists own,
  match own with
  | None => ts = None
  | Some w => exists dl x, ts = Some (MFirst, dl, [x]) /\ i_ops x = [] /\ w ∈ ws /\ w <> [] /\ Forall (fun k => ident k = true) w /\
      i_jpath x = path_of (Nm <$> w) /\ m = [] /\ Forall (fun kc => w ++ [kc.1] ∈ wr) cs
  end /\ Forall (fun kc => ook (oadd own kc.1 o) kc.2 m) cs /\ sel_of ts = option_list own.
Proof.
  intros (_ & _ & H). destruct ts as [t|].
  - destruct H as (w & dl & x & -> & Ho & Hw & Hne & Hid & Hp & -> & H). exists (Some w). split; [|split].
    + exists dl, x. repeat (split; [done|]). clear -H. induction cs as [|[k c] cs IH]; constructor; [apply H|apply IH, H].
    + clear -H. induction cs as [|[k c] cs IH]; constructor; [apply H|apply IH, H].
    + cbn [sel_of]. rewrite Hp, plain_names by done. done.
  - exists None. split; [done|]. split; [|done]. induction cs as [|[k c] cs IH]; constructor; [apply H|apply IH, H].
Qed.
Lemma ook_sels p : forall o m, ook o p m -> Forall (fun w => w ∈ ws) (sels p).
Proof.
  induction p as [q jt d ts|q d ts cs IH|q d ts c IH] using pitr_ind'; intros o m Hj.
  - constructor.
  - destruct (ook_children _ _ _ _ _ _ Hj) as (own & H1 & H2 & H3). cbn [sels]. rewrite H3. apply Forall_app. split.
    + destruct own as [w|]; [|constructor]. destruct H1 as (dl & x & _ & _ & Hw & _). by repeat constructor.
    + clear -IH H2. induction cs as [|[k c] cs IHc]; [constructor|]. inversion IH as [|? ? IH1 IH2]; subst. inversion H2 as [|? ? Hj1 Hj2]; subst.
      cbn [List.map List.concat]. apply Forall_app. split; [by eapply IH1|by apply IHc].
  - destruct Hj as (Hc & _). cbn [sels]. by rewrite Hc.
Qed.
End ok.
Lemma csels_perm cs cs' : cs ≡ₚ cs' -> csels cs ≡ₚ csels cs'.
Proof. intros H. unfold csels. rewrite <- !flat_map_concat_map. by apply Permutation_flat_map. Qed.
Lemma select_getp w t : Forall (fun k => ident k = true) w -> select_path tview w t = getp w t.
Proof.
  intros H. revert t. induction H as [|k w Hk Hw IH]; intros t; [done|]. cbn [select_path getp].
  assert (E : select tview k t = member k t). { unfold select, member. destruct t; try done. cbn [tview]. by rewrite ident_atoi. }
  rewrite E. destruct (member k t); [|done]. apply IH.
Qed.

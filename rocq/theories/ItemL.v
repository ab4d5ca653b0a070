(** Array items are produced independently of each other (C19, C20). *)
From stdpp Require Import strings list gmap.
From Coq Require Import ZArith.
From Verif Require Import GoStr Val Conv Instr Heap Schema Build Api SpecPath Den Param Top SpecSchema SpecProj SpecRun SpecTrans.
From Verif Require Import ProjL RunL.

Lemma transformed_root W r1 r2 jt par ts : relative_only (Leaf jt (TS SNil) ts) ->
  transformed W r1 jt par ts = transformed W r2 jt par ts.
Proof.
  destruct ts as [[[me delim] from]|]; [|done]. cbn. intros H.
  assert (entry W r1 jt par <$> from = entry W r2 jt par <$> from) as ->; [|done].
  induction H as [|[x ops] from [τ Hx] _ IH]; [done|]. cbn in Hx. subst x. cbn. by f_equal.
Qed.
Fixpoint project_root W r1 r2 (s : sch) : relative_only s -> forall par v, project W r1 s par v = project W r2 s par v.
Proof.
  destruct s as [jt d ts|cs|c]; intros H par v.
  - cbn [project]. unfold resolve. by rewrite (transformed_root W r1 r2 jt par ts H).
  - cbn [project]. do 2 f_equal. cbn [relative_only] in H. revert H.
    induction cs as [|[k c] cs IH]; intros H; [done|]. destruct H as [Hc H]. cbn [List.map]. f_equal; [|by apply IH].
    by rewrite (project_root W r1 r2 c Hc).
  - cbn [project]. do 2 f_equal. apply imap_ext. intros i x _. apply (project_root W r1 r2 c H).
Qed.
Lemma project_array W root c l : 
  project W root (Lst c) (Some (TArr l)) (Some (TArr l)) =
  arr_of <$> all_of ((fun x => project W root c (Some x) (Some x)) <$> l).
Proof.
  cbn [project elems]. do 2 f_equal. rewrite <- (imap_const (fun x => project W root c (Some x) (Some x))).
  apply imap_ext. intros i x Hx. cbn. by rewrite Hx.
Qed.

Section items.
Context (W : oracles) (HW : jpath_parametric W) (E : env) (HE : unmarshals E).
Lemma root_items tid it c : shaped W tid None (Some it) (Lst c) -> relative_only c ->
  exists out : tree -> option tree, forall i s perm raw l,
  state W E FJson tid None (Some it) i s -> orders perm -> e_json E raw = Some (TArr l) -> small (TArr l) ->
  outcome W (arr_of <$> all_of (out <$> l)) (transform_no_validation W E perm FJson i raw s).2.
Proof.
  intros Hs Hr. exists (fun x => project W (TS SNil) c (Some x) (Some x)).
  intros i s perm raw l Hst Ho Hj Hsm.
  pose proof (shaped_transform W HW E HE tid None (Some it) (Lst c) i s perm raw (TArr l) Hs Hst Ho Hj Hsm) as H.
  rewrite project_array in H. revert H.
  assert ((fun x => project W (TArr l) c (Some x) (Some x)) <$> l = (fun x => project W (TS SNil) c (Some x) (Some x)) <$> l) as ->; [|done].
  apply list_fmap_ext. intros ? x _. by apply project_root.
Qed.
End items.

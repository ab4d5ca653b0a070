(** The sample for C23 with XML: the schema of C66, whose XPaths the library of the sample world compiles. *)
From stdpp Require Import strings list gmap.
From Coq Require Import ZArith.
From Verif Require Import GoStr Val Conv Instr Heap Schema Build Api World SpecPath Den SpecSchema SpecTrans SpecCalm Cases CaseXml.

(** a check of all instances below a raw schema *)
Fixpoint inst_all (n : nat) (P : tree -> bool) (raw : tree) : bool :=
  match n with
  | 0 => false
  | S n => P raw &&
    match field_type raw with
    | Ok (ty, _) =>
      (if decide (ty = "object") then match jlookup "properties" raw with Some (TObj ps) => forallb (fun kp => inst_all n P kp.2) ps | _ => true end else true) &&
      (if decide (ty = "array") then match jlookup "items" raw with Some i => inst_all n P i | _ => true end else true)
    | _ => true
    end
  end.
Lemma inst_all_ok n P raw σ r : inst_all n P raw = true -> inst raw σ r -> P r = true.
Proof.
  intros H Hi. revert n H. induction Hi as [raw|raw nl ps k p σ r Ht Hp Hin Hi IH|raw nl i σ r Ht Hit Hi IH]; intros [|n] H; try done;
    cbn [inst_all] in H; apply andb_true_iff in H as [H1 H2].
  - done.
  - rewrite Ht in H2. rewrite decide_True in H2 by done. rewrite Hp in H2. apply andb_true_iff in H2 as [H2 _].
    apply (IH n). apply forallb_forall with (x := (k, p)) in H2; [done|]. by apply elem_of_list_In.
  - rewrite Ht in H2. apply andb_true_iff in H2 as [_ H2]. rewrite decide_True in H2 by done. rewrite Hit in H2. by apply (IH n).
Qed.
(** transforms of these XPaths, without operations *)
Definition xpaths : list string := ["."; "//name"; "//none"; "//tag"].
Definition known (r : tree) : bool :=
  match jlookup "transform" r ≫= jlookup "t" with
  | Some t =>
    match dec_tis W0 t with
    | Ok (_, _, from) => forallb (fun o => match o with Some i => bool_decide (i_xpath i ∈ xpaths) && bool_decide (length (i_ops i) = 0) | None => false end) from
    | _ => true
    end
  | None => true
  end.
Lemma known_ok r me delim is : known r = true -> transform_section W0 "t" r me delim is ->
  Forall (fun i => i_xpath i ∈ xpaths /\ i_ops i = []) is.
Proof.
  unfold known. intros H (t & Ht & _ & Hd). rewrite Ht, Hd in H. rewrite forallb_forall in H.
  apply Forall_forall. intros i Hi. specialize (H (Some i)). rewrite <- elem_of_list_In in H.
  specialize (H ltac:(by apply elem_of_list_fmap_1)). cbn in H. apply andb_true_iff in H as [H1 H2].
  apply bool_decide_eq_true_1 in H1, H2. split; [done|]. by apply nil_length_inv.
Qed.
Lemma xpaths_found x : x ∈ xpaths -> findable1 W0 x.
Proof.
  intros Hx. repeat (apply elem_of_cons in Hx as [-> |Hx]); [..|by apply elem_of_nil in Hx];
    repeat (split; [reflexivity|]); repeat split; intros node; cbn -[decide]; repeat case_decide; done.
Qed.
Lemma xml_known σ r : sinst (default [] (Some xml_props)) None σ r -> known r = true.
Proof.
  intros Hs. inversion Hs as [k p τ x Hin Hi|i τ x Hi0 Hi]; subst; [|done]. apply (inst_all_ok 9 known p τ); [|done].
  assert (H : forallb (fun kp => inst_all 9 known kp.2) xml_props = true) by (vm_compute; reflexivity).
  apply forallb_forall with (x := (k, p)) in H; [done|]. by apply elem_of_list_In.
Qed.
Lemma xml_no_max : no_max W0 "t" (Some xml_props) None.
Proof.
  intros σ r me delim is Hs Hsec. eapply Forall_impl; [by eapply known_ok; [by eapply xml_known|]|].
  intros i [_ ->] args H. by apply elem_of_nil in H.
Qed.
Lemma xml_findable : findable W0 "t" (Some xml_props) None.
Proof.
  intros σ r me delim is Hs Hsec. eapply Forall_impl; [by eapply known_ok; [by eapply xml_known|]|].
  intros i [Hx _]. by apply xpaths_found.
Qed.

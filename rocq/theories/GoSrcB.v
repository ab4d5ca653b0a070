(** The Avro schema of generated structs. *)
From stdpp Require Import strings list gmap.
From Coq Require Import Ascii ZArith Lia.
From Verif Require Import GoStr GoStrL Val Conv Schema Inst SpecGen SpecNamed Avro GoSrc SpecAvro AvroL AvroMapL SpecGo GoSrcL GoSrcP GoSrcQ GoSrcA.

Scheme avro_type_ind2 := Minimality for avro_type Sort Prop with avro_fields_ind2 := Minimality for avro_fields Sort Prop.
Combined Scheme avro_mutind from avro_type_ind2, avro_fields_ind2.

Lemma ascii_plain s : ascii_text s = true -> plain_text s.
Proof. unfold ascii_text. induction s as [|a s IH]; [intros; constructor|]. cbn [str_all]. intros [H%bool_decide_eq_true Hs]%andb_true_iff. constructor; [done|]. by apply IH. Qed.
Lemma plain_app a b : plain_text a -> plain_text b -> plain_text (a +:+ b).
Proof. induction 1 as [|c a Hc _ IH]; [done|]. intros Hb. change (String c a +:+ b) with (String c (a +:+ b)). constructor; [done|]. by apply IH. Qed.
Lemma plain_join ns : Forall plain_text ns -> plain_text (join "." ns).
Proof.
  induction 1 as [|x ns Hx Hns IH]; [constructor|]. destruct ns as [|y ns]; [done|]. rewrite join_cons by done. apply plain_app; [done|]. apply plain_app; [|done].
  constructor; [|constructor]. left. vm_compute. split; repeat constructor.
Qed.

Section avro.
Context (W : oracles) (o_unquote : string -> option string) (E : sources) (dt : bool) (Ss : gstructs).
Notation lower := (go_lower W).
Context (HE : forall n ds, (n, ds) ∈ Ss -> ds <> [] -> n ∉ go_prims /\ src_dir E n = Some (EStruct (afields_of o_unquote dt ds))).
Context (HS : Forall (fun s => forallb (avro_ok dt) s.2 = true /\ forallb (writable dt) s.2 = true) Ss).
Notation texpr_of := (texpr_of o_unquote dt).
Notation afields_of := (afields_of o_unquote dt).

Lemma split_option json req ty : without [","%char] json = true ->
  split (json +:+ json_option req ty) "," = json :: (if req then [] else match ty with TStruct _ | TNamed _ => ["omitzero"] | _ => ["omitempty"] end).
Proof.
  intros H. assert (Hf : free_of "," json = true) by (eapply without_free; [|exact H]; left). destruct req; cbn [json_option].
  - rewrite sapp_nil_r. exact (split_chr_free "," json Hf).
  - assert (E1 : split (json +:+ ",omitempty") "," = [json; "omitempty"]) by (change (json +:+ ",omitempty") with (json +:+ String "," "omitempty"); exact (split_chr_app "," json "omitempty" Hf)).
    assert (E2 : split (json +:+ ",omitzero") "," = [json; "omitzero"]) by (change (json +:+ ",omitzero") with (json +:+ String "," "omitzero"); exact (split_chr_app "," json "omitzero" Hf)).
    destruct ty; done.
Qed.
Definition omits (req : bool) (ty : gtype) : bool := negb req && match ty with TStruct _ | TNamed _ => false | _ => true end.
Lemma may_union_ok ns name t d : avro_type dt Ss ns name t d -> may_union (texpr_of t) = match base_of t with TBool | TMap | TSlice _ => false | _ => true end /\
  is_bool (texpr_of t) = match base_of t with TBool => true | _ => false end.
Proof.
  induction 1; try done. destruct (HE n ds) as [Hn _]; [done..|]. unfold texpr_of. cbn.
  assert (n <> "bool") by (intros ->; apply Hn; by left). split; [by apply bool_decide_eq_true_2|by apply bool_decide_eq_false_2].
Qed.
Lemma stands_ok : (forall ns name t d, avro_type dt Ss ns name t d -> avro_ok_type dt t = true -> writable_type dt t = true -> Forall plain_text ns -> plain_text name ->
    stands lower E ns name (texpr_of t) d []) /\
  (forall ns ds docs, avro_fields dt Ss ns ds docs -> forallb (avro_ok dt) ds = true -> forallb (writable dt) ds = true -> Forall plain_text ns -> forall own,
    fields lower E ns [] own (afields_of ds) docs []).
Proof.
  apply avro_mutind.
  - intros ns name _ _ _ _. apply stands_prim. constructor.
  - intros ns name _ _ _ _. apply stands_prim. constructor.
  - intros ns name _ _ _ _. apply stands_prim. constructor. set_solver.
  - intros ns name _ _ _ _. apply stands_prim. constructor.
  - intros ns name _ _ _ _. apply stands_time.
  - intros ns name _ _ _ _. apply stands_map. apply stands_prim. constructor.
  - intros ns name t d _ IH Ha Hw Hns Hn. apply stands_pointer. by apply IH.
  - intros ns name t d _ IH Ha Hw Hns Hn. apply stands_array. by apply IH.
  - intros ns name ds docs _ IH Ha Hw Hns Hn.
    assert (Hns' : Forall plain_text (ns ++ [name])) by (apply Forall_app; split; [done|by repeat constructor]).
    apply stands_struct; [done|by apply plain_join|]. apply IH; done.
  - intros ns name n ds docs Hin Hne _ IH _ _ Hns Hn. destruct (HE n ds Hin Hne) as [Hp Hsrc].
    assert (Hns' : Forall plain_text (ns ++ [name])) by (apply Forall_app; split; [done|by repeat constructor]).
    rewrite Forall_forall in HS. destruct (HS _ Hin) as [H1 H2]. cbn [snd] in H1, H2.
    eapply stands_named; [done|exact Hsrc|]. apply stands_struct; [done|by apply plain_join|]. by apply IH.
  - intros ns _ _ _ own. constructor.
  - intros ns desc go json req ds docs _ IH Ha Hw Hns own. cbn [forallb] in Ha, Hw. apply andb_true_iff in Ha as [_ Ha]. apply andb_true_iff in Hw as [_ Hw]. by apply IH.
  - intros ns desc go json req ty d ds docs Ht IHt _ IH Ha Hw Hns own. cbn [forallb] in Ha, Hw. apply andb_true_iff in Ha as [Ha Has]. apply andb_true_iff in Hw as [Hw Hws].
    rewrite writable_some in Hw. apply andb_true_iff in Hw as [Hd [[Hg Hr]%andb_true_iff Hwt]%andb_true_iff].
    change (avro_ok_name json && (if dt then quotable (first_line desc) && ascii_text (first_line desc) else true) && avro_ok_type dt ty = true) in Ha.
    apply andb_true_iff in Ha as [[Hj Hq]%andb_true_iff Hat]. unfold avro_ok_name in Hj. rewrite !andb_true_iff in Hj. destruct Hj as [[[Hj1 Hj2] Hj3] Hj4%negb_true_iff%bool_decide_eq_false].
    unfold GoSrcA.afields_of. cbn [flat_map]. rewrite map_app. rewrite read_field; [|done|done|intros ->; by apply andb_true_iff in Hq as [? _]]. cbn [app].
    set (f := AField [go] (texpr_of ty) (json +:+ json_option req ty) (read_desc dt desc)).
    assert (Ename : avro_name f go = json) by (unfold avro_name, json_name; cbn [af_json f]; rewrite split_option by done; cbn [hd]; by rewrite decide_False).
    assert (Eopt : optional lower f = omits req ty).
    { unfold optional. cbn [af_json f]. rewrite split_option by done. cbn [tl]. unfold omits. destruct req; [done|]. destruct ty; done. }
    destruct (may_union_ok _ _ _ _ Ht) as [Eu Eb].
    assert (E1 : null_union req ty = optional lower f && may_union (texpr_of ty)) by (rewrite Eopt, Eu; unfold null_union, omits; destruct req; [done|]; destruct ty; done).
    assert (E2 : false_default req ty = optional lower f && is_bool (texpr_of ty)) by (rewrite Eopt, Eb; unfold false_default, omits; destruct req; [done|]; destruct ty; done).
    rewrite E1, E2. change (@nil string) with (@nil string ++ @nil string) at 2.
    assert (Hdesc : plain_text (read_desc dt desc)).
    { unfold read_desc. destruct dt; [|constructor]. apply andb_true_iff in Hq as [_ Hq]. by apply ascii_plain. }
    replace (field_doc ns json) with (field_doc ns (avro_name f go)) by (by rewrite Ename).
    apply (fields_own lower E ns [] own go (texpr_of ty) (json +:+ json_option req ty) (read_desc dt desc)).
    + apply not_elem_of_nil.
    + fold f. rewrite Ename. by apply ascii_plain.
    + done.
    + by apply plain_join.
    + fold f. rewrite Ename. apply IHt; [done..|]. by apply ascii_plain.
    + by apply IH.
Qed.
End avro.

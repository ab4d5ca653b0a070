(** What generation needs of the members of a schema. *)
From stdpp Require Import strings list gmap.
From Verif Require Import GoStr Val Conv Schema Inst Load Gen Files SpecFiles FilesL.

Section need.
Context (W : oracles) (F : files) (o_abs : string -> string) (o_fmt : string -> option string) (A : args) (pkg : string).
Context (ord : nat -> string -> list string -> list string) (ord' : nat -> list string -> list string -> list string).
Lemma load_needs ty fl n path i : load_schema F ty fl n path = Some (Ok i) -> is_Some (f_file F path) /\ f_valid F path = true.
Proof.
  destruct n as [|n]; [done|]. cbn [load_schema]. destruct (f_file F path) as [doc|]; [|done]. destruct (f_valid F path); [|done]. intros _. split; [by eexists|done].
Qed.
Lemma each_needs n j sp ms fs fs' : build_each W F o_abs o_fmt A pkg ord ord' n j sp ms fs = Some (fs', Ok tt) ->
  forall m, m ∈ ms -> is_Some (f_file F (child_path F o_abs sp m.1.1)) /\ f_valid F (child_path F o_abs sp m.1.1) = true.
Proof.
  revert j fs. induction ms as [|[[c nm] em] ms IH]; intros j fs H m Hm; [by apply elem_of_nil in Hm|]. cbn [build_each] in H.
  destruct (build_struct_file W F o_abs o_fmt A pkg ord ord' n j sp c nm em fs) as [[fs1 [[]| |]]|] eqn:E; [|done..].
  apply elem_of_cons in Hm as [->|Hm]; [|by eapply IH]. cbn [fst].
  unfold build_struct_file in E. destruct (load_schema F nm _ n (child_path F o_abs sp c)) as [[s| |]|] eqn:El; [|done..]. by eapply load_needs.
Qed.
Lemma needs_files n sp doc i fs fs' : f_file F (o_abs sp) = Some doc -> d_inst false doc = Ok i ->
  build_structs W F o_abs o_fmt A pkg ord ord' n sp fs = Some (fs', Ok tt) -> forall m, m ∈ n_allOf i ++ n_oneOf i ->
  is_Some (f_file F (if has_prefix "/" (n_ref m) then o_abs (n_ref m) else f_rel F sp (n_ref m))) /\
  f_valid F (if has_prefix "/" (n_ref m) then o_abs (n_ref m) else f_rel F sp (n_ref m)) = true.
Proof.
  intros Hd Hi H m Hm. unfold build_structs in H. rewrite Hd in H. unfold schema_types in H. rewrite Hi in H. cbn [rbind] in H.
  pose proof (each_needs _ _ _ _ _ _ H) as Hn. clear H. apply elem_of_app in Hm as [Hm|Hm].
  - apply (Hn (n_ref m, all_name W A (n_ref m), [])). apply elem_of_app. left. apply elem_of_list_fmap. exists (n_ref m). split; [done|].
    apply elem_of_app. left. apply elem_of_list_fmap. by exists m.
  - eapply (Hn (n_ref m, one_name A (n_ref m), _)). apply elem_of_app. right. apply elem_of_list_fmap. exists (n_ref m). split; [done|].
    apply elem_of_list_fmap. by exists m.
Qed.
End need.

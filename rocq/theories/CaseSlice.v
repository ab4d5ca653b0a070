(** A schema with an array of arrays, for PropsSlice.v. *)
From stdpp Require Import strings list gmap.
From Verif Require Import GoStr Val Schema Inst Load SpecPath SpecWalk SpecGen Gen World Cases CaseGen SpecSlice.

Definition rows : tree := arr_schema (arr_schema (typed "string" []) []) [].
Definition rows_props : list (string * tree) := [("a", rows)].
Lemma scalar_insts σ r : winst (typed "string" []) σ r -> r = typed "string" [].
Proof.
  intros H. remember (typed "string" []) as raw eqn:E. destruct H as [raw|raw ps k p σ r Ho|raw i σ r Ho Ha]; subst; [done|..]; exfalso.
  - vm_compute in Ho. by apply elem_of_list_singleton in Ho.
  - vm_compute in Ha. by apply elem_of_list_singleton in Ha.
Qed.
Lemma array_insts x σ r : winst (arr_schema x []) σ r -> r = arr_schema x [] \/ exists τ, winst x τ r.
Proof.
  intros H. remember (arr_schema x []) as raw eqn:E. destruct H as [raw|raw ps k p σ r Ho|raw i σ r Ho Ha Hi Hw]; subst; [by left|exfalso|right].
  - cbn in Ho. by apply elem_of_list_singleton in Ho.
  - cbn in Hi. injection Hi as <-. by exists σ.
Qed.
Lemma rows_insts σ r : swinst rows_props None σ r -> r ∈ [rows; arr_schema (typed "string" []) []; typed "string" []].
Proof.
  intros [k p τ x Hin Hw|i τ x Hi]; [|done]. apply elem_of_list_singleton in Hin as [= -> ->].
  apply array_insts in Hw as [->|[τ1 Hw]]; [left|]. apply array_insts in Hw as [->|[τ2 Hw]]; [right; left|].
  apply scalar_insts in Hw as ->. right; right; left.
Qed.
Lemma rows_named σ r : swinst rows_props None σ r -> props_named r.
Proof. intros H%rows_insts ps Hp. rewrite !elem_of_cons in H. by destruct H as [->|[->|[->|[]%elem_of_nil]]]. Qed.
Lemma rows_types σ r i t : swinst rows_props None σ r -> d_inst false r = Ok i -> t ∈ types i -> no_bracket t.
Proof.
  intros H%rows_insts Hd Ht s. rewrite !elem_of_cons in H.
  destruct H as [->|[->|[->|[]%elem_of_nil]]]; vm_compute in Hd; injection Hd as <-; vm_compute in Ht; apply elem_of_list_singleton in Ht as ->; intros E; cbn in E; discriminate E.
Qed.
Lemma rows_made : exists g f, new_file W0 plain_args same_order (schema_of rows_props []) "root" [] = Ok g /\ file_field g f.
Proof.
  destruct (new_file W0 plain_args same_order (schema_of rows_props []) "root" []) as [g| |] eqn:E; [|vm_compute in E; discriminate E..].
  vm_compute in E. injection E as <-. do 2 eexists. split; [reflexivity|]. left. eapply field_here. left.
Qed.

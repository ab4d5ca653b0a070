(** A document in memory, for the examples of C15. *)
From stdpp Require Import strings list gmap.
From Coq Require Import ZArith.
From Verif Require Import GoStr Val Conv Instr Heap SpecPath SpecPut SaveL PutL Cases World.

(** {"a": [["1"], {"x": "1"}], "n": null}, with an object {"y": "2"} to save *)
Definition heap2 : st := St (<[0 := CMap (<["a" := VArr (Some 1) 2]> (<["n" := VS SNil]> ∅))]> (<[1 := CArr [VArr (Some 2) 1; VMap 3]]>
  (<[2 := CArr [VS (SStr "1")]]> (<[3 := CMap (<["x" := VS (SStr "1")]> ∅)]> (<[4 := CMap (<["y" := VS (SStr "2")]> ∅)]> ∅))))) 5 ∅ 0.
Definition doc2 : list (string * tree) := [("a", TArr [TArr [TS (SStr "1")]; TObj [("x", TS (SStr "1"))]]); ("n", null)].
Definition saved2 : list (string * tree) := [("y", TS (SStr "2"))].

Ltac apart := refine (bool_decide_eq_true_1 _ _); vm_compute; reflexivity.
Ltac at_key := first [rewrite lookup_insert; reflexivity|rewrite lookup_insert_ne by done; at_key].
Ltac own := lazymatch goal with
  | |- owns _ (VS _) _ _ => apply owns_s
  | |- owns _ (VMap _) _ _ => eapply owns_map; [at_key|own|apart]
  | |- owns _ (VArr (Some _) _) _ _ => eapply owns_arr; [at_key|cbn; lia|cbn [take]; own|apart]
  | |- owns_members _ _ [] _ => apply members_nil
  | |- owns_members _ _ (_ :: _) _ => eapply members_cons; [vm_compute; reflexivity|own|own|apart]
  | |- owns_items _ _ [] _ => apply items_nil
  | |- owns_items _ _ (_ :: _) _ => eapply items_cons; [own|own|apart]
  end.
Lemma heap2_ok : ok_st heap2.
Proof.
  intros l0 [c Hc]. unfold heap2 in *. cbn [hp nxt] in *. destruct (decide (l0 < 5)) as [|Hge]; [done|]. rewrite !lookup_insert_ne in Hc by lia. done.
Qed.
Lemma heap2_doc : exists F Fv, owns (hp heap2) (VMap 0) (TObj doc2) F /\ owns (hp heap2) (VMap 4) (TObj saved2) Fv /\ F ## Fv.
Proof. eexists _, _. split_and!; [unfold heap2, doc2; cbn [hp]; own|unfold heap2, saved2; cbn [hp]; own|apart]. Qed.
Lemma plain_test ρ : forallb (fun t : step => negb (str_in "." t.1) && negb (str_in "[" t.1) && negb (bool_decide (t.1 = "")) && forallb (fun i => (Z.of_nat i <? 2 ^ 63)%Z) t.2) ρ = true ->
  Forall plain_step ρ.
Proof.
  intros H. apply Forall_forall. intros [k is] Hin. rewrite forallb_forall in H. specialize (H _ (proj1 (elem_of_list_In _ _) Hin)). cbn [fst snd] in H.
  apply andb_true_iff in H as [[[H1 H2]%andb_true_iff H3]%andb_true_iff H4]. apply negb_true_iff in H1, H2, H3. split; [split_and!; try done; by apply bool_decide_eq_false in H3|].
  apply Forall_forall. intros i Hi. cbn [snd] in Hi. rewrite forallb_forall in H4. apply Z.ltb_lt, H4. by apply elem_of_list_In.
Qed.
Lemma goes kvs ρ v t : put kvs ρ v = Done t -> ρ <> [] -> ~ stopped no_object kvs ρ /\ ~ stopped no_array kvs ρ.
Proof. intros H Hn. pose proof (put_stops ρ kvs v Hn) as Hs. by rewrite H in Hs. Qed.
Lemma fails kvs ρ v : put kvs ρ v = Fails -> ρ <> [] -> stopped no_object kvs ρ.
Proof. intros H Hn. pose proof (put_stops ρ kvs v Hn) as Hs. by rewrite H in Hs. Qed.
Lemma crashes kvs ρ v : put kvs ρ v = Crashes -> ρ <> [] -> stopped no_array kvs ρ.
Proof. intros H Hn. pose proof (put_stops ρ kvs v Hn) as Hs. by rewrite H in Hs. Qed.

Lemma replaced : exists s s' l kvs t F F', owns (hp s) (VMap l) (TObj kvs) F /\
  save_in_tree W0 l (path_of (steps_path [("a", [0%nat]); ("b", [])])) (VS (SStr "v")) s = (s', Ok tt) /\ owns (hp s') (VMap l) t F' /\
  get (TObj kvs) [Nm "a"; Ix 0; Ix 0] = Some (TS (SStr "1")) /\ get t [Nm "a"; Ix 0; Ix 0] = None.
Proof.
  destruct heap2_doc as (F & _ & Ho & _). assert (Hp : plain_steps [("a", [0%nat]); ("b", [])]) by (split_and!; [done|by apply plain_test|by repeat constructor]).
  destruct (put_thm W0 _ (VS (SStr "v")) heap2 0 doc2 F (TS (SStr "v")) ∅ Hp ltac:(done) heap2_ok Ho ltac:(constructor) (disjoint_empty_r F)) as (H1 & (F' & H2) & _).
  exists heap2. eexists _, 0, doc2, _, F, F'. split_and!; [exact Ho| |exact H2|reflexivity|vm_compute; reflexivity]. rewrite <- H1. apply surjective_pairing.
Qed.

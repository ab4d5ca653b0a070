(** What a document comes out as: all schemas. *)
From stdpp Require Import strings list gmap.
From Coq Require Import Ascii ZArith Lia Floats.SpecFloat.
From Verif Require Import GoStr Val Conv Schema Inst Load SpecGen SpecNamed GenL SpecGo GoJson SpecJson JsonL JsonM.

Section out.
Context (W : oracles) (o_json_num : spec_float -> string) (o_fold : string -> string) (flat pointers : bool).
Notation fits := (fits W o_fold).
Notation optional := (optional flat pointers).
Notation vacant := (vacant W flat pointers).
Notation left_out := (left_out W flat pointers).
Notation comes_out := (comes_out W o_json_num flat pointers).
Notation member_out := (member_out W o_json_num flat pointers).
Notation members_out := (members_out W o_json_num flat pointers).
Notation decode := (decode W o_fold).
Notation marshal := (marshal W o_json_num).
Notation shp := (shp flat pointers).
Notation shpf := (shpf flat pointers).
Notation shps := (shps flat pointers).
Notation val := (val W o_fold).
Notation out := (out W o_json_num o_fold).
Notation okf := (okf W o_json_num o_fold).
Notation comes := (comes W o_json_num o_fold flat pointers).
Notation comes_field := (comes_field W o_json_num o_fold flat pointers).
Notation comes_all := (comes_all W o_json_num o_fold flat pointers).

Lemma shp_time_iff req r y i : shp req (nullable i) r y -> d_inst false r = Ok i -> y = YTime <-> is_time i /\ ~ optional req i.
Proof.
  intros H Hd. assert (Hp := shp_ptr _ _ _ _ _ _ H Hd). split.
  - intros ->. rewrite <- Hp. split; [|done]. inversion H as [? ? ? i' t b Hd' Ht Hb|? ? ? i' Hd' Ht|? ? ? i' ps fs fs' Hd' Ht|? ? ? i' ps Hd' Ht]; subst; rewrite Hd in Hd'; injection Hd' as <-.
    + exfalso. unfold ybase in Hb. match goal with H : yptr _ b = YTime |- _ => rename H into E end. destruct (nullable i); cbn in E; [done|subst b]. repeat case_decide; try done; by case_bool_decide.
    + done.
    + exfalso. match goal with H : yptr ?b _ = YTime |- _ => by destruct b end.
    + exfalso. match goal with H : yptr ?b _ = YTime |- _ => by destruct b end.
  - intros [Hti Hno]. rewrite <- Hp in Hno. apply not_true_is_false in Hno. inversion H as [? ? ? i' t b Hd' Ht Hb|? ? ? i' Hd' Ht|? ? ? i' ps fs fs' Hd' Ht|? ? ? i' ps Hd' Ht]; subst; rewrite Hd in Hd'; injection Hd' as <-.
    + destruct Hti as [Hs Hf]. exfalso. assert (t = "string") as -> by (by eapply one_fun). unfold ybase in Hb. rewrite bool_decide_eq_true_2 in Hb by done. by repeat case_decide.
    + by destruct (pointers && negb req || nullable i).
    + destruct Hti as [Hs _]. by assert ("string" = "object") by (by eapply one_fun).
    + destruct Hti as [Hs _]. by assert ("string" = "object") by (by eapply one_fun).
Qed.
Lemma zero_empty y : y <> YTime -> is_ystruct y = false -> is_empty (zero y) = true.
Proof. by destruct y. Qed.
Lemma forall2_mapM {A B} (f : A -> option B) l l' : Forall2 (fun x y => f x = Some y) l l' -> mapM f l = Some l'.
Proof. induction 1 as [|x y l l' H _ IH]; [done|]. cbn. by rewrite H, IH. Qed.

Lemma comes_ok : (forall req null r y, shp req null r y -> comes req null r y) /\ (forall req k r fs, shpf req k r fs -> comes_field req k r fs) /\
  (forall reqs ps fs, shps reqs ps fs -> shps reqs ps fs /\ comes_all reqs ps fs).
Proof.
  apply (shp_mutind flat pointers comes comes_field (fun reqs ps fs => shps reqs ps fs /\ comes_all reqs ps fs)).
  - intros req null r i t b Hd Ht Hb. assert (Hs := shp_base flat pointers req null r i t b Hd Ht Hb). eapply wrap; [done|done| |by eapply bare_base|].
    { intros ->. unfold ybase in Hb. by repeat case_decide. }
    intros ->. rewrite <- (shp_ptr _ _ _ _ _ _ Hs Hd). destruct (nullable i); [done|]. cbn. unfold ybase in Hb. repeat case_decide; simplify_eq; try done. by case_bool_decide; simplify_eq.
  - intros req null r i Hd Ht. assert (Hs := shp_time flat pointers req null r i Hd Ht). eapply wrap; [done|exact (proj1 Ht)|done|by apply bare_time|].
    intros ->. rewrite <- (shp_ptr _ _ _ _ _ _ Hs Hd). by destruct (pointers && negb req || nullable i).
  - intros req null r i ps fs fs' Hd Ht Hps Hff Hsh [Hs Hc] Hp Hnd. assert (Hs' := shp_object flat pointers req null r i ps fs fs' Hd Ht Hps Hff Hs Hp Hnd).
    eapply wrap; [done|done|done|by eapply bare_object|]. intros ->. rewrite <- (shp_ptr _ _ _ _ _ _ Hs' Hd). by destruct (if flat then _ else _).
  - intros req null r i ps Hd Ht Hps Hff Hfl. assert (Hs := shp_map flat pointers req null r i ps Hd Ht Hps Hff Hfl).
    eapply wrap; [done|done|done|by eapply bare_map|]. intros ->. rewrite <- (shp_ptr _ _ _ _ _ _ Hs Hd). by destruct (nullable i).
  - (* a value *)
    intros req k r i y Hd Hs IH kvs Hf Hreq. destruct (shp_type _ _ _ _ _ _ _ Hs Hd) as (t & Ht & Hta & Hth).
    assert (Hng : ~ graphql_only r) by (by eapply one_graphql). unfold member. set (fd := JF k (negb req && negb (is_ystruct y)) (negb req && is_ystruct y) y).
    destruct (assocd k kvs) as [d|] eqn:Ea.
    + assert (Hfd : fits r d) by (by apply Hf).
      assert (Hn : d = JNull -> is_yptr y = true).
      { intros ->. rewrite (shp_ptr _ _ _ _ _ _ Hs Hd). left. inversion Hfd as [? i' Hd'| | | | | | | |? ? Hl]; subst; [rewrite Hd in Hd'; by injection Hd' as <-|]. by destruct Hng; left. }
      destruct (IH d Hfd Hn) as (v & e & Hv & He & Ho & Hz). destruct Hz as [Hz Hm]; [intros i' Hd'; rewrite Hd in Hd'; by injection Hd' as <-|].
      assert (Ev : val kvs fd = v) by (unfold val, JsonL.val; cbn; rewrite Ea; unfold zero_of; cbn; by rewrite Hv). split_and!.
      * constructor; [|constructor]. split; [|rewrite Ev; by eexists]. cbn. rewrite Ea. intros d' [= <-]. unfold zero_of. cbn. by rewrite Hv.
      * unfold fd. rewrite (out_one _ _ _ kvs k _ _ y v e Ev He). destruct req; cbn [negb andb orb].
        { by apply out_kept. }
        assert (E : negb (is_ystruct y) && is_empty v || is_ystruct y && is_zero v = omits y v) by (unfold omits; destruct (is_ystruct y); cbn; [done|apply orb_false_r]). rewrite E.
        destruct (omits y v) eqn:Eo.
        -- apply out_left; [done|]. by apply Hm.
        -- apply out_kept; [done|intros _ Hl|done]. by apply Hm in Hl.
      * cbn [forallb]. rewrite Ev, andb_true_r, Hz. split; [by intros ? d' [= <-] _|]. intros H. by apply H.
    + assert (req = false) as -> by (destruct req; [|done]; destruct (Hreq eq_refl); congruence).
      assert (Ev : val kvs fd = zero y) by (unfold val, JsonL.val; cbn; by rewrite Ea). destruct (marshal_zero W o_json_num y) as [e He]. split_and!.
      * constructor; [|constructor]. split; [|rewrite Ev; by eexists]. cbn. by rewrite Ea.
      * unfold fd. rewrite (out_one _ _ _ kvs k _ _ y _ e Ev He). cbn [negb andb]. rewrite zero_is_zero. assert (Hti := shp_time_iff _ _ _ _ Hs Hd). destruct (is_ystruct y) eqn:Es.
        { cbn. eapply out_missing; [done..|]. rewrite <- Hti. by intros ->. }
        cbn [negb andb]. rewrite orb_false_r. destruct (is_empty (zero y)) eqn:Ee.
        { eapply out_missing; [done..|]. rewrite <- Hti. by intros ->. }
        assert (y = YTime) as ->. { destruct y; done. } destruct (proj1 Hti eq_refl) as [H1 H2]. cbn in He. injection He as <-. by eapply out_no_time.
      * cbn [forallb]. rewrite Ev, zero_is_zero. done.
  - (* an array *)
    intros req k r i x y Hd Ht Hx Hs IH kvs Hf Hreq. set (fd := JF k (negb req) false (YSlice y)). unfold member.
    assert (Hnl : ~ graphql_leaf r) by (by eapply one_leaf).
    assert (Hng : ~ graphql_only r).
    { intros [H|(i' & x' & Hd' & _ & Hx' & (j & Hj & Hh))]; [done|]. rewrite Hd in Hd'. injection Hd' as <-. rewrite Hx in Hx'. injection Hx' as <-.
      destruct (shp_type _ _ _ _ _ _ _ Hs Hj) as (t & Htj & _ & Hth). eapply (one_leaf x j t Hj Htj Hth). by exists j. }
    assert (Hva : forall q l, ~ vacant q r (JArr l)) by (intros q l H; inversion H).
    destruct (assocd k kvs) as [d|] eqn:Ea.
    + assert (Hfd : fits r d) by (by apply Hf).
      assert (Hcase : exists v e, decode (YSlice y) (VSlice None) d = Some v /\ marshal (YSlice y) v = Some e /\ comes_out r d e /\ (is_zero v = true <-> vacant req r d) /\ (is_empty v = true <-> left_out r d)).
      { inversion Hfd as [| | | | | |? i' x' l Hd' _ Hx' Hl| |]; subst; try done; try (rewrite Hd in *; simplify_eq; exfalso; match goal with H : one_type ?i ?a, H' : one_type ?i ?b |- _ => by assert (a = b) by (by eapply one_fun) end).
        - exists (VSlice None), JNull. split_and!; [done|done|constructor|split; [intros _; constructor|done]|]. split; [|done]. intros _. eapply left_vacant; [done|constructor|by left].
        - rewrite Hd in *. simplify_eq. match goal with H : is_time _ |- _ => destruct H as [H _] end. by assert ("string" = "array") by (by eapply one_fun).
        - rewrite Hd in Hd'. injection Hd' as <-. rewrite Hx in Hx'. injection Hx' as <-.
          assert (Hitems : exists vs es, Forall2 (fun d v => decode y (zero y) d = Some v) l vs /\ Forall2 (fun v e => marshal y v = Some e) vs es /\ Forall2 (comes_out x) l es).
          { clear -Hl IH. induction l as [|d l IHl]; [exists [], []; by split_and!|]. destruct IHl as (vs & es & H1 & H2 & H3); [intros d1 H1; apply Hl; by right|].
            destruct (Hl d) as [Hd1 Hd2]; [left|]. destruct (IH d Hd1) as (v & e & Hv & He & Ho & _); [done|]. exists (v :: vs), (e :: es). split_and!; by constructor. }
          destruct Hitems as (vs & es & H1 & H2 & H3). exists (VSlice (Some vs)), (JArr es). split_and!.
          + change (decode (YSlice y) (VSlice None) (JArr l)) with ((fun vs => VSlice (Some vs)) <$> mapM (decode y (zero y)) l). by rewrite (forall2_mapM _ _ _ H1).
          + change (marshal (YSlice y) (VSlice (Some vs))) with (JArr <$> mapM (marshal y) vs). by rewrite (forall2_mapM _ _ _ H2).
          + by eapply out_arr.
          + split; [done|]. intros H. by destruct (Hva req l).
          + cbn. destruct vs as [|v vs].
            * inversion H1; subst. split; [|done]. intros _. by eapply left_array.
            * split; [done|]. intros H. inversion H1; subst. inversion H; subst. by destruct (Hva false (x0 :: l0)).
      }
      destruct Hcase as (v & e & Hv & He & Ho & Hz & Hm).
      assert (Ev : val kvs fd = v) by (unfold val, JsonL.val, fd; cbn [jf_name jf_type]; rewrite Ea; change (zero_of (JF k (negb req) false (YSlice y))) with (VSlice None); by rewrite Hv). split_and!.
      * constructor; [|constructor]. split; [|rewrite Ev; by eexists]. unfold fd. cbn [jf_name jf_type]. rewrite Ea. intros d' [= <-]. change (zero_of (JF k (negb req) false (YSlice y))) with (VSlice None). by rewrite Hv.
      * unfold fd. rewrite (out_one _ _ _ kvs k _ _ (YSlice y) v e Ev He). cbn [andb]. rewrite orb_false_r. destruct req; cbn [negb andb].
        { by apply out_kept. }
        destruct (is_empty v) eqn:Eo.
        -- apply out_left; [done|]. by apply Hm.
        -- apply out_kept; [done|intros _ Hl|done]. by apply Hm in Hl.
      * cbn [forallb]. rewrite Ev, andb_true_r, Hz. split; [by intros ? d' [= <-] _|]. intros H. by apply H.
    + assert (req = false) as -> by (destruct req; [|done]; destruct (Hreq eq_refl); congruence).
      assert (Ev : val kvs fd = zero (YSlice y)) by (unfold val, JsonL.val; cbn; by rewrite Ea). split_and!.
      * constructor; [|constructor]. split; [cbn; by rewrite Ea|]. rewrite Ev. by eexists.
      * unfold fd. rewrite (out_one _ _ _ kvs k _ _ (YSlice y) _ JNull Ev); [|done]. cbn. eapply out_missing; [done..|]. intros [[Hs' _] _]. by assert ("string" = "array") by (by eapply one_fun).
      * cbn [forallb]. rewrite Ev. done.
  - (* nothing but a comment *)
    intros req k r i x Hd Ht Hx Hl kvs Hf Hreq. assert (Hg : graphql_only r) by (right; by exists i, x). split_and!; [constructor|by apply out_graphql|]. split; [|done]. done.
  - intros reqs. split; [constructor|]. intros kvs _ _ _. split_and!; [constructor|exists []; split; [constructor|done]|]. split; [|done]. intros _ k r d H. by apply elem_of_nil in H.
  - intros reqs k r ps fs Hl Hs0 [Hs IH]. split; [by constructor|]. intros kvs H1 H2 H3.
    destruct (IH kvs H1) as (Hok & (ess & Hm & Hess) & Hz). { intros k' Hk'. apply H2. by right. } { intros k' r' d' Hk'. apply H3. by right. }
    split_and!; [done| |].
    + exists ([] :: ess). split; [|done]. constructor; [|done]. apply out_graphql. by left.
    + rewrite Hz. split; intros H k' r' d' Hk'; [|apply H; by right]. apply elem_of_cons in Hk' as [[= -> ->]|Hk']; [|by apply H]. intros _ Hng. destruct Hng. by left.
  - intros reqs k r ps fs fs' Hsf IHf Hs0 [Hs IH]. split; [by constructor|]. intros kvs H1 H2 H3.
    destruct (IH kvs H1) as (Hok & (ess & Hm & Hess) & Hz). { intros k' Hk'. apply H2. by right. } { intros k' r' d' Hk'. apply H3. by right. }
    destruct (IHf kvs) as (Hok' & Hm' & Hz').
    { intros d Hda. eapply H3; [left|by apply assocd_elem]. }
    { intros Hq%bool_decide_eq_true. destruct (assocd k kvs) as [d|] eqn:Ea; [by eexists|]. apply assocd_none in Ea. destruct Ea. apply H2; [by left|done]. }
    split_and!.
    + by apply Forall_app.
    + exists (flat_map (out kvs) fs :: ess). split; [by constructor|]. cbn. by rewrite Hess, flat_map_app.
    + rewrite forallb_app, andb_true_iff, Hz, Hz'. split.
      * intros [Ha Hb] k' r' d' Hk' Hd' Hng. apply elem_of_cons in Hk' as [[= -> ->]|Hk']; [|by apply Hb]. apply Ha; [|done]. by apply assocd_in.
      * intros H. split; [|intros k' r' d' Hk'; apply H; by right]. intros d Ha. eapply H; [left|by apply assocd_elem].
Qed.
Lemma all_comes reqs ps fs fs' kvs : shps reqs ps fs -> fs ≡ₚ fs' -> NoDup ps.*1 -> fits_members W o_fold reqs ps kvs ->
  exists v es, unmarshal W o_fold (YStruct fs') (JObj kvs) = Some v /\ marshal (YStruct fs') v = Some (JObj es) /\ members_out reqs ps kvs es.
Proof.
  intros Hs Hp Hnd Hf. destruct (struct_out _ _ _ flat pointers _ _ _ _ kvs Hs (proj2 (proj2 (proj2 comes_ok) _ _ _ Hs)) Hp Hnd Hf) as (es & Hv & He & Ho & _).
  by eexists _, es.
Qed.
End out.

(** What a document comes out as. *)
From stdpp Require Import strings list gmap.
From Coq Require Import Ascii ZArith Lia Floats.SpecFloat.
From Verif Require Import GoStr Val Conv Schema Inst Load SpecGen SpecNamed GenL SpecGo GoJson SpecJson JsonL.

Section out.
Context (W : oracles) (o_json_num : spec_float -> string) (o_fold : string -> string) (flat pointers : bool).
Notation fits := (fits W o_fold).
Notation optional := (optional flat pointers).
Notation vacant := (vacant W flat pointers).
Notation left_out := (left_out W flat pointers).
Notation comes_out := (comes_out W o_json_num flat pointers).
Notation member_out := (member_out W o_json_num flat pointers).
Notation members_out := (members_out W o_json_num flat pointers).
Notation decode := (decode W o_fold).
Notation marshal := (marshal W o_json_num).
Notation shp := (shp flat pointers).
Notation shpf := (shpf flat pointers).
Notation shps := (shps flat pointers).
Notation val := (val W o_fold).
Notation out := (out W o_json_num o_fold).
Notation okf := (okf W o_json_num o_fold).

(** a value that is not null and not an optional value in Go *)
Definition bare (req : bool) (r : tree) (i : instance) (y : jt) : Prop :=
  is_yptr y = false /\ forall d, fits r d -> d <> JNull -> exists v e, decode y (zero y) d = Some v /\ marshal y v = Some e /\ comes_out r d e /\
    (~ optional req i -> is_zero v = true <-> vacant req r d) /\ (req = false -> ~ optional req i -> omits y v = true <-> left_out r d).
Definition comes (req null : bool) (r : tree) (y : jt) : Prop :=
  forall d, fits r d -> (d = JNull -> is_yptr y = true) -> exists v e, decode y (zero y) d = Some v /\ marshal y v = Some e /\ comes_out r d e /\
    ((forall i, d_inst false r = Ok i -> null = nullable i) ->
     (is_zero v = true <-> vacant req r d) /\ (req = false -> omits y v = true <-> left_out r d)).
Lemma not_opt_vacant req r i d : d_inst false r = Ok i -> optional req i -> d <> JNull -> ~ vacant req r d.
Proof. intros Hd Ho Hn H. inversion H; subst; try done; rewrite Hd in *; by simplify_eq. Qed.
Lemma null_or (d : json) : d = JNull \/ d <> JNull.
Proof. destruct d; [by left|by right..]. Qed.
Lemma wrap req null p r i t y : d_inst false r = Ok i -> one_type i t -> t <> "array" -> bare req r i y ->
  (null = nullable i -> p = true <-> optional req i) -> comes req null r (yptr p y).
Proof.
  intros Hd Ht Ha [Hy Hb] Hp d Hf Hn. destruct p; cbn [yptr] in *.
  - destruct (null_or d) as [->|Hd0].
    + exists (VPtr None), JNull. split_and!; [done|done|constructor|]. intros _. split; [split; [intros _; constructor|done]|]. intros ->. split; [|done].
      intros _. eapply left_vacant; [done|constructor|by left].
    + destruct (Hb d Hf Hd0) as (v & e & Hv & He & Ho & _). exists (VPtr (Some v)), e. split_and!; [|done|done|].
      { cbn [GoJson.decode]. change (match zero (YPtr y) with VPtr (Some c) => c | _ => zero y end) with (zero y). rewrite Hv. by destruct d. }
      intros Hnull. assert (Hopt : optional req i) by (apply Hp; [by apply Hnull|done]). split.
      * split; [done|]. intros Hvac. by destruct (not_opt_vacant req r i d Hd Hopt Hd0).
      * intros ->. split; [done|]. intros Hl. exfalso. inversion Hl; subst; rewrite Hd in *; simplify_eq; first [done|by eapply not_opt_vacant|by destruct Ha; eapply one_fun].
  - destruct (Hb d Hf) as (v & e & Hv & He & Ho & Hz & Hm). { intros ->. rewrite Hy in Hn. by discriminate (Hn eq_refl). }
    exists v, e. split_and!; [done..|]. intros Hnull. assert (Hopt : ~ optional req i). { intros H. apply Hp in H; [done|by apply Hnull]. } split; [by apply Hz|]. intros Hr. by apply Hm.
Qed.
Lemma is_fzero_iff f : is_fzero f = true <-> exists b, f = S754_zero b.
Proof. destruct f; split; try done; [intros _; by eexists|intros [? [=]]|intros [? [=]]|intros [? [=]]]. Qed.

(** ** scalars *)
Ltac same_inst Hd := repeat match goal with H : d_inst false _ = Ok _ |- _ => (rewrite Hd in H; first [injection H as <-|injection H as ->]) || fail end.
Ltac one_contra := match goal with H : one_type ?i ?a, H' : one_type ?i ?b |- _ => assert_fails (unify a b); assert (a = b) by (by eapply one_fun); done end.
Ltac leaf_contra Hd Ht := match goal with H : graphql_leaf _ |- _ => exfalso; by eapply (one_leaf _ _ _ Hd Ht) end.

Lemma left_scalar r i t d (b : bool) : d_inst false r = Ok i -> one_type i t -> t <> "array" -> t <> "object" -> ~ is_time i ->
  (b = true <-> vacant false r d) -> b = true <-> left_out r d.
Proof.
  intros Hd Ht Ha Hob Hti Hv. rewrite Hv. split; [intros H; eapply left_vacant; [done|done|by right]|].
  intros H. inversion H; subst; try done; rewrite Hd in *; simplify_eq; exfalso; [apply Ha|apply Hob]; by eapply one_fun.
Qed.
Lemma bare_base req r i t b : d_inst false r = Ok i -> one_type i t -> ybase t (bool_decide (n_format i = "date-time")) = Some b -> bare req r i b.
Proof.
  intros Hd Ht Hb. assert (Hcase : (t = "boolean" /\ b = YBool) \/ (t = "number" /\ b = YFloat) \/ (t = "integer" /\ b = YInt) \/ (t = "string" /\ n_format i <> "date-time" /\ b = YString)).
  { unfold ybase in Hb. repeat case_decide; try (simplify_eq; tauto). case_bool_decide; [done|]. simplify_eq. tauto. }
  assert (Hti : ~ is_time i). { intros [H1 H2]. assert (t = "string") as -> by (by eapply one_fun). destruct Hcase as [[??]|[[??]|[[??]|(?&?&?)]]]; done. }
  assert (Hna : t <> "array" /\ t <> "object" /\ t <> "graphql-hydration") by (destruct Hcase as [[-> ?]|[[-> ?]|[[-> ?]|(-> & ? & ?)]]]; done).
  destruct Hna as (Hna & Hno & Hnh).
  destruct Hcase as [[-> ->]|[[-> ->]|[[-> ->]|(-> & Hfm & ->)]]]; (split; [done|]); intros d Hf Hn; inversion Hf; subst; try done;
    try (exfalso; by eapply (one_leaf _ _ _ Hd Ht)); rewrite Hd in *; simplify_eq;
    try (exfalso; match goal with H : one_type ?i ?a, H' : one_type ?i ?b |- _ => by assert (a = b) by (by eapply one_fun) end);
    try (exfalso; match goal with H : is_time _ |- _ => by apply Hti end).
  - match goal with H : fits r (JBool ?x) |- _ => rename x into bb end.
    exists (VBool bb), (JBool bb). split_and!; [done|done|constructor|..].
    + intros Ho. cbn. split.
      * destruct bb; [done|]. intros _. by eapply vacant_false.
      * intros H. inversion H; subst; done.
    + intros -> Ho. eapply left_scalar; [done..|]. cbn. split.
      * destruct bb; [done|]. intros _. by eapply vacant_false.
      * intros H. inversion H; subst; done.
  - match goal with H : o_parse_float W _ = Some ?x |- _ => rename x into ff, H into HH end.
    exists (VFloat ff), (JNum (o_json_num ff)). split_and!; [cbn; by rewrite HH|done|by econstructor|..].
    + intros Ho. cbn. rewrite is_fzero_iff. split.
      * intros [b ->]. by eapply vacant_num.
      * intros H. inversion H; subst; rewrite Hd in *; simplify_eq; [by eexists|]. by assert ("number" = "integer") by (by eapply one_fun).
    + intros -> Ho. eapply left_scalar; [done..|]. cbn. rewrite is_fzero_iff. split.
      * intros [b ->]. by eapply vacant_num.
      * intros H. inversion H; subst; rewrite Hd in *; simplify_eq; [by eexists|]. by assert ("number" = "integer") by (by eapply one_fun).
  - match goal with H : atoi _ = Some ?x |- _ => rename x into zz, H into HH end.
    exists (VInt zz), (JNum (itoa zz)). split_and!; [cbn; by rewrite HH|done|by econstructor|..].
    + intros Ho. cbn. rewrite bool_decide_eq_true. split.
      * intros ->. by eapply vacant_int.
      * intros H. inversion H; subst; rewrite Hd in *; simplify_eq; [|done]. by assert ("number" = "integer") by (by eapply one_fun).
    + intros -> Ho. eapply left_scalar; [done..|]. cbn. rewrite bool_decide_eq_true. split.
      * intros ->. by eapply vacant_int.
      * intros H. inversion H; subst; rewrite Hd in *; simplify_eq; [|done]. by assert ("number" = "integer") by (by eapply one_fun).
  - match goal with H : fits r (JStr ?x) |- _ => rename x into ss end.
    exists (VStr ss), (JStr ss). split_and!; [done|done|by econstructor|..].
    + intros Ho. cbn. rewrite bool_decide_eq_true. split.
      * intros ->. by eapply vacant_str.
      * intros H. inversion H; subst; rewrite Hd in *; simplify_eq; done.
    + intros -> Ho. eapply left_scalar; [done..|]. cbn. rewrite bool_decide_eq_true. split.
      * intros ->. by eapply vacant_str.
      * intros H. inversion H; subst; rewrite Hd in *; simplify_eq; done.
Qed.
Lemma bare_time req r i : d_inst false r = Ok i -> is_time i -> bare req r i YTime.
Proof.
  intros Hd [Ht Hfm]. split; [done|]. intros d Hf Hn. inversion Hf; subst; try done; try (exfalso; by eapply (one_leaf _ _ _ Hd Ht)); rewrite Hd in *; simplify_eq;
    try (exfalso; match goal with H : one_type ?i ?a, H' : one_type ?i ?b |- _ => by assert (a = b) by (by eapply one_fun) end).
  match goal with H : o_parse_time W _ _ = Some ?x |- _ => rename x into tt, H into H1 end.
  exists (VTime tt), (JStr (o_fmt_time W rfc3339_nano tt)). split_and!; [cbn; by rewrite H1|done|by econstructor|..].
  - intros Ho. cbn [is_zero]. rewrite bool_decide_eq_true. destruct tt as [a b c]. cbn [t_sec t_nsec t_off zero_time]. split.
    + intros (-> & -> & ->). eapply vacant_time; [done|done|done|exact H1].
    + intros H. inversion H; subst; rewrite Hd in *; simplify_eq; try done. match goal with H : zero_time = _ |- _ => injection H as <- <- <- end; by split_and!.
  - intros -> Ho. cbn. split; [done|]. intros H. exfalso. inversion H; subst; rewrite Hd in *; simplify_eq. match goal with H : _ \/ ~ is_time _ |- _ => destruct H as [?|H]; [done|by apply H] end.
Qed.

(** ** free-form objects *)
Lemma set_key_in k v l : k ∉ l.*1 -> set_key k v l ≡ₚ (k, v) :: l.
Proof.
  induction l as [|[k' v'] l IH]; [done|]. cbn. intros H. rewrite elem_of_cons in H. rewrite decide_False by (intros E; apply H; by left). destruct (str_le k k'); [done|].
  rewrite IH by (intros E; apply H; by right). apply Permutation_swap.
Qed.
Lemma set_keys_ok kvs : Forall (fun kd : string * json => exists s, kd.2 = JStr s) kvs -> forall l, NoDup (kvs.*1 ++ l.*1) ->
  exists l', set_keys kvs l = Some l' /\ map (fun kv => (kv.1, JStr kv.2)) l' ≡ₚ kvs ++ map (fun kv => (kv.1, JStr kv.2)) l.
Proof.
  induction 1 as [|[k d] kvs [s Hs] _ IH]; intros l Hnd; [by exists l|]. cbn in Hs. subst d. cbn [set_keys]. cbn in Hnd. apply NoDup_cons in Hnd as [Hk Hnd].
  assert (Hkl : k ∉ l.*1) by (intros H; apply Hk; apply elem_of_app; by right).
  assert (Hp := set_key_in k s l Hkl).
  destruct (IH (set_key k s l)) as (l' & -> & Hl').
  - assert (E : (set_key k s l).*1 ≡ₚ k :: l.*1) by (by rewrite Hp). rewrite E. rewrite <- Permutation_middle. apply NoDup_cons. split; [|done]. done.
  - exists l'. split; [done|]. rewrite Hl'. change (map ?f ?x) with (f <$> x). rewrite Hp. cbn. by rewrite Permutation_middle.
Qed.
Lemma bare_map req r i ps : d_inst false r = Ok i -> one_type i "object" -> n_props i = Some ps -> free_form ps -> bare req r i YMap.
Proof.
  intros Hd Ht Hps Hff. split; [done|]. intros d Hf Hn. inversion Hf; subst; try done; try (exfalso; by eapply (one_leaf _ _ _ Hd Ht)); rewrite Hd in *; simplify_eq;
    try (exfalso; match goal with H : one_type ?i ?a, H' : one_type ?i ?b |- _ => by assert (a = b) by (by eapply one_fun) end);
    try (exfalso; match goal with H : is_time _ |- _ => destruct H as [H _]; by assert ("string" = "object") by (by eapply one_fun) end).
  match goal with H : SpecJson.fits_members _ _ _ _ _ |- _ => inversion H; subst end.
  destruct (set_keys_ok kvs) with (l := @nil (string * string)) as (l' & Hl & Hp); [by auto|by rewrite app_nil_r|]. cbn [map] in Hp. rewrite app_nil_r in Hp.
  eexists (VMap (Some l')), _. split_and!; [cbn; by rewrite Hl|done|by eapply out_free; [done..|symmetry]|..].
  - intros Ho. split; [done|]. intros H'. inversion H'; subst; rewrite Hd in *; simplify_eq; done.
  - intros -> Ho. cbn. destruct l' as [|x l'].
    + cbn in Hp. apply Permutation_nil in Hp as ->. split; [|done]. intros _. by eapply left_object.
    + split; [done|]. intros H'. exfalso. inversion H'; subst; rewrite Hd in *; simplify_eq.
      match goal with H : vacant false r _ |- _ => inversion H; subst; rewrite Hd in *; simplify_eq; done end.
Qed.

(** ** structs *)
Definition comes_field (req : bool) (k : string) (r : tree) (fs : list jf) : Prop :=
  forall kvs, (forall d, assocd k kvs = Some d -> fits r d) -> (req = true -> is_Some (assocd k kvs)) ->
    Forall (okf kvs) fs /\ member_out req k r (member k kvs) (flat_map (out kvs) fs) /\
    (forallb (fun f => is_zero (val kvs f)) fs = true <-> (forall d, assocd k kvs = Some d -> ~ graphql_only r -> vacant req r d)).
Definition comes_all (reqs : list string) (ps : list (string * tree)) (fs : list jf) : Prop :=
  forall kvs, NoDup kvs.*1 -> (forall k, k ∈ ps.*1 -> k ∈ reqs -> k ∈ kvs.*1) -> (forall k r d, (k, r) ∈ ps -> (k, d) ∈ kvs -> fits r d) ->
    Forall (okf kvs) fs /\
    (exists ess, Forall2 (fun kr es => member_out (bool_decide (kr.1 ∈ reqs)) kr.1 kr.2 (member kr.1 kvs) es) ps ess /\ List.concat ess = flat_map (out kvs) fs) /\
    (forallb (fun f => is_zero (val kvs f)) fs = true <->
     (forall k r d, (k, r) ∈ ps -> (k, d) ∈ kvs -> ~ graphql_only r -> vacant (bool_decide (k ∈ reqs)) r d)).
Lemma names_in_all : (forall req null r y, shp req null r y -> True) /\ (forall req k r fs, shpf req k r fs -> fs = [] \/ map jf_name fs = [k]) /\
  (forall reqs ps fs, shps reqs ps fs -> map jf_name fs `sublist_of` ps.*1).
Proof.
  apply (shp_mutind flat pointers (fun _ _ _ _ => True) (fun req k r fs => fs = [] \/ map jf_name fs = [k]) (fun reqs ps fs => map jf_name fs `sublist_of` ps.*1)); try done.
  - by right.
  - by right.
  - by left.
  - intros reqs k r ps fs _ _ IH. cbn. by apply sublist_cons.
  - intros reqs k r ps fs fs' _ Hf _ IH. rewrite map_app. destruct Hf as [->| ->]; cbn; [by apply sublist_cons|by apply sublist_skip].
Qed.
Lemma names_in reqs ps fs : shps reqs ps fs -> map jf_name fs `sublist_of` ps.*1.
Proof. apply names_in_all. Qed.
Lemma sub_nodup {A} (l l' : list A) : l `sublist_of` l' -> NoDup l' -> NoDup l.
Proof.
  induction 1 as [|x l l' Hs IH|x l l' Hs IH]; [done|..]; intros [Hx Hnd]%NoDup_cons; [|by apply IH]. apply NoDup_cons. split; [|by apply IH].
  intros Hin. apply Hx. eapply elem_of_submseteq; [exact Hin|by apply sublist_submseteq].
Qed.
Lemma flat_map_perm {A B} (f : A -> list B) l l' : l ≡ₚ l' -> flat_map f l ≡ₚ flat_map f l'.
Proof. induction 1; cbn; [done|by apply Permutation_app_head| |by etrans]. rewrite !app_assoc. apply Permutation_app_tail, Permutation_app_comm. Qed.
Lemma forallb_perm' {A} (f : A -> bool) l l' : l ≡ₚ l' -> forallb f l = forallb f l'.
Proof. induction 1; cbn; [done|by f_equal| |congruence]. by rewrite !andb_assoc, (andb_comm (f y)). Qed.
(** a document read into a struct *)
Lemma struct_out reqs ps fs fs' kvs : shps reqs ps fs -> comes_all reqs ps fs -> fs ≡ₚ fs' -> NoDup ps.*1 -> fits_members W o_fold reqs ps kvs ->
  exists es, decode (YStruct fs') (zero (YStruct fs')) (JObj kvs) = Some (VStruct (map (val kvs) fs')) /\
    marshal (YStruct fs') (VStruct (map (val kvs) fs')) = Some (JObj es) /\ members_out reqs ps kvs es /\
    (is_zero (VStruct (map (val kvs) fs')) = true <->
     (forall k r d, (k, r) ∈ ps -> (k, d) ∈ kvs -> ~ graphql_only r -> vacant (bool_decide (k ∈ reqs)) r d)).
Proof.
  intros Hs Hc Hp Hnd Hf. inversion Hf as [? ? ? H1 H2 H3 H4]; subst. destruct (Hc kvs H1 H2 H3) as (Hok & (ess & Hm & Hess) & Hz).
  assert (Hsub := names_in _ _ _ Hs). assert (Hpn : map jf_name fs ≡ₚ map jf_name fs') by (by apply Permutation_map).
  assert (Hin : forall f, f ∈ fs' -> jf_name f ∈ ps.*1).
  { intros f Hff. eapply elem_of_submseteq; [|by apply sublist_submseteq]. rewrite Hpn. apply elem_of_list_In, in_map_iff. exists f. split; [done|by apply elem_of_list_In]. }
  assert (Hok' : Forall (okf kvs) fs') by (by rewrite <- Hp).
  exists (flat_map (out kvs) fs'). split_and!.
  - apply (struct_decode W o_json_num); [|done|done|].
    + rewrite <- Hpn. by eapply sub_nodup.
    + intros f k Hff Hk E. by apply H4; [apply Hin| |].
  - by apply struct_marshal.
  - econstructor; [exact Hm|]. rewrite Hess. symmetry. by apply flat_map_perm.
  - rewrite <- Hz. cbn [is_zero]. rewrite (forallb_perm' _ _ _ Hp). clear. induction fs' as [|f fs IH]; [done|]. cbn. rewrite !andb_true_iff. by rewrite IH.
Qed.
Lemma bare_object req r i ps fs fs' : d_inst false r = Ok i -> one_type i "object" -> n_props i = Some ps -> ~ free_form ps ->
  shps (n_required i) ps fs -> comes_all (n_required i) ps fs -> fs ≡ₚ fs' -> NoDup ps.*1 -> bare req r i (YStruct fs').
Proof.
  intros Hd Ht Hps Hff Hs Hc Hp Hnd. split; [done|]. intros d Hf Hn.
  inversion Hf; subst; try done; try (exfalso; by eapply (one_leaf _ _ _ Hd Ht)); rewrite Hd in *; simplify_eq;
    try (exfalso; match goal with H : one_type ?i ?a, H' : one_type ?i ?b |- _ => by assert (a = b) by (by eapply one_fun) end);
    try (exfalso; match goal with H : is_time _ |- _ => destruct H as [H _]; by assert ("string" = "object") by (by eapply one_fun) end).
  match goal with H : d_inst false r = Ok ?j |- _ => rename j into ii end.
  destruct (struct_out _ _ _ _ kvs Hs Hc Hp Hnd) as (es & Hv & He & Ho & Hz); [done|].
  assert (Hvac : forall q, ~ optional q ii -> is_zero (VStruct (map (val kvs) fs')) = true <-> vacant q r (JObj kvs)).
  { intros q Hq. rewrite Hz. split; [intros H'; by eapply vacant_obj|]. intros H'. inversion H'; subst; rewrite Hd in *; simplify_eq. done. }
  exists (VStruct (map (val kvs) fs')), (JObj es). split_and!; [done|done|by eapply out_obj|by apply Hvac|].
  intros -> Hq. unfold omits. cbn [is_ystruct]. rewrite (Hvac false Hq). split; [intros H'; eapply left_vacant; [done|done|]; right; intros [Hs' _]; by assert ("string" = "object") by (by eapply one_fun)|].
  intros H'. inversion H'; subst; rewrite Hd in *; simplify_eq; done.
Qed.
(** ** fields *)
Lemma out_one kvs k oe oz y v e : val kvs (JF k oe oz y) = v -> marshal y v = Some e ->
  flat_map (out kvs) [JF k oe oz y] = if (oe && is_empty v) || (oz && is_zero v) then [] else [(k, e)].
Proof. intros <- He. cbn. unfold out, omitted. cbn [jf_name jf_type]. rewrite He. by destruct (_ || _). Qed.
Lemma shp_type req null r y i : shp req null r y -> d_inst false r = Ok i -> exists t, one_type i t /\ t <> "array" /\ t <> "graphql-hydration".
Proof.
  intros H Hd. inversion H; subst; rewrite Hd in *; simplify_eq.
  - exists t. split; [done|]. match goal with H : ybase _ _ = _ |- _ => unfold ybase in H end. repeat case_decide; subst; done.
  - exists "string". by destruct H1.
  - by exists "object".
  - by exists "object".
Qed.
Lemma shp_ptr req r y i : shp req (nullable i) r y -> d_inst false r = Ok i -> is_yptr y = true <-> optional req i.
Proof.
  intros H Hd. unfold SpecJson.optional, is_time. inversion H; subst; rewrite Hd in *; simplify_eq; match goal with H : d_inst false r = Ok ?j |- _ => rename j into ii end.
  - match goal with H : ybase _ _ = _ |- _ => unfold ybase in H end.
    assert (Hy : is_yptr (yptr (nullable ii) b) = nullable ii) by (destruct (nullable ii); [done|]; repeat case_decide; simplify_eq; try done; by case_bool_decide; simplify_eq). rewrite Hy.
    split; [by left|]. intros [?|(_ & _ & [[Hs Hf]|[_ Hs]])]; [done|..]; exfalso.
    + assert (t = "string") as -> by (by eapply one_fun). match goal with H : context [bool_decide _] |- _ => rewrite bool_decide_eq_true_2 in H by done end. by repeat case_decide.
    + assert (t = "object") as -> by (by eapply one_fun). by repeat case_decide.
  - assert (Hy : is_yptr (yptr (pointers && negb req || nullable ii) YTime) = pointers && negb req || nullable ii) by (by destruct (pointers && negb req || nullable ii)). rewrite Hy.
    match goal with H : is_time _ |- _ => destruct H as [Hs Hf] end. rewrite orb_true_iff, andb_true_iff, negb_true_iff. split; [intros [[? ?]|?]; [right; split_and!; [done..|by left]|by left]|]. intros [?|(? & ? & _)]; [by right|by left].
  - assert (Hy : forall b, is_yptr (yptr b (YStruct fs')) = b) by (by intros []). rewrite Hy. destruct flat.
    + rewrite orb_true_iff, andb_true_iff, negb_true_iff. split; [intros [[? ?]|?]; [right; split_and!; [done..|by right]|by left]|]. intros [?|(? & ? & _)]; [by right|by left].
    + split; [by left|]. intros [?|(_ & _ & [[Hs _]|[? _]])]; [done| |done]. by assert ("string" = "object") by (by eapply one_fun).
  - assert (Hy : forall b, is_yptr (yptr b YMap) = b) by (by intros []). rewrite Hy. split; [by left|]. intros [?|(? & ? & [[Hs _]|[? _]])]; [done| |].
    + by assert ("string" = "object") by (by eapply one_fun).
    + subst. exfalso. match goal with H : true = true -> _ |- _ => by specialize (H eq_refl) end.
Qed.
End out.

(** Field types, union types and determinism of generated structs. *)
From stdpp Require Import strings list gmap.
From Coq Require Import Ascii ZArith Lia.
From Verif Require Import GoStr GoStrL Val Conv Schema Inst Load SpecPath PathL SpecWalk WalkL SpecLoad FlatL SpecGen Gen GenL SortL GenP GenM GenT.

(** ** lines of a file *)
Lemma declares_in title rename pointers reqs ps ds : declares_all title rename pointers reqs ps ds ->
  forall k r i, (k, r) ∈ ps -> d_inst false r = Ok i -> ~ hydrated i -> exists d, d ∈ ds /\ declares title rename pointers (bool_decide (k ∈ reqs)) k r d.
Proof.
  induction 1 as [|reqs k r i ps ds Hi [Hh _] Hk H IH|reqs k r d ps ds Hd H IH]; intros k' r' i' Hin Hi' Hh'.
  - by apply elem_of_nil in Hin.
  - apply elem_of_cons in Hin as [[= -> ->]|Hin]; [|by eapply IH]. congruence.
  - apply elem_of_cons in Hin as [[= -> ->]|Hin]; [exists d; split; [left|done]|].
    destruct (IH _ _ _ Hin Hi' Hh') as (d' & Hd' & Hdd). exists d'. split; [by right|done].
Qed.
Lemma holds_not_hydrated title rename pointers req null r ty : holds title rename pointers req null r ty -> exists i, d_inst false r = Ok i /\ "graphql-hydration" ∉ types i.
Proof.
  destruct 1 as [req null r i t b Hi Ht Hb|req null r i Hi Ht Hf|req null r i ps ds Hi Ht _ _ _ _]; exists i; (split; [done|]); rewrite (one_type_in i _ _ Ht) by done; first [done|intros <-; done].
Qed.
Lemma declares_each title rename pointers reqs ps ds : declares_all title rename pointers reqs ps ds -> map d_json ds = omap own_name ps.
Proof.
  induction 1 as [|reqs k r i ps ds Hi [Hh _] Hk H IH|reqs k r d ps ds Hd H IH]; [done|..]; cbn [omap list_omap]; unfold own_name at 1; cbn [fst snd].
  - rewrite Hi, decide_True by done. exact IH.
  - assert (Hx : d_json d = k /\ exists i, d_inst false r = Ok i /\ "graphql-hydration" ∉ types i).
    { destruct Hd as [req k r i ty Hi Hk Hh|req k r i x ty Hi Ht Hk Hx Hh|req k r i x j Hi Ht Hk Hx Hj Hh]; (split; [done|]).
      - destruct (holds_not_hydrated _ _ _ _ _ _ _ Hh) as (i' & Hi' & Hn). by exists i'.
      - exists i. split; [done|]. by rewrite (one_type_in i _ _ Ht).
      - exists i. split; [done|]. by rewrite (one_type_in i _ _ Ht). }
    destruct Hx as (Hj & i & Hi & Hn). rewrite Hi, decide_False by done. cbn. by rewrite Hj, IH.
Qed.
Lemma join_in l s : s ∈ l -> exists a b, join "" l = a +:+ s +:+ b.
Proof.
  induction l as [|x l IH]; intros Hin; [by apply elem_of_nil in Hin|]. destruct l as [|y l].
  - apply elem_of_list_singleton in Hin as ->. exists "", "". by rewrite sapp_nil_l, sapp_nil_r.
  - rewrite join_cons by done. apply elem_of_cons in Hin as [->|Hin].
    + exists "". eexists. by rewrite sapp_nil_l.
    + destruct (IH Hin) as (a & b & E). rewrite E. exists (x +:+ a), b. by rewrite sapp_nil_l, app_assoc_s.
Qed.
Lemma show_file_in dt pkg name embeds ds d : d ∈ ds -> exists a b, show_file dt pkg name embeds ds = a +:+ show dt tabulator d +:+ b.
Proof.
  intros Hin. unfold show_file, show_struct. rewrite decide_False by (by destruct ds; [apply elem_of_nil in Hin|]).
  destruct (join_in (map (show dt tabulator) ds) (show dt tabulator d)) as (a & b & E). { apply elem_of_list_In, in_map, elem_of_list_In, Hin. }
  assert (Hl : forall x t, (exists a b, t = a +:+ show dt tabulator d +:+ b) -> exists a b, x +:+ t = a +:+ show dt tabulator d +:+ b).
  { intros x t (a' & b' & ->). exists (x +:+ a'), b'. by rewrite app_assoc_s. }
  do 15 apply Hl. exists a, (b +:+ "}"). rewrite E. by rewrite <- !app_assoc_s.
Qed.

(** the type text of a property that is neither an object nor an array *)
Lemma show_ends dt prefix desc go json req ty : flat ty \/ (exists b, ty = TPtr b /\ flat b) \/ (exists b, ty = TSlice b /\ (flat b \/ exists b', b = TPtr b' /\ flat b')) ->
  show dt prefix (GDecl desc go json req (Some ty)) = comment_text dt desc +:+ prefix +:+ go +:+ tabulator +:+ type_text ty +:+ tabulator +:+ tag_text dt desc json req ty.
Proof. intros [H|[(b & -> & H)|(b & -> & [H|(b' & -> & H)])]]; [by destruct ty|by destruct b..|by destruct b']. Qed.
Lemma scalar_line title rename pointers req k r d i t go : declares title rename pointers req k r d -> d_inst false r = Ok i -> one_type i t ->
  go_scalar t (n_format i) = Some go -> forall dt prefix, exists a b, show dt prefix d =
    a +:+ prefix +:+ title (default k (rename k)) +:+ tabulator +:+
    (if nullable i || (pointers && negb req && bool_decide (go = "time.Time")) then "*" else "") +:+ go +:+ tabulator +:+
    "`json:" +:+ in_quotes (k +:+ (if req then "" else ",omitempty")) +:+ b.
Proof.
  intros Hd Hi Ht Hg dt prefix. assert (Hta : t <> "array" /\ t <> "object") by (split; intros ->; done).
  destruct Hd as [req k r i' ty Hi' Hk Hh|req k r i' x ty Hi' Ht'|req k r i' x j Hi' Ht']; rewrite Hi in Hi'; injection Hi' as <-.
  2,3: destruct Ht as [Ht _], Ht' as [Ht' _]; rewrite Ht in Ht'; injection Ht' as ->; naive_solver.
  unfold declare. assert (Hty : exists b, ty = ptr (nullable i || (pointers && negb req && bool_decide (go = "time.Time"))) b /\ flat b /\ type_text b = go).
  { inversion Hh as [? ? ? i' t' b Hi' Ht' Hb|? ? ? i' Hi' Ht' Hf|? ? ? i' ps ds Hi' Ht' Hps Hda Hnd Hndp]; subst; rewrite Hi in Hi'; injection Hi' as <-.
    - assert (t' = t) as -> by (destruct Ht as [Ht _], Ht' as [Ht' _]; rewrite Ht in Ht'; by injection Ht').
      exists b. unfold base_type in Hb. unfold go_scalar in Hg.
      assert (Hx : flat b /\ type_text b = go /\ go <> "time.Time").
      { destruct (decide (t = "boolean")); [by injection Hb as <-; injection Hg as <-|]. destruct (decide (t = "number")); [by injection Hb as <-; injection Hg as <-|].
        destruct (decide (t = "integer")); [by injection Hb as <-; injection Hg as <-|]. destruct (decide (t = "string")); [|done].
        destruct (decide (n_format i = "date-time")) as [E|N]; [by rewrite bool_decide_eq_true_2 in Hb|]. rewrite bool_decide_eq_false_2 in Hb by done.
        by injection Hb as <-; injection Hg as <-. }
      destruct Hx as (H1 & H2 & H3). rewrite bool_decide_eq_false_2 by done. by rewrite andb_false_r, orb_false_r.
    - assert (t = "string") as -> by (destruct Ht as [Ht _], Ht' as [Ht' _]; rewrite Ht in Ht'; by injection Ht').
      unfold go_scalar in Hg. cbn in Hg. destruct (decide (n_format i = "date-time")) as [_|N]; [|done]. injection Hg as <-. exists TTime. split; [|done].
      rewrite bool_decide_eq_true_2 by done. rewrite andb_true_r. by rewrite orb_comm.
    - destruct Ht as [Ht _], Ht' as [Ht' _]. rewrite Ht in Ht'. injection Ht' as ->. naive_solver. }
  destruct Hty as (b & -> & Hb & <-). rewrite show_ends.
  2: { destruct (nullable i || _); [right; left; eauto|by left]. }
  unfold tag_text, json_tag. exists (comment_text dt (n_desc i)).
  eexists. f_equal. f_equal. f_equal. f_equal.
  assert (Htt : forall x, type_text (ptr x b) = (if x then "*" else "") +:+ type_text b) by (by intros []).
  rewrite Htt, <- app_assoc_s. f_equal. f_equal. f_equal.
  assert (Ho : forall x, (match ptr x b with TStruct _ | TNamed _ => ",omitzero" | _ => ",omitempty" end) = ",omitempty") by (intros []; by destruct b).
  rewrite Ho. rewrite <- !app_assoc_s. reflexivity.
Qed.

Lemma field_line W A ord schema name embeds es ds k r i t go : a_noNested A = false -> map_order ord -> n_items schema = None ->
  NoDup (default [] (n_props schema)).*1 ->
  declares_all (exported W) (a_fieldNames A) (a_pointers A) (n_required schema) (default [] (n_props schema)) ds -> NoDup (map d_go ds) ->
  embeds_as (exported W) (a_structNames A) (a_embed A) (n_allOf schema) es ->
  (k, r) ∈ default [] (n_props schema) -> d_inst false r = Ok i -> one_type i t -> go_scalar t (n_format i) = Some go ->
  exists g, new_file W A ord schema name embeds = Ok g /\ forall pkg ord', key_order ord' -> exists a b, file_text W A ord' pkg g =
    a +:+ tabulator +:+ exported W (default k (a_fieldNames A k)) +:+ tabulator +:+
    (if nullable i || (a_pointers A && bool_decide (k ∉ n_required schema) && bool_decide (go = "time.Time")) then "*" else "") +:+ go +:+ tabulator +:+
    "`json:" +:+ in_quotes (k +:+ (if decide (k ∈ n_required schema) then "" else ",omitempty")) +:+ b.
Proof.
  intros Hn Hord Hit Hnd Hd Hndd Hes Hin Hi Ht Hg.
  destruct (gen_file W A ord schema name embeds es ds Hn Hord Hit Hnd Hd Hndd Hes) as (g & Hgf & Htx). exists g. split; [done|]. intros pkg ord' Ho.
  rewrite (Htx pkg ord' Ho).
  assert (Hh : ~ hydrated i). { unfold hydrated. rewrite (one_type_in i _ _ Ht) by done. intros <-. done. }
  destruct (declares_in _ _ _ _ _ _ Hd k r i Hin Hi Hh) as (d & Hdd & Hdk).
  destruct (scalar_line _ _ _ _ _ _ _ i t go Hdk Hi Ht Hg (a_descTag A) tabulator) as (a & b & E).
  destruct (show_file_in (a_descTag A) pkg (exported W name) (embeds ++ es) (by_name ds) d) as (a' & b' & E'); [by rewrite by_name_perm|].
  rewrite E', E. exists (a' +:+ a), (b +:+ b'). rewrite <- !app_assoc_s.
  assert (Hb : negb (bool_decide (k ∈ n_required schema)) = bool_decide (k ∉ n_required schema)).
  { destruct (decide (k ∈ n_required schema)) as [Hk|Hk]; [rewrite bool_decide_eq_true_2 by done; by rewrite bool_decide_eq_false_2 by (intros C; by apply C)|rewrite bool_decide_eq_false_2 by done; by rewrite bool_decide_eq_true_2]. }
  rewrite Hb. destruct (decide (k ∈ n_required schema)) as [Hk|Hk].
  - by rewrite (bool_decide_eq_true_2 (k ∈ n_required schema)).
  - by rewrite (bool_decide_eq_false_2 (k ∈ n_required schema)).
Qed.
(** the order does not matter *)
Lemma deterministic W A ord1 ord2 schema name embeds es ds : a_noNested A = false -> map_order ord1 -> map_order ord2 -> n_items schema = None ->
  NoDup (default [] (n_props schema)).*1 ->
  declares_all (exported W) (a_fieldNames A) (a_pointers A) (n_required schema) (default [] (n_props schema)) ds -> NoDup (map d_go ds) ->
  embeds_as (exported W) (a_structNames A) (a_embed A) (n_allOf schema) es ->
  exists g1 g2, new_file W A ord1 schema name embeds = Ok g1 /\ new_file W A ord2 schema name embeds = Ok g2 /\
    forall pkg ord3 ord4, key_order ord3 -> key_order ord4 -> file_text W A ord3 pkg g1 = file_text W A ord4 pkg g2.
Proof.
  intros Hn Ho1 Ho2 Hit Hnd Hd Hndd Hes.
  destruct (gen_file W A ord1 schema name embeds es ds Hn Ho1 Hit Hnd Hd Hndd Hes) as (g1 & H1 & Ht1).
  destruct (gen_file W A ord2 schema name embeds es ds Hn Ho2 Hit Hnd Hd Hndd Hes) as (g2 & H2 & Ht2).
  exists g1, g2. split; [done|]. split; [done|]. intros pkg ord3 ord4 H3 H4. by rewrite Ht1, Ht2.
Qed.

(** ** union types *)
Section gen.
Context (W : oracles) (A : args).
Lemma bad_single l x y l' : filter (fun t => t <> "null") l = x :: y :: l' -> x <> "" -> single_type l "" = Err.
Proof.
  intros H Hx. induction l as [|z l IH]; [done|]. rewrite filter_cons in H. cbn. destruct (decide (z = "null")) as [->|N].
  - apply IH. by rewrite decide_False in H by (intros C; by apply C).
  - rewrite decide_True in H by done. injection H as -> H. rewrite decide_False by (intros C; by apply C). clear IH.
    induction l as [|z l IH]; [done|]. rewrite filter_cons in H. cbn. destruct (decide (z = "null")) as [->|N'].
    + apply IH. by rewrite decide_False in H by (intros C; by apply C).
    + by rewrite decide_True.
Qed.
Lemma bad_add i x y l' tree made fs : filter (fun t => t <> "null") (types i) = x :: y :: l' -> x <> "" -> ~ hydrated i -> tree <> [] ->
  ~ exists fs', add_field W (a_fieldNames A) made fs tree i = Ok fs'.
Proof.
  intros Ht Hx Hh. assert (Hh' : has_type "graphql-hydration" i = false) by (by apply bool_decide_eq_false_2).
  revert made fs. induction tree as [|n tree IH]; intros made fs Hne [fs' H]; [done|]. cbn [add_field] in H. rewrite Hh' in H.
  destruct tree as [|n' tree].
  - unfold add_leaf in H. change (types_of i) with (types i) in H. by rewrite (bad_single _ _ _ _ Ht Hx) in H.
  - destruct (assocd n fs) as [f|].
    + destruct (add_field W (a_fieldNames A) (f_made f) (f_fields f) (n' :: tree) i) as [fs1| |] eqn:E; [|done..]. by eapply IH; [|eexists].
    + destruct made; [|done]. destruct (add_field W (a_fieldNames A) true [] (n' :: tree) i) as [fs1| |] eqn:E; [|done..]. by eapply IH; [|eexists].
Qed.
Lemma bad_walk i x y l' p g : filter (fun t => t <> "null") (types i) = x :: y :: l' -> x <> "" -> ~ hydrated i -> split_json_path p <> [] ->
  (a_noNested A = false \/ "object" ∉ types i) -> forall g', walk_func W A p i g <> (g', Ok tt).
Proof.
  intros Ht Hx Hh Hp HA g' H. unfold walk_func in H. destruct (a_noNested A); cbn [negb] in H.
  - destruct HA as [?|Ho]; [done|]. destruct (rev (split_json_path p)) as [|n ns]; [done|].
    assert (Hoo : has_type "object" i = false) by (by apply bool_decide_eq_false_2). rewrite Hoo in H.
    destruct (add_field W (a_fieldNames A) true _ [n] i) as [fs| |] eqn:E; [|done..]. by eapply (bad_add i x y l' [n] true); [..|eexists].
  - destruct (add_field W (a_fieldNames A) true _ (split_json_path p) i) as [fs| |] eqn:E; [|done..]. by eapply (bad_add i x y l' (split_json_path p) true); [..|eexists].
Qed.
Lemma calls_each {X S} (fn : string -> X -> S -> S * res unit) vs final s s' : calls fn vs final s = (s', Ok tt) ->
  final = Ok tt /\ forall σ x, (σ, x) ∈ vs -> exists s1 s2, fn (path_of σ) x s1 = (s2, Ok tt).
Proof.
  revert s. induction vs as [|[σ x] vs IH]; intros s H.
  - injection H as <- ->. split; [done|]. intros ? ? []%elem_of_nil.
  - cbn in H. destruct (fn (path_of σ) x s) as [s1 [[]| |]] eqn:E; [|done..]. destruct (IH _ H) as [Hf Hv]. split; [done|].
    intros σ' x' [[= -> ->]|Hin]%elem_of_cons; [by exists s, s1|by apply Hv].
Qed.
Lemma app_one a b : a +:+ b = "$" -> a <> "" -> a = "$".
Proof. destruct a as [|c [|c' a]]; intros H Hn; [done| |done]. cbn in H. by injection H as -> _. Qed.
Lemma split_go_head c z cur : exists z' rest, split_go (chr c) z 0 cur = (cur +:+ z') :: rest.
Proof.
  revert cur. induction z as [|a z IH]; intros cur; [exists "", []; by rewrite sapp_nil_r|]. cbn [split_go]. destruct (has_prefix (chr c) (String a z)).
  - exists "". eexists. by rewrite sapp_nil_r.
  - destruct (IH (cur +:+ String a "")) as (z' & rest & E). exists (String a z'), rest. rewrite E. by rewrite <- app_assoc_s.
Qed.
Lemma split_head c k z : free_of c k = true -> exists z' rest, split (k +:+ z) (chr c) = (k +:+ z') :: rest.
Proof.
  intros Hk. unfold split. rewrite decide_False by done.
  cut (forall cur, exists z' rest, split_go (chr c) (k +:+ z) 0 cur = (cur +:+ k +:+ z') :: rest). { intros H. apply (H ""). }
  induction k as [|a k IH]; intros cur; [apply split_go_head|]. cbn in Hk. apply andb_true_iff in Hk as [Ha Hk].
  rewrite sapp_cons. cbn [split_go]. rewrite has_prefix_chr. destruct (bool_decide (c = a)) eqn:E.
  - apply bool_decide_eq_true_1 in E as ->. by rewrite bool_decide_eq_true_2 in Ha.
  - destruct (IH Hk (cur +:+ String a "")) as (z' & rest & E'). exists z', rest. rewrite E'. by rewrite <- app_assoc_s.
Qed.
Lemma split_top k τ : field_name k -> split_json_path (path_of (Nm k :: τ)) <> [].
Proof.
  intros [(Hd & Hb & Hne) Hk] H. unfold split_json_path in H. apply map_eq_nil in H.
  assert (E : path_of (Nm k :: τ) = "$" +:+ String "." (k +:+ segs τ)) by done. rewrite E in H. change "." with (chr ".") in H.
  rewrite split_chr_app in H by done. rewrite filter_cons_False in H by (intros C; by apply C).
  destruct (split_head "." k (segs τ) (free_plain _ "." Hd)) as (z & rest & Es). rewrite Es in H.
  rewrite filter_cons_True in H; [done|]. intros C. apply Hk. by eapply app_one.
Qed.
Lemma union_rejected ord schema name embeds k τ r i x y l' : map_order ord -> named (default [] (n_props schema)) ->
  (forall σ r, swinst (default [] (n_props schema)) (n_items schema) σ r -> props_named r) ->
  swinst (default [] (n_props schema)) (n_items schema) (Nm k :: τ) r -> field_name k -> d_inst false r = Ok i -> ~ hydrated i ->
  filter (fun t => t <> "null") (types i) = x :: y :: l' -> x <> "" -> (a_noNested A = false \/ "object" ∉ types i) ->
  forall g, new_file W A ord schema name embeds <> Ok g.
Proof.
  intros Hord Hnm Hps Hin Hk Hi Hh Ht Hx HA g H. unfold new_file in H.
  destruct (walk_visits ord (n_props schema) (n_items schema) Hord Hnm Hps) as (vs & is & final & He & H2 & _ & Hall & _ & _ & _ & _).
  rewrite He in H. set (root := GStruct _ _ _ _) in H. destruct (calls (walk_func W A) is final (GoFile root [])) as [g' [[]| |]] eqn:E; [|done..].
  destruct (calls_each _ _ _ _ _ E) as [-> Hc]. specialize (Hall eq_refl _ _ Hin).
  assert (Hi' : (Nm k :: τ, i) ∈ is).
  { apply elem_of_list_lookup in Hall as [n Hn]. destruct (Forall2_lookup_l _ _ _ _ _ H2 Hn) as ([σ' i'] & Hn' & Ha & Hb). cbn in Ha, Hb.
    rewrite Hi in Hb. injection Hb as <-. subst σ'. by eapply elem_of_list_lookup_2. }
  destruct (Hc _ _ Hi') as (s1 & s2 & Hs). by eapply (bad_walk i x y l'); [..|exact Hs]; [done..|by apply split_top|].
Qed.
End gen.

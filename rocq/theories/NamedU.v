(** Objects, lines and determinism of files whose structs are not nested. *)
From stdpp Require Import strings list gmap sorting.
From Coq Require Import Ascii ZArith Lia.
From Verif Require Import GoStr GoStrL Val Conv Schema Inst Load SpecConv ConvT SpecPath PathL SpecSchema SpecWalk WalkL SpecLoad FlatL SpecGen SpecNamed Gen GenL SortL GenP GenM GenT GenU KeyedL NamedL NamedM NamedT NamedF NamedK.

Lemma ndeclares_in title rename pointers P reqs ps ds Ss : ndeclares_all title rename pointers P reqs ps ds Ss ->
  forall k r i, (k, r) ∈ ps -> d_inst false r = Ok i -> ~ hydrated i -> exists d S', d ∈ ds /\ ndeclares title rename pointers P (bool_decide (k ∈ reqs)) k r d S'.
Proof.
  induction 1 as [|P reqs k r i ps ds Ss Hi [Hh _] Hk H IH|P reqs k r d ps ds Ss Ss' Hd H IH]; intros k' r' i' Hin Hi' Hh'.
  - by apply elem_of_nil in Hin.
  - apply elem_of_cons in Hin as [[= -> ->]|Hin]; [|by eapply IH]. congruence.
  - apply elem_of_cons in Hin as [[= -> ->]|Hin]; [exists d, Ss; split; [left|done]|].
    destruct (IH _ _ _ Hin Hi' Hh') as (d' & S' & Hd' & Hdd). exists d', S'. split; [by right|done].
Qed.
Lemma nholds_not_hydrated title rename pointers P k req null r ty Ss : nholds title rename pointers P k req null r ty Ss -> exists i, d_inst false r = Ok i /\ "graphql-hydration" ∉ types i.
Proof.
  destruct 1 as [? ? ? ? r i t b Hi Ht Hb|? ? ? ? r i Hi Ht Hf|? ? ? ? r i ps d ds Ss Hi Ht _ _ _ _|? ? ? ? r i ps Ss Hi Ht _ _ _ _]; exists i; (split; [done|]);
    rewrite (one_type_in i _ _ Ht) by done; first [done|intros <-; done].
Qed.
Lemma ndeclares_each title rename pointers P reqs ps ds Ss : ndeclares_all title rename pointers P reqs ps ds Ss -> map d_json ds = omap own_name ps.
Proof.
  induction 1 as [|P reqs k r i ps ds Ss Hi [Hh _] Hk H IH|P reqs k r d ps ds Ss Ss' Hd H IH]; [done|..]; cbn [omap list_omap]; unfold own_name at 1; cbn [fst snd].
  - rewrite Hi, decide_True by done. exact IH.
  - assert (Hx : d_json d = k /\ exists i, d_inst false r = Ok i /\ "graphql-hydration" ∉ types i).
    { destruct Hd as [P req k r i ty Ss Hi Hk Hh|P req k r i x ty Ss Hi Ht Hk Hx Hh|P req k r i x j Hi Ht Hk Hx Hj Hh]; (split; [done|]).
      - destruct (nholds_not_hydrated _ _ _ _ _ _ _ _ _ _ Hh) as (i' & Hi' & Hn). by exists i'.
      - exists i. split; [done|]. by rewrite (one_type_in i _ _ Ht).
      - exists i. split; [done|]. by rewrite (one_type_in i _ _ Ht). }
    destruct Hx as (Hj & i & Hi & Hn). rewrite Hi, decide_False by done. cbn. by rewrite Hj, IH.
Qed.
Lemma NoDup_map_inj {B C} (f : B -> C) l : NoDup l -> (forall x y, x ∈ l -> y ∈ l -> f x = f y -> x = y) -> NoDup (map f l).
Proof.
  induction 1 as [|x l Hx Hl IH]; intros Hf; cbn; constructor.
  - intros (y & E & Hy)%elem_of_list_fmap. apply Hx. rewrite (Hf x y); [done|left|by right|done].
  - apply IH. intros y z Hy Hz. apply Hf; by right.
Qed.

Section file.
Context (W : oracles) (A : args) (root_name : string).
Notation rename := (a_fieldNames A).
Notation title := (exported W).
Notation pointers := (a_pointers A).
Notation K0 := (title root_name).

(** the condition that names made from different ways are different *)
Lemma own_names reqs props ds Ss : ndeclares_all title rename pointers K0 reqs props ds Ss -> NoDup props.*1 -> NoDup (K0 :: Ss.*1) ->
  (forall σ τ, object_in props σ -> object_in props τ -> type_name title K0 σ = type_name title K0 τ -> σ = τ) /\
  (forall σ, object_in props σ -> type_name title K0 σ <> K0).
Proof.
  intros Hd Hnd Hk. destruct (structs_objects _ _ _ _ _ _ _ _ Hd Hnd) as (l & Hl & Hndl & Hin). rewrite Hl in Hk. apply NoDup_cons in Hk as [H0 Hk].
  setoid_rewrite <- Hin. split.
  - clear -Hk. induction l as [|x l IH]; intros σ τ Hs Ht E; [by apply elem_of_nil in Hs|]. cbn in Hk. apply NoDup_cons in Hk as [Hx Hk].
    apply elem_of_cons in Hs as [->|Hs]; apply elem_of_cons in Ht as [->|Ht]; [done|..|by apply IH]; destruct Hx; rewrite ?E, <- ?E; apply elem_of_list_fmap; eauto.
  - intros σ Hs E. apply H0. apply elem_of_list_fmap. by exists σ.
Qed.
Lemma objects_file ord schema embeds es ds Ss : a_noNested A = true -> map_order ord -> n_items schema = None ->
  NoDup (default [] (n_props schema)).*1 -> ndeclares_all title rename pointers K0 (n_required schema) (default [] (n_props schema)) ds Ss -> NoDup (map d_go ds) ->
  capital K0 ->
  (forall σ τ, object_in (default [] (n_props schema)) σ -> object_in (default [] (n_props schema)) τ -> type_name title K0 σ = type_name title K0 τ -> σ = τ) ->
  (forall σ, object_in (default [] (n_props schema)) σ -> type_name title K0 σ <> K0) ->
  embeds_as title (a_structNames A) (a_embed A) (n_allOf schema) es ->
  exists g, new_file W A ord schema root_name embeds = Ok g /\
    forall pkg ord', key_order ord' -> file_text W A ord' pkg g = show_structs title (a_descTag A) pkg root_name (embeds ++ es) (by_name ds) (structs_by_name Ss).
Proof.
  intros Hn Hord Hit Hnd Hd Hndd HK Hinj Hne Hes. apply named_file; try done.
  destruct (structs_objects _ _ _ _ _ _ _ _ Hd Hnd) as (l & Hl & Hndl & Hin). rewrite Hl. constructor.
  - intros (σ & E & Hσ)%elem_of_list_fmap. eapply (Hne σ); [by apply Hin|done].
  - apply NoDup_map_inj; [done|]. intros σ τ Hs Ht. apply Hinj; by apply Hin.
Qed.
Lemma show_structs_in dt pkg name embeds ds Ss d : d ∈ ds -> exists a b, show_structs title dt pkg name embeds ds Ss = a +:+ show dt tabulator d +:+ b.
Proof.
  intros Hin. unfold show_structs, show_struct. rewrite (decide_False (P := length ds = 0)) by (by destruct ds; [apply elem_of_nil in Hin|]).
  destruct (join_in (map (show dt tabulator) ds) (show dt tabulator d)) as (a & b & E). { apply elem_of_list_In, in_map, elem_of_list_In, Hin. }
  assert (Hl : forall x t, (exists a b, t = a +:+ show dt tabulator d +:+ b) -> exists a b, x +:+ t = a +:+ show dt tabulator d +:+ b).
  { intros x t (a' & b' & ->). exists (x +:+ a'), b'. by rewrite app_assoc_s. }
  do 8 apply Hl. rewrite <- !app_assoc_s. do 7 apply Hl. rewrite E. exists a. eexists. rewrite <- !app_assoc_s. reflexivity.
Qed.
Lemma object_show P req k r d S' i ps : ndeclares title rename pointers P req k r d S' -> d_inst false r = Ok i -> one_type i "object" -> n_props i = Some ps -> omap own_name ps <> [] ->
  forall dt prefix, exists a b, show dt prefix d = a +:+ prefix +:+ title (default k (rename k)) +:+ tabulator +:+
    (if nullable i || (pointers && negb req) then "*" else "") +:+ P +:+ title k +:+ tabulator +:+
    "`json:" +:+ in_quotes (k +:+ (if req then "" else if nullable i || pointers then ",omitempty" else ",omitzero")) +:+ b.
Proof.
  intros Hd Hi Ht Hps Hne dt prefix.
  destruct Hd as [P req k r i' ty Ss Hi' Hk Hh|P req k r i' x ty Ss Hi' Ht'|P req k r i' x j Hi' Ht']; rewrite Hi in Hi'; injection Hi' as <-.
  2,3: destruct Ht as [Ht _], Ht' as [Ht' _]; rewrite Ht in Ht'; done.
  assert (Hty : ty = ptr ((pointers && negb req) || nullable i) (TNamed (P +:+ title k))).
  { inversion Hh as [? ? ? ? ? i' t b Hi' Ht' Hb|? ? ? ? ? i' Hi' Ht' Hf|? ? ? ? ? i' ps' d ds Ss' Hi' Ht' Hps' Hda Hnd Hndp|? ? ? ? ? i' ps' Ss' Hi' Ht' Hps' Hda]; subst; rewrite Hi in Hi'; injection Hi' as <-.
    - destruct Ht as [Ht _], Ht' as [Ht' _]. rewrite Ht in Ht'. injection Ht' as <-. done.
    - destruct Ht as [Ht _], Ht' as [Ht' _]. rewrite Ht in Ht'. done.
    - done.
    - rewrite Hps in Hps'. injection Hps' as <-. apply ndeclares_each in Hda. by rewrite <- Hda in Hne. }
  subst ty. unfold declare. exists (comment_text dt (n_desc i)). rewrite orb_comm.
  rewrite (show_line dt prefix _ _ k req false (nullable i || pointers && negb req) (TNamed (P +:+ title k)) I). cbn [arrt].
  unfold tag_text, json_tag. eexists. f_equal. f_equal. f_equal. f_equal.
  assert (Htt : forall x, type_text (ptr x (TNamed (P +:+ title k))) = (if x then "*" else "") +:+ P +:+ title k) by (by intros []).
  rewrite Htt, <- !app_assoc_s. f_equal. f_equal. f_equal. f_equal.
  assert (Ho : (if req then "" else match ptr (nullable i || pointers && negb req) (TNamed (P +:+ title k)) with TStruct _ | TNamed _ => ",omitzero" | _ => ",omitempty" end) =
    (if req then "" else if nullable i || pointers then ",omitempty" else ",omitzero")). { destruct req; [done|]. cbn [negb]. rewrite andb_true_r. by destruct (nullable i || pointers). }
  rewrite Ho. reflexivity.
Qed.
Lemma object_line ord schema embeds es ds Ss k r i ps : a_noNested A = true -> map_order ord -> n_items schema = None ->
  NoDup (default [] (n_props schema)).*1 -> ndeclares_all title rename pointers K0 (n_required schema) (default [] (n_props schema)) ds Ss -> NoDup (map d_go ds) ->
  capital K0 ->
  (forall σ τ, object_in (default [] (n_props schema)) σ -> object_in (default [] (n_props schema)) τ -> type_name title K0 σ = type_name title K0 τ -> σ = τ) ->
  (forall σ, object_in (default [] (n_props schema)) σ -> type_name title K0 σ <> K0) ->
  embeds_as title (a_structNames A) (a_embed A) (n_allOf schema) es ->
  (k, r) ∈ default [] (n_props schema) -> d_inst false r = Ok i -> one_type i "object" -> n_props i = Some ps -> omap own_name ps <> [] ->
  exists g, new_file W A ord schema root_name embeds = Ok g /\ forall pkg ord', key_order ord' -> exists a b, file_text W A ord' pkg g =
    a +:+ tabulator +:+ title (default k (rename k)) +:+ tabulator +:+
    (if nullable i || (pointers && bool_decide (k ∉ n_required schema)) then "*" else "") +:+ K0 +:+ title k +:+ tabulator +:+
    "`json:" +:+ in_quotes (k +:+ (if decide (k ∈ n_required schema) then "" else if nullable i || pointers then ",omitempty" else ",omitzero")) +:+ b.
Proof.
  intros Hn Hord Hit Hnd Hd Hndd HK Hinj Hne Hes Hin Hi Ht Hps Hown.
  destruct (objects_file ord schema embeds es ds Ss Hn Hord Hit Hnd Hd Hndd HK Hinj Hne Hes) as (g & Hgf & Htx). exists g. split; [done|]. intros pkg ord' Ho.
  rewrite (Htx pkg ord' Ho).
  assert (Hh : ~ hydrated i). { unfold hydrated. by rewrite (one_type_in i _ _ Ht). }
  destruct (ndeclares_in _ _ _ _ _ _ _ _ Hd k r i Hin Hi Hh) as (d & S' & Hdd & Hdk).
  destruct (object_show _ _ _ _ _ _ i ps Hdk Hi Ht Hps Hown (a_descTag A) tabulator) as (a & b & E).
  destruct (show_structs_in (a_descTag A) pkg root_name (embeds ++ es) (by_name ds) (structs_by_name Ss) d) as (a' & b' & E'); [by rewrite by_name_perm|].
  rewrite E', E. exists (a' +:+ a), (b +:+ b'). rewrite <- !app_assoc_s.
  assert (Hb : negb (bool_decide (k ∈ n_required schema)) = bool_decide (k ∉ n_required schema)).
  { destruct (decide (k ∈ n_required schema)) as [Hk|Hk]; [rewrite bool_decide_eq_true_2 by done; by rewrite bool_decide_eq_false_2 by (intros C; by apply C)|rewrite bool_decide_eq_false_2 by done; by rewrite bool_decide_eq_true_2]. }
  rewrite Hb. destruct (decide (k ∈ n_required schema)) as [Hk|Hk].
  - by rewrite (bool_decide_eq_true_2 (k ∈ n_required schema)).
  - by rewrite (bool_decide_eq_false_2 (k ∈ n_required schema)).
Qed.
Lemma flat_deterministic ord1 ord2 schema embeds es ds Ss : a_noNested A = true -> map_order ord1 -> map_order ord2 -> n_items schema = None ->
  NoDup (default [] (n_props schema)).*1 -> ndeclares_all title rename pointers K0 (n_required schema) (default [] (n_props schema)) ds Ss -> NoDup (map d_go ds) ->
  capital K0 ->
  (forall σ τ, object_in (default [] (n_props schema)) σ -> object_in (default [] (n_props schema)) τ -> type_name title K0 σ = type_name title K0 τ -> σ = τ) ->
  (forall σ, object_in (default [] (n_props schema)) σ -> type_name title K0 σ <> K0) ->
  embeds_as title (a_structNames A) (a_embed A) (n_allOf schema) es ->
  exists g1 g2, new_file W A ord1 schema root_name embeds = Ok g1 /\ new_file W A ord2 schema root_name embeds = Ok g2 /\
    forall pkg ord3 ord4, key_order ord3 -> key_order ord4 -> file_text W A ord3 pkg g1 = file_text W A ord4 pkg g2.
Proof.
  intros Hn Ho1 Ho2 Hit Hnd Hd Hndd HK Hinj Hne Hes.
  destruct (objects_file ord1 schema embeds es ds Ss Hn Ho1 Hit Hnd Hd Hndd HK Hinj Hne Hes) as (g1 & H1 & Ht1).
  destruct (objects_file ord2 schema embeds es ds Ss Hn Ho2 Hit Hnd Hd Hndd HK Hinj Hne Hes) as (g2 & H2 & Ht2).
  exists g1, g2. split; [done|]. split; [done|]. intros pkg ord3 ord4 H3 H4. by rewrite Ht1, Ht2.
Qed.
(** every struct type a field refers to is declared in the file, by that name if names are ASCII *)
Lemma refs_in_file reqs ps ds Ss : ascii_string root_name -> (forall σ k, object_in ps σ -> Nm k ∈ σ -> ascii_string k) -> NoDup ps.*1 ->
  ndeclares_all title rename pointers K0 reqs ps ds Ss ->
  forall d Q, (d ∈ ds \/ exists s, s ∈ Ss /\ d ∈ s.2) -> field_refers d Q ->
  exists ds', (Q, ds') ∈ Ss /\ ds' <> [] /\ title Q = Q /\ forall dt pkg embeds, exists a b,
    show_structs title dt pkg root_name embeds (by_name ds) (structs_by_name Ss) = a +:+ "type " +:+ Q +:+ " struct {" +:+ newline +:+ join "" (map (show dt tabulator) ds') +:+ "}" +:+ b.
Proof.
  intros Hr Hk Hnd Hd d Q Hin Href. destruct (refs_declared _ _ _ _ _ _ _ _ Hd d Q Hin Href) as (ds' & HQ & Hne). exists ds'. split; [done|]. split; [done|].
  assert (Ht : title Q = Q).
  { destruct (structs_objects _ _ _ _ _ _ _ _ Hd Hnd) as (l & Hl & _ & Hobj). assert (HQ1 : Q ∈ Ss.*1). { apply elem_of_list_fmap. by exists (Q, ds'). }
    rewrite Hl in HQ1. apply elem_of_list_fmap in HQ1 as (σ & -> & Hs). apply kept_type_name; [by apply kept_title|]. intros k. apply Hk. by apply Hobj. }
  split; [done|]. intros dt pkg embeds. unfold show_structs.
  assert (Hl : forall x t, (exists a b, t = a +:+ "type " +:+ Q +:+ " struct {" +:+ newline +:+ join "" (map (show dt tabulator) ds') +:+ "}" +:+ b) ->
    exists a b, x +:+ t = a +:+ "type " +:+ Q +:+ " struct {" +:+ newline +:+ join "" (map (show dt tabulator) ds') +:+ "}" +:+ b).
  { intros x t (a' & b' & ->). exists (x +:+ a'), b'. by rewrite app_assoc_s. }
  do 9 apply Hl. set (f := fun s : string * list gdecl => if decide (length s.2 = 0) then "" else newline +:+ newline +:+ show_struct dt (title s.1) [] s.2).
  destruct (join_in (map f (structs_by_name Ss)) (f (Q, ds'))) as (a & b & E).
  { apply elem_of_list_In, in_map, elem_of_list_In. by rewrite structs_by_name_perm. }
  rewrite E. unfold f. cbn [snd fst]. rewrite decide_False by (rewrite length_zero_iff_nil; exact Hne). unfold show_struct. rewrite Ht. cbn [join]. rewrite decide_True by done.
  apply Hl. rewrite <- !app_assoc_s. do 2 apply Hl. exists "", b. rewrite !sapp_nil_l. reflexivity.
Qed.
End file.

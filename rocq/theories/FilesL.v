(** Proofs about the Go files made from a schema. *)
From stdpp Require Import strings list gmap.
From Verif Require Import GoStr GoStrL Val Conv Schema Inst Load FlatL SpecPath SpecWalk SpecLoad SpecGen SpecNamed SpecFiles WalkL Gen GenL GenP GenT Files.
From Verif Require NamedU.
Set Default Proof Using "Type".

Lemma app_inj_r_s a b c : a +:+ c = b +:+ c -> a = b.
Proof. intros H. apply (app_eq_len _ _ _ _ H). apply (f_equal String.length) in H. rewrite !app_length_s in H. lia. Qed.
Section proofs.
Context (W : oracles) (F : files) (o_abs : string -> string) (o_fmt : string -> option string) (A : args) (pkg : string).
Context (ord : nat -> string -> list string -> list string) (ord' : nat -> list string -> list string -> list string).
Context (Hord : forall i, map_order (ord i)) (Hord' : forall i, key_order (ord' i)).
Notation title := (exported W).
Notation text_for := (go_text title (a_structNames A) (a_fieldNames A) (a_descTag A) (a_noNested A) (a_pointers A) (a_embed A) pkg).
Notation formatted := (fun t t' => o_fmt t = Some t').
Notation loads n := (fun path ty schema => load_schema F ty (negb (a_embed A)) n path = Some (Ok schema)).
Notation have_text n := (has_text title (a_structNames A) (a_fieldNames A) (a_descTag A) (a_noNested A) (a_pointers A) (a_embed A) pkg formatted (loads n)).
Notation build := (build_structs W F o_abs o_fmt A pkg ord ord').
Notation each := (build_each W F o_abs o_fmt A pkg ord ord').
Notation one_file := (build_struct_file W F o_abs o_fmt A pkg ord ord').

Lemma text_made i name embeds schema text : text_for name embeds schema text ->
  exists g, new_file W A (ord i) schema name embeds = Ok g /\ file_text W A (ord' i) pkg g = text.
Proof using Hord Hord'.
  intros [ds es Hn Hi Hnd Hd Hg He|ds Ss es Hn Hi Hnd Hd Hg Hc Ho Hr He].
  - destruct (gen_file W A (ord i) schema name embeds es ds Hn (Hord i) Hi Hnd Hd Hg He) as (g & H1 & H2). exists g. split; [done|]. apply H2, Hord'.
  - destruct (NamedU.objects_file W A name (ord i) schema embeds es ds Ss Hn (Hord i) Hi Hnd Hd Hg Hc Ho Hr He) as (g & H1 & H2). exists g. split; [done|]. apply H2, Hord'.
Qed.
Lemma base_is ref path b : named_by ref path b -> sub_name ref = b /\ sub_name path = b.
Proof. intros ([H1 H2] & H3 & H4). split; by apply sub_name_iff. Qed.
Lemma one_made n i sp child w fs : have_text n w -> w_path w = child_path F o_abs sp child -> sub_name (w_path w) = w_base w ->
  one_file n i sp child (w_name w) (w_embeds w) fs = Some (put (w_file w) (w_text w) fs, Ok tt).
Proof using Hord Hord'.
  intros (schema & text & Hl & Ht & Hf) Hp Hb. unfold build_struct_file. rewrite <- Hp, Hl. destruct (text_made i _ _ _ _ Ht) as (g & -> & ->). by rewrite Hf, Hb.
Qed.
Lemma each_made n sp ms ws : Forall2 (fun m w => have_text n w /\ w_path w = child_path F o_abs sp m.1.1 /\ sub_name (w_path w) = w_base w /\ m.1.2 = w_name w /\ m.2 = w_embeds w) ms ws ->
  forall i fs, each n i sp ms fs = Some (foldl (fun fs w => put (w_file w) (w_text w) fs) fs ws, Ok tt).
Proof using Hord Hord'.
  induction 1 as [|[[child name] embeds] w ms ws (Ht & Hp & Hb & H1 & H2) _ IH]; intros i fs; [done|]. cbn [fst snd] in *. subst. cbn [build_each].
  rewrite (one_made n i sp child w fs) by done. cbn. by rewrite IH.
Qed.
Lemma puts_other ws f : (forall w, w ∈ ws -> f <> w_file w) -> forall fs, assocd f (foldl (fun fs w => put (w_file w) (w_text w) fs) fs ws) = assocd f fs.
Proof.
  clear. induction ws as [|w ws IH]; intros H fs; [done|]. cbn. rewrite IH by (intros x Hx; apply H; by right). rewrite assocd_put, decide_False; [done|]. apply H. by left.
Qed.
Lemma puts_own ws w : NoDup (map w_file ws) -> w ∈ ws -> forall fs, assocd (w_file w) (foldl (fun fs w => put (w_file w) (w_text w) fs) fs ws) = Some (w_text w).
Proof.
  clear. induction ws as [|x ws IH]; intros Hn Hw fs; [by apply elem_of_nil in Hw|]. cbn in *. apply NoDup_cons in Hn as [Hx Hn]. apply elem_of_cons in Hw as [->|Hw]; [|by apply IH].
  rewrite puts_other; [by rewrite assocd_put, decide_True|]. intros y Hy E. apply Hx. rewrite E. apply elem_of_list_fmap. by exists y.
Qed.
Lemma types_own doc i : d_inst false doc = Ok i ->
  schema_types doc = Ok (map n_ref (n_allOf i), map n_ref (n_oneOf i), sort_strings (default [] (n_props i)).*1).
Proof. clear. intros H. unfold schema_types. by rewrite H. Qed.
Lemma sort_nil l : sort_strings l = [] <-> l = [].
Proof.
  clear. destruct l as [|x l]; [done|]. split; [|done]. cbn. intros H. exfalso. revert H. generalize (foldr insert_sorted [] l). intros [|y l']; cbn; [done|]. by destruct (str_le x y).
Qed.
Lemma own_iff (i : instance) : (match map n_ref (n_allOf i), map n_ref (n_oneOf i), sort_strings (default [] (n_props i)).*1 with [], [], _ => true | _, _, [] => false | _, _, _ => true end) = true <-> has_own i.
Proof.
  clear. unfold has_own. pose proof (sort_nil (default [] (n_props i)).*1) as Hs. destruct (sort_strings (default [] (n_props i)).*1) as [|k ks].
  - assert (Hp : default [] (n_props i) = []) by (destruct Hs as [Hs _]; specialize (Hs eq_refl); by destruct (default [] (n_props i))).
    destruct (n_allOf i), (n_oneOf i); cbn; split; try done; try (intros _; right; done); intros [H|[]]; done.
  - assert (Hp : default [] (n_props i) <> []) by (intros E; rewrite E in Hs; by destruct Hs as [_ Hs]; specialize (Hs eq_refl)).
    destruct (n_allOf i), (n_oneOf i); cbn; split; try done; intros _; by left.
Qed.
(** the list of files to be made is that of the specification *)
Lemma members_wanted n sp i ws :
  files_of title (a_structNames A) (a_fieldNames A) (a_descTag A) (a_noNested A) (a_pointers A) (a_embed A) pkg (child_path F o_abs sp) formatted (loads n) i (o_abs sp) ws ->
  Forall2 (fun m w => have_text n w /\ w_path w = child_path F o_abs sp m.1.1 /\ sub_name (w_path w) = w_base w /\ m.1.2 = w_name w /\ m.2 = w_embeds w)
    (let own := match map n_ref (n_allOf i), map n_ref (n_oneOf i), sort_strings (default [] (n_props i)).*1 with [], [], _ => true | _, _, [] => false | _, _, _ => true end in
     let alls := map n_ref (n_allOf i) ++ (if own then [o_abs sp] else []) in
     map (fun p => (p, all_name W A p, [])) alls ++ map (fun p => (p, one_name A p, map (all_name W A) alls)) (map n_ref (n_oneOf i))) ws.
Proof.
  intros Hws. cbn zeta.
    assert (exists all ones, ws = all ++ ones /\ Forall2 (from_allOf title (a_structNames A) (a_fieldNames A) (a_descTag A) (a_noNested A) (a_pointers A) (a_embed A) pkg (child_path F o_abs sp) formatted (loads n))
      (map n_ref (n_allOf i) ++ (if match map n_ref (n_allOf i), map n_ref (n_oneOf i), sort_strings (default [] (n_props i)).*1 with [], [], _ => true | _, _, [] => false | _, _, _ => true end then [o_abs sp] else [])) all /\
      Forall2 (from_oneOf title (a_structNames A) (a_fieldNames A) (a_descTag A) (a_noNested A) (a_pointers A) (a_embed A) pkg (child_path F o_abs sp) formatted (loads n) all) (map n_ref (n_oneOf i)) ones) as (all & ones & -> & Hall & Hone).
    { pose proof (own_iff i) as Ho. destruct Hws as [all ones Hown Hall Hone|all ones Hown Hall Hone]; exists all, ones; (split; [done|split; [|done]]).
      - by rewrite (proj2 Ho Hown).
      - destruct (match map n_ref (n_allOf i), map n_ref (n_oneOf i), sort_strings (default [] (n_props i)).*1 with [], [], _ => true | _, _, [] => false | _, _, _ => true end); [by destruct Hown; apply Ho|by rewrite app_nil_r]. }
    revert Hall. generalize (map n_ref (n_allOf i) ++ (if match map n_ref (n_allOf i), map n_ref (n_oneOf i), sort_strings (default [] (n_props i)).*1 with [], [], _ => true | _, _, [] => false | _, _, _ => true end then [o_abs sp] else [])). intros alls Hall.
    apply Forall2_app.
    + clear Hone Hws. induction Hall as [|ref w alls all (Hp & Hb & Hn & He & Ht) _ IH]; [constructor|]. cbn [map]. constructor; [|done]. cbn [fst snd].
      destruct (base_is _ _ _ Hb) as [Hb1 Hb2]. split_and!; try done. unfold all_name. by rewrite Hb1, Hn.
    + assert (Hnames : map (all_name W A) alls = map w_name all).
      { clear Hone Hws. induction Hall as [|ref w alls all (Hp & Hb & Hn & He & Ht) _ IH]; [done|]. cbn. rewrite IH. f_equal. destruct (base_is _ _ _ Hb) as [Hb1 _]. unfold all_name. by rewrite Hb1, Hn. }
      rewrite Hnames. clear Hall Hnames Hws. induction Hone as [|ref w refs ones (Hp & Hb & Hn & He & Ht) _ IH]; [constructor|]. cbn [map]. constructor; [|done]. cbn [fst snd].
      destruct (base_is _ _ _ Hb) as [Hb1 Hb2]. split_and!; try done. unfold one_name. by rewrite Hb1, Hn.
Qed.
Lemma files_made n sp doc i ws fs : f_file F (o_abs sp) = Some doc -> d_inst false doc = Ok i ->
  files_of title (a_structNames A) (a_fieldNames A) (a_descTag A) (a_noNested A) (a_pointers A) (a_embed A) pkg (child_path F o_abs sp) formatted (loads n) i (o_abs sp) ws ->
  NoDup (map w_base ws) ->
  exists fs', build n sp fs = Some (fs', Ok tt) /\ (forall w, w ∈ ws -> assocd (w_file w) fs' = Some (w_text w)) /\
    (forall f, (forall w, w ∈ ws -> f <> w_file w) -> assocd f fs' = assocd f fs).
Proof using Hord Hord'.
  intros Hdoc Hi Hws Hnd. exists (foldl (fun fs w => put (w_file w) (w_text w) fs) fs ws). split_and!.
  - unfold build_structs. rewrite Hdoc, (types_own _ _ Hi). cbn zeta. apply each_made. by apply members_wanted.
  - intros w Hw. apply puts_own; [|done]. clear -Hnd. induction ws as [|x ws IH]; [done|]. cbn in *. apply NoDup_cons in Hnd as [Hx Hn]. constructor; [|by apply IH].
    intros Hin. apply Hx. apply elem_of_list_fmap in Hin as (y & E & Hy). apply elem_of_list_fmap. exists y. split; [|done]. unfold w_file in E.
    by apply app_inj_r_s in E.
  - intros f Hf. by apply puts_other.
Qed.

(** whatever the schemas are *)
Lemma each_names n sp ms : forall i fs fs', each n i sp ms fs = Some (fs', Ok tt) ->
  (forall f, is_Some (assocd f fs') <-> is_Some (assocd f fs) \/ exists m, m ∈ ms /\ f = sub_name (child_path F o_abs sp m.1.1) +:+ ".go").
Proof.
  clear. induction ms as [|[[child name] embeds] ms IH]; intros i fs fs'; cbn [build_each].
  - intros [= <-] f. split; [by left|]. intros [H|(m & Hm & _)]; [done|]. by apply elem_of_nil in Hm.
  - intros H. destruct (one_file n i sp child name embeds fs) as [[fs1 [[]| |]]|] eqn:E; try done. intros f. rewrite (IH _ _ _ H f).
    assert (E1 : is_Some (assocd f fs1) <-> is_Some (assocd f fs) \/ f = sub_name (child_path F o_abs sp child) +:+ ".go").
    { unfold build_struct_file in E. destruct (load_schema F name (negb (a_embed A)) n (child_path F o_abs sp child)) as [[schema| |]|]; try done.
      destruct (new_file W A (ord i) schema name embeds) as [g| |]; try done. cbn zeta in E. destruct (o_fmt _) as [t|]; [|done]. injection E as <-.
      rewrite assocd_put. destruct (decide (f = sub_name (child_path F o_abs sp child) +:+ ".go")) as [->|N]; [split; [by right|by eexists]|]. split; [by left|]. by intros [?|?]. }
    rewrite E1. split.
    + intros [[?| ->]|(m & Hm & ->)]; [by left|right; exists (child, name, embeds); split; [by left|done]|right; exists m; split; [by right|done]].
    + intros [?|(m & Hm & ->)]; [by left; left|]. apply elem_of_cons in Hm as [->|Hm]; [by left; right|right; by exists m].
Qed.
Lemma files_named n sp doc i fs fs' : f_file F (o_abs sp) = Some doc -> d_inst false doc = Ok i -> build n sp fs = Some (fs', Ok tt) ->
  forall f, is_Some (assocd f fs') <-> is_Some (assocd f fs) \/
    exists ref, (ref ∈ map n_ref (n_allOf i) ++ map n_ref (n_oneOf i) \/ (has_own i /\ ref = o_abs sp)) /\ f = sub_name (child_path F o_abs sp ref) +:+ ".go".
Proof.
  clear. intros Hdoc Hi. unfold build_structs. rewrite Hdoc, (types_own _ _ Hi). cbn zeta. intros H f. rewrite (each_names _ _ _ _ _ _ H f). pose proof (own_iff i) as Ho.
  apply or_iff_compat_l. split.
  - intros (m & Hm & ->). exists m.1.1. split; [|done]. apply elem_of_app in Hm as [Hm|Hm]; apply elem_of_list_fmap in Hm as (p & -> & Hp); cbn.
    + apply elem_of_app in Hp as [Hp|Hp]; [left; apply elem_of_app; by left|]. destruct (match _ with [] => _ | _ => _ end); [|by apply elem_of_nil in Hp]. apply elem_of_list_singleton in Hp as ->. right. split; [by apply Ho|done].
    + left. apply elem_of_app. by right.
  - intros (ref & [Href|[Hown ->]] & ->).
    + apply elem_of_app in Href as [Href|Href]; (eexists; split; [apply elem_of_app|]).
      * left. apply elem_of_list_fmap. exists ref. split; [done|]. apply elem_of_app. by left.
      * done.
      * right. apply elem_of_list_fmap. by exists ref.
      * done.
    + eexists. split; [apply elem_of_app; left; apply elem_of_list_fmap; exists (o_abs sp); split; [done|]|done]. apply elem_of_app. right. rewrite (proj2 Ho Hown). by left.
Qed.
(** Making files stops at the first that cannot be made. *)
Lemma each_stops n sp ms : forall i fs fs' r, each n i sp ms fs = Some (fs', r) -> r <> Ok tt ->
  exists ms1 m ms2 fs1, ms = ms1 ++ m :: ms2 /\ each n i sp ms1 fs = Some (fs1, Ok tt) /\ one_file n (i + length ms1) sp m.1.1 m.1.2 m.2 fs1 = Some (fs', r).
Proof.
  clear. induction ms as [|[[child name] embeds] ms IH]; intros i fs fs' r; cbn [build_each]; [by intros [= <- <-]|].
  intros H Hr. destruct (one_file n i sp child name embeds fs) as [[fs1 [[]| |]]|] eqn:E; try done.
  - destruct (IH _ _ _ _ H Hr) as (ms1 & m & ms2 & fs2 & -> & H1 & H2). exists ((child, name, embeds) :: ms1), m, ms2, fs2. split_and!; [done|cbn [build_each]; by rewrite E|].
    cbn [length]. by replace (i + S (length ms1)) with (S i + length ms1) by lia.
  - injection H as <- <-. exists [], (child, name, embeds), ms, fs. split_and!; [done|done|]. cbn. by replace (i + 0) with i by lia.
  - injection H as <- <-. exists [], (child, name, embeds), ms, fs. split_and!; [done|done|]. cbn. by replace (i + 0) with i by lia.
Qed.
End proofs.

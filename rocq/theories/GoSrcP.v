(** Declarations are scanned and parsed as what they declare. *)
From stdpp Require Import strings list gmap.
From Coq Require Import Ascii ZArith Lia.
From Verif Require Import GoStr GoStrL Val Conv SpecGen Avro GoSrc SpecGo GoSrcL.

(** ** types *)
Fixpoint bottom (t : gtype) : gtype := match t with TPtr t | TSlice t => bottom t | _ => t end.
Fixpoint wraps (t : gtype) : string := match t with TPtr t => "*" +:+ wraps t | TSlice t => "[]" +:+ wraps t | _ => "" end.
Fixpoint wtoks (t : gtype) : list token := match t with TPtr t => Punct "*" :: wtoks t | TSlice t => Punct "[" :: Punct "]" :: wtoks t | _ => [] end.
Lemma type_text_wraps t : type_text t = wraps t +:+ type_text (bottom t).
Proof. induction t; cbn [type_text wraps bottom]; rewrite <- ?app_assoc_s; [done..|by rewrite <- IHt|by rewrite <- IHt|done|done]. Qed.
Lemma toks_wraps dt t : toks_type dt t = wtoks t ++ toks_type dt (bottom t).
Proof. induction t; cbn [toks_type wtoks bottom app]; [done..|by rewrite <- IHt|by rewrite <- IHt|done|done]. Qed.
Lemma writable_bottom dt t : writable_type dt t = writable_type dt (bottom t).
Proof. by induction t. Qed.
Lemma bottom_not t x : bottom t <> TPtr x /\ bottom t <> TSlice x.
Proof. induction t; try exact IHt; by split. Qed.
Definition headed (s : string) : Prop := exists c s', s = String c s' /\ id_start c = true.
Lemma headed_any b b' s : headed s -> scan (Code b) s = scan (Code b') s.
Proof. intros (c & s' & -> & Hc). by rewrite !(scan_start _ c). Qed.
Lemma scan_wraps b t s : headed s -> scan (Code b) (wraps t +:+ s) = front (wtoks t) (scan (Code true) s).
Proof.
  intros Hs. revert b. induction t; intros b; cbn [wraps wtoks]; rewrite ?front_nil; try (by apply headed_any).
  - rewrite <- app_assoc_s. change (scan (Code b) ("*" +:+ wraps t +:+ s)) with (front [Punct "*"] (scan (Code false) (wraps t +:+ s))). by rewrite IHt, front_front.
  - rewrite <- app_assoc_s. change (scan (Code b) ("[]" +:+ wraps t +:+ s)) with (front [Punct "["] (front [Punct "]"] (scan (Code true) (wraps t +:+ s)))). by rewrite IHt, !front_front.
Qed.
Definition is_struct (t : gtype) : bool := match t with TStruct _ => true | _ => false end.
Lemma headed_app a b : wordy a = true -> headed (a +:+ b).
Proof. destruct a as [|c a]; [done|]. cbn [wordy]. intros [H _]%andb_true_iff. by exists c, (a +:+ b). Qed.
Lemma type_headed dt t s : writable_type dt (bottom t) = true -> headed (type_text (bottom t) +:+ s).
Proof.
  intros H. assert (Hb : forall x, bottom t <> TPtr x /\ bottom t <> TSlice x) by (intros x; apply bottom_not).
  destruct (bottom t) as [| | | | | |x|x|ds|n]; try (apply headed_app; reflexivity); try (by destruct (Hb x)).
  - by exists "t"%char, ("ime.Time" +:+ s).
  - by exists "m"%char, ("ap[string]string" +:+ s).
  - apply headed_app. exact (proj1 (identifier_word n H)).
Qed.
Lemma scan_bottom dt b t s : is_struct (bottom t) = false -> writable_type dt t = true -> not_id s = true ->
  scan (Code b) (type_text (bottom t) +:+ s) = front (toks_type dt (bottom t)) (scan (Code true) s).
Proof.
  intros Hst Hw Hs. rewrite writable_bottom in Hw. assert (Hb : forall x, bottom t <> TPtr x /\ bottom t <> TSlice x) by (intros x; apply bottom_not).
  destruct (bottom t) as [| | | | | |x|x|ds|n]; cbn [type_text toks_type]; try (by rewrite scan_ident); try (by destruct (Hb x)); try done.
  - change ("time.Time" +:+ s) with ("time" +:+ (".Time" +:+ s)). rewrite scan_ident by done.
    change (scan (Code true) (".Time" +:+ s)) with (front [Punct "."] (scan (Code false) ("Time" +:+ s))). rewrite scan_ident by done. by rewrite !front_front.
  - change ("map[string]string" +:+ s) with ("map" +:+ ("[string]string" +:+ s)). rewrite scan_word by done.
    change (scan (Code (ends_line "map")) ("[string]string" +:+ s)) with (front [Punct "["] (scan (Code false) ("string" +:+ ("]string" +:+ s)))). rewrite scan_ident by done.
    change (scan (Code true) ("]string" +:+ s)) with (front [Punct "]"] (scan (Code true) ("string" +:+ s))). rewrite scan_ident by done. by rewrite !front_front.
Qed.

(** ** declarations *)
Section dt.
Context (dt : bool).
Definition body (prefix go tag : string) (ty : gtype) : gtype -> string :=
  fix body (t : gtype) : string :=
    match t with
    | TPtr t' | TSlice t' => body t'
    | TStruct ds => prefix +:+ go +:+ tabulator +:+ type_text ty +:+ " {" +:+ newline +:+
                    join "" (map (show dt (prefix +:+ tabulator)) ds) +:+ prefix +:+ tabulator +:+ "}" +:+ tabulator +:+ tag
    | _ => prefix +:+ go +:+ tabulator +:+ type_text ty +:+ tabulator +:+ tag
    end.
Lemma show_eq prefix desc go json req oty : show dt prefix (GDecl desc go json req oty) =
  comment_text dt desc +:+ match oty with None => "" | Some ty => body prefix go (tag_text dt desc json req ty) ty ty end.
Proof. by destruct oty. Qed.
Lemma body_bottom prefix go tag ty t : body prefix go tag ty t = body prefix go tag ty (bottom t).
Proof. induction t; done. Qed.
Lemma all_split_go (p : ascii -> bool) sep s k cur : str_all p s = true -> str_all p cur = true -> Forall (fun x => str_all p x = true) (split_go sep s k cur).
Proof.
  revert k cur. induction s as [|a s IH]; intros k cur Hs Hc; cbn [split_go]; [by repeat constructor|].
  cbn [str_all] in Hs. apply andb_true_iff in Hs as [Ha Hs].
  assert (Hc' : str_all p (cur +:+ String a "") = true) by (rewrite str_all_app, Hc; cbn [str_all]; by rewrite Ha).
  destruct k; [|by apply IH]. case_match; [constructor; [done|by apply IH]|by apply IH].
Qed.
Lemma all_split (p : ascii -> bool) s sep : sep <> "" -> str_all p s = true -> Forall (fun x => str_all p x = true) (split s sep).
Proof. intros H Hs. unfold split. rewrite decide_False by done. by apply all_split_go. Qed.
Lemma without_more c cs s : without cs s = true -> str_in (String c "") s = false -> without (c :: cs) s = true.
Proof.
  unfold without. induction s as [|a s IH]; [done|]. cbn [str_all str_in]. intros [Ha Hs]%andb_true_iff [Hp Hi]%orb_false_iff.
  apply andb_true_iff. split; [|by apply IH]. apply negb_true_iff, bool_decide_eq_false in Ha. apply negb_true_iff, bool_decide_eq_false.
  rewrite elem_of_cons. intros [->|H]; [|done]. cbn [has_prefix] in Hp. by rewrite decide_True in Hp.
Qed.
Lemma lines_free s : without ["000"%char] s = true -> Forall (fun l => without ["000"; "010"]%char l = true) (split s newline).
Proof.
  intros H. assert (H1 := all_split _ s newline ltac:(done) H). assert (H2 := split_free s newline ltac:(done)).
  rewrite Forall_forall in H1, H2 |- *. intros l Hl. specialize (H1 l Hl). specialize (H2 l Hl).
  assert (H3 := without_more "010" ["000"%char] l H1 H2). unfold without in *. etrans; [|exact H3]. apply str_all_ext. intros a. apply (f_equal negb). apply bool_decide_ext. rewrite !elem_of_cons. tauto.
Qed.
Lemma scan_comments desc s : desc_ok dt desc = true -> scan (Code false) (comment_text dt desc +:+ s) = scan (Code false) s.
Proof.
  unfold desc_ok, comment_text. destruct dt; [done|]. intros H. cbn [negb andb]. case_bool_decide; [|done]. apply scan_comment_lines. by apply lines_free.
Qed.
Lemma raw_app a b : raw_text (a +:+ b) = raw_text a && raw_text b.
Proof. apply str_all_app. Qed.
Lemma raw_tag desc json req ty : desc_ok dt desc = true -> raw_text json = true -> raw_text (tag_of dt desc json req ty) = true.
Proof.
  intros Hd Hj. unfold tag_of, json_tag, in_quotes. rewrite !raw_app, Hj.
  assert (Ho : raw_text (if req then "" else match ty with TStruct _ | TNamed _ => ",omitzero" | _ => ",omitempty" end) = true) by (destruct req; [done|]; by destruct ty).
  rewrite Ho. unfold desc_ok in Hd. destruct dt; [|done]. cbn [andb]. case_bool_decide; [|done]. rewrite !raw_app, Hd. done.
Qed.
Lemma tag_text_eq desc json req ty : tag_text dt desc json req ty = "`" +:+ tag_of dt desc json req ty +:+ "`" +:+ newline.
Proof. unfold tag_text, tag_of, first_line. by rewrite <- !app_assoc_s. Qed.
Lemma scan_tag b desc json req ty s : desc_ok dt desc = true -> raw_text json = true ->
  scan (Code b) (tag_text dt desc json req ty +:+ s) = front [Raw (tag_of dt desc json req ty); Semi] (scan (Code false) s).
Proof.
  intros Hd Hj. rewrite tag_text_eq. rewrite <- !app_assoc_s.
  change (scan (Code b) ("`" +:+ tag_of dt desc json req ty +:+ "`" +:+ newline +:+ s)) with (scan (InRaw "") (tag_of dt desc json req ty +:+ "`" +:+ newline +:+ s)).
  rewrite scan_raw by (by apply raw_tag). rewrite scan_newline, semi_true, front_front. done.
Qed.
Lemma writable_some desc go json req t : writable dt (GDecl desc go json req (Some t)) = desc_ok dt desc && (identifier go && raw_text json && writable_type dt t).
Proof. done. Qed.
Lemma toks_some desc go json req t : toks_decl dt (GDecl desc go json req (Some t)) = Word go :: toks_type dt t ++ [Raw (tag_of dt desc json req t); Semi].
Proof. done. Qed.
Lemma toks_struct ds : toks_type dt (TStruct ds) = Word "struct" :: Punct "{" :: flat_map (toks_decl dt) ds ++ [Punct "}"].
Proof. done. Qed.
Lemma scan_shows p ds s : Forall (fun d => forall prefix s, tabs prefix = true -> writable dt d = true ->
    scan (Code false) (show dt prefix d +:+ s) = front (toks_decl dt d) (scan (Code false) s)) ds ->
  tabs p = true -> forallb (writable dt) ds = true ->
  scan (Code false) (join "" (map (show dt p) ds) +:+ s) = front (flat_map (toks_decl dt) ds) (scan (Code false) s).
Proof.
  intros H Hp. induction H as [|d ds Hd _ IH]; [intros _; cbn; by rewrite front_nil|]. cbn [forallb map flat_map]. intros [Hw Hws]%andb_true_iff.
  rewrite join_cons_empty, <- app_assoc_s. rewrite Hd by done. rewrite IH by done. by rewrite front_front.
Qed.
Lemma scan_show d : forall prefix s, tabs prefix = true -> writable dt d = true ->
  scan (Code false) (show dt prefix d +:+ s) = front (toks_decl dt d) (scan (Code false) s).
Proof.
  revert d. set (Q := fun d => forall prefix s, tabs prefix = true -> writable dt d = true ->
    scan (Code false) (show dt prefix d +:+ s) = front (toks_decl dt d) (scan (Code false) s)).
  apply (gdecl_ind2 (fun t => match bottom t with TStruct ds => Forall Q ds | _ => True end) Q); subst Q; cbv beta;
    [exact I..|intros t H; exact H|intros t H; exact H|intros ds H; exact H|intros n; exact I| |].
  - intros desc go json req prefix s Hp Hw. cbn [writable] in Hw. rewrite andb_true_r in Hw. rewrite show_eq, sapp_nil_r. cbn [toks_decl]. rewrite front_nil. by apply scan_comments.
  - intros desc go json req t IH prefix s Hp Hw. rewrite writable_some in Hw. apply andb_true_iff in Hw as [Hd [[Hg Hj]%andb_true_iff Ht]%andb_true_iff].
    rewrite show_eq. rewrite <- app_assoc_s, scan_comments by done. rewrite body_bottom. rewrite toks_some. rewrite toks_wraps.
    assert (Hw : headed (type_text (bottom t) +:+ "")) by (apply (type_headed dt); by rewrite <- writable_bottom).
    assert (Hh : forall r, headed (type_text (bottom t) +:+ r)) by (intros r; apply (type_headed dt); by rewrite <- writable_bottom).
    assert (Hstart : forall r, scan (Code false) (prefix +:+ go +:+ tabulator +:+ type_text t +:+ r) = front (Word go :: wtoks t) (scan (Code true) (type_text (bottom t) +:+ r))).
    { intros r. rewrite scan_tabs by done. rewrite scan_ident by done. rewrite scan_tab. rewrite type_text_wraps, <- app_assoc_s. rewrite scan_wraps by done. by rewrite front_front. }
    destruct (is_struct (bottom t)) eqn:Hst.
    + destruct (bottom t) as [| | | | | | | |ds|] eqn:Hb; try done. cbn [body]. rewrite <- !app_assoc_s. rewrite Hstart. cbn [type_text]. rewrite toks_struct.
      rewrite scan_word by done.
      match goal with |- context [scan (Code (ends_line "struct")) (" {" +:+ newline +:+ ?x)] =>
        change (scan (Code (ends_line "struct")) (" {" +:+ newline +:+ x)) with (front [Punct "{"] (scan (Code false) x)) end.
      rewrite scan_shows; [|done|by apply tabs_more|by rewrite writable_bottom, Hb in Ht].
      rewrite scan_tabs by done. rewrite scan_tab.
      match goal with |- context [scan (Code false) ("}" +:+ ?x)] => change (scan (Code false) ("}" +:+ x)) with (front [Punct "}"] (scan (Code true) x)) end.
      rewrite scan_tab, scan_tag by done. rewrite !front_front. f_equal. do 4 (cbn [app]; rewrite <- ?app_assoc). done.
    + assert (Hbody : body prefix go (tag_text dt desc json req t) t (bottom t) = prefix +:+ go +:+ tabulator +:+ type_text t +:+ tabulator +:+ tag_text dt desc json req t).
      { assert (forall x, bottom t <> TPtr x /\ bottom t <> TSlice x) as Hb by (intros x; apply bottom_not). destruct (bottom t) as [| | | | | |x|x|ds|n]; try done; by destruct (Hb x). }
      rewrite Hbody, <- !app_assoc_s, Hstart. rewrite (scan_bottom dt) by done. rewrite scan_tab, scan_tag by done. rewrite !front_front. done.
Qed.
End dt.

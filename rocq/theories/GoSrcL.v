(** Scanning what declarations are written as. *)
From stdpp Require Import strings list gmap.
From Coq Require Import Ascii ZArith Lia.
From Verif Require Import GoStr GoStrL Val Conv SpecGen Avro GoSrc SpecGo.

(** ** induction over declarations *)
Section ind.
Context (P : gtype -> Prop) (Q : gdecl -> Prop).
Context (HB : P TBool) (HF : P TFloat) (HI : P TInt) (HS : P TString) (HT : P TTime) (HM : P TMap).
Context (HP : forall t, P t -> P (TPtr t)) (HL : forall t, P t -> P (TSlice t)) (HC : forall ds, Forall Q ds -> P (TStruct ds)) (HN : forall n, P (TNamed n)).
Context (HD0 : forall desc go json req, Q (GDecl desc go json req None)) (HD1 : forall desc go json req t, P t -> Q (GDecl desc go json req (Some t))).
Fixpoint gtype_ind2 (t : gtype) : P t :=
  match t with
  | TBool => HB | TFloat => HF | TInt => HI | TString => HS | TTime => HT | TMap => HM
  | TPtr t => HP t (gtype_ind2 t)
  | TSlice t => HL t (gtype_ind2 t)
  | TStruct ds => HC ds ((fix go ds : Forall Q ds := match ds with [] => Forall_nil_2 _ | d :: ds => Forall_cons_2 _ _ _ (gdecl_ind2 d) (go ds) end) ds)
  | TNamed n => HN n
  end
with gdecl_ind2 (d : gdecl) : Q d :=
  match d with
  | GDecl desc go json req None => HD0 desc go json req
  | GDecl desc go json req (Some t) => HD1 desc go json req t (gtype_ind2 t)
  end.
End ind.

Lemma join_cons_empty x l : join "" (x :: l) = x +:+ join "" l.
Proof. destruct l; [cbn; by rewrite sapp_nil_r|]. rewrite join_cons by done. done. Qed.
(** ** tokens *)
Definition front (l : list token) (o : option (list token)) : option (list token) := match o with Some r => Some (l ++ r) | None => None end.
Lemma front_nil o : front [] o = o. Proof. by destruct o. Qed.
Lemma front_front l1 l2 o : front l1 (front l2 o) = front (l1 ++ l2) o. Proof. destruct o; [|done]. cbn. by rewrite app_assoc. Qed.
Lemma add_front t o : add t o = front [t] o. Proof. done. Qed.
Lemma semi_true o : semi true o = front [Semi] o. Proof. done. Qed.

Section desc.
Context (dt : bool).
Fixpoint toks_type (t : gtype) : list token :=
  match t with
  | TBool => [Word "bool"] | TFloat => [Word "float64"] | TInt => [Word "int64"] | TString => [Word "string"]
  | TTime => [Word "time"; Punct "."; Word "Time"] | TMap => [Word "map"; Punct "["; Word "string"; Punct "]"; Word "string"]
  | TPtr t => Punct "*" :: toks_type t
  | TSlice t => Punct "[" :: Punct "]" :: toks_type t
  | TStruct ds => Word "struct" :: Punct "{" :: flat_map toks_decl ds ++ [Punct "}"]
  | TNamed n => [Word n]
  end
with toks_decl (d : gdecl) : list token :=
  let 'GDecl desc go json req oty := d in
  match oty with
  | None => []
  | Some ty => Word go :: toks_type ty ++ [Raw (tag_of dt desc json req ty); Semi]
  end.

(** ** words *)
Lemma id_nul c : id_char c = true -> c <> "000"%char.
Proof. intros H ->. vm_compute in H. done. Qed.
Lemma id_start_char c : id_start c = true -> id_char c = true.
Proof. unfold id_char. by intros ->. Qed.
Lemma scan_in_word acc w s : str_all id_char w = true -> scan (InWord acc) (w +:+ s) = scan (InWord (acc +:+ w)) s.
Proof.
  revert acc. induction w as [|c w IH]; intros acc H; [by rewrite sapp_nil_r|]. cbn [str_all] in H. apply andb_true_iff in H as [Hc Hw].
  change (String c w +:+ s) with (String c (w +:+ s)). cbn [scan]. rewrite decide_False by (by apply id_nul). rewrite Hc. rewrite IH by done. by rewrite <- app_assoc_s.
Qed.
Definition not_id (s : string) : bool := match s with "" => true | String c _ => negb (id_char c) end.
Lemma scan_word_end w s : not_id s = true -> scan (InWord w) s = front [Word w] (scan (Code (ends_line w)) s).
Proof.
  destruct s as [|c s]; [done|]. cbn [not_id scan]. intros Hc%negb_true_iff. destruct (decide (c = "000"%char)); [done|]. rewrite Hc. done.
Qed.
Lemma scan_start b c s : id_start c = true -> scan (Code b) (String c s) = scan (InWord (String c "")) s.
Proof.
  intros Hc. cbn [scan]. rewrite decide_False by (by apply id_nul, id_start_char). unfold scan_code.
  rewrite decide_False by (intros ->; vm_compute in Hc; done). rewrite decide_False by (intros [->|[->| ->]]; vm_compute in Hc; done). by rewrite Hc.
Qed.
(** what is a word for the scanner *)
Definition wordy (w : string) : bool := match w with "" => false | String a w' => id_start a && str_all id_char w' end.
Lemma scan_word b w s : wordy w = true -> not_id s = true -> scan (Code b) (w +:+ s) = front [Word w] (scan (Code (ends_line w)) s).
Proof.
  destruct w as [|a w]; [done|]. cbn [wordy]. intros [Ha Hw]%andb_true_iff Hs. change (String a w +:+ s) with (String a (w +:+ s)).
  rewrite (scan_start b) by done. rewrite scan_in_word by done. by rewrite scan_word_end.
Qed.
Lemma str_all_ext p q s : (forall a, p a = q a) -> str_all p s = str_all q s.
Proof. intros H. induction s as [|a s IH]; [done|]. cbn [str_all]. by rewrite H, IH. Qed.
Lemma keywords_same w : bool_decide (w ∉ go_keywords) = negb (is_keyword w).
Proof.
  unfold is_keyword. destruct (decide (w ∈ keywords)) as [H|H].
  - rewrite (bool_decide_eq_true_2 (w ∈ keywords)) by done. apply bool_decide_eq_false_2. intros H'. apply H'. revert H.
    unfold keywords, go_keywords. rewrite !elem_of_cons. tauto.
  - rewrite (bool_decide_eq_false_2 (w ∈ keywords)) by done. apply bool_decide_eq_true_2. intros H'. apply H. revert H'.
    unfold keywords, go_keywords. rewrite !elem_of_cons. tauto.
Qed.
Lemma identifier_word w : identifier w = true -> wordy w = true /\ is_keyword w = false.
Proof.
  destruct w as [|a w]; [done|]. cbn [identifier wordy]. rewrite keywords_same. intros [[Ha Hw]%andb_true_iff Hk%negb_true_iff]%andb_true_iff.
  split; [|done]. apply andb_true_iff. split; [done|]. rewrite <- Hw. by apply str_all_ext.
Qed.
Lemma ident_ends w : identifier w = true -> ends_line w = true.
Proof. intros [_ H]%identifier_word. unfold ends_line. by rewrite H. Qed.
Lemma scan_ident b w s : identifier w = true -> not_id s = true -> scan (Code b) (w +:+ s) = front [Word w] (scan (Code true) s).
Proof. intros H Hs. rewrite scan_word; [|by apply identifier_word|done]. by rewrite ident_ends. Qed.

(** ** blanks, comments, tags *)
Lemma scan_tab b s : scan (Code b) (tabulator +:+ s) = scan (Code b) s. Proof. done. Qed.
Lemma scan_space b s : scan (Code b) (" " +:+ s) = scan (Code b) s. Proof. done. Qed.
Lemma scan_newline b s : scan (Code b) (newline +:+ s) = semi b (scan (Code false) s). Proof. done. Qed.
Definition tabs (p : string) : bool := str_all (fun a => bool_decide (a = "009"%char)) p.
Lemma str_all_app p a b : str_all p (a +:+ b) = str_all p a && str_all p b.
Proof. induction a as [|c a IH]; [done|]. change (String c a +:+ b) with (String c (a +:+ b)). cbn [str_all]. by rewrite IH, andb_assoc. Qed.
Lemma tabs_more p : tabs p = true -> tabs (p +:+ tabulator) = true.
Proof. unfold tabs. rewrite str_all_app. by intros ->. Qed.
Lemma scan_tabs b p s : tabs p = true -> scan (Code b) (p +:+ s) = scan (Code b) s.
Proof.
  unfold tabs. induction p as [|c p IH]; [done|]. cbn [str_all]. intros [Hc%bool_decide_eq_true Hp]%andb_true_iff. subst c.
  change (String "009" p +:+ s) with (tabulator +:+ (p +:+ s)). rewrite scan_tab. by apply IH.
Qed.
Lemma scan_comment b s t : without ["000"; "010"]%char s = true -> scan (InComment b) (s +:+ newline +:+ t) = semi b (scan (Code false) t).
Proof.
  induction s as [|c s IH]; [done|]. unfold without. cbn [str_all]. intros [Hc Hs]%andb_true_iff. apply negb_true_iff, bool_decide_eq_false in Hc.
  change (String c s +:+ newline +:+ t) with (String c (s +:+ newline +:+ t)). cbn [scan].
  rewrite decide_False by (intros ->; apply Hc; set_solver). rewrite decide_False by (intros ->; apply Hc; unfold newline_char; set_solver). by apply IH.
Qed.
Lemma scan_comment_line s t : without ["000"; "010"]%char s = true -> scan (Code false) (("// " +:+ s +:+ newline) +:+ t) = scan (Code false) t.
Proof. intros H. rewrite <- !app_assoc_s. change (scan (Code false) ("// " +:+ s +:+ newline +:+ t)) with (scan (InComment false) (s +:+ newline +:+ t)). by rewrite scan_comment. Qed.
Lemma scan_comment_lines l t : Forall (fun s => without ["000"; "010"]%char s = true) l ->
  scan (Code false) (join "" (map (fun line => "// " +:+ line +:+ newline) l) +:+ t) = scan (Code false) t.
Proof.
  induction 1 as [|x l Hx _ IH]; [done|]. cbn [map]. rewrite join_cons_empty. rewrite <- app_assoc_s. by rewrite scan_comment_line.
Qed.
Lemma scan_raw acc s t : raw_text s = true -> scan (InRaw acc) (s +:+ "`" +:+ t) = front [Raw (acc +:+ s)] (scan (Code true) t).
Proof.
  revert acc. induction s as [|c s IH]; intros acc; [intros _; by rewrite sapp_nil_r|]. unfold raw_text, without. cbn [str_all].
  intros [Hc Hs]%andb_true_iff. apply negb_true_iff, bool_decide_eq_false in Hc.
  change (String c s +:+ "`" +:+ t) with (String c (s +:+ "`" +:+ t)). cbn [scan].
  rewrite !decide_False; [|intros ->; apply Hc; unfold return_char; set_solver..].
  rewrite IH by done. by rewrite <- app_assoc_s.
Qed.
End desc.

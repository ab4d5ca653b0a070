(** Generated GraphQL files are read back. *)
From stdpp Require Import strings list.
From Coq Require Import Ascii NArith Lia.
From Verif Require Import GoStr GoStrL Val Conv Schema Inst Load SpecGen SpecGql Gen Avro Gql GqlL SpecDesc SpecSdl GqlC SpecDoc SpecRead DescL LexL ParseL.

Lemma all_impl (p p' : ascii -> bool) s : (forall c, p c = true -> p' c = true) -> all_chars p s = true -> all_chars p' s = true.
Proof. intros H. induction s as [|c s IH]; [done|]. cbn. intros [Hc Hs]%andb_prop. by rewrite H, IH. Qed.
Lemma white_ignored c : white c = true -> ignored c = true.
Proof. unfold ignored. by intros ->. Qed.
(** ** descriptions *)
Lemma quoted_lex prefix X desc rest ts : all_chars white prefix = true -> read_string (prefix +:+ String c_quote X) = Some (desc, newline +:+ rest) -> String.length (newline +:+ rest) <= String.length X -> lexes rest ts ->
  lexes (prefix +:+ String c_quote X) (LStr desc :: ts).
Proof.
  intros Hp Hr Hl H. apply lexes_blank; [by eapply all_impl; [|exact Hp]; apply white_ignored|]. eapply lexes_string; [|exact Hl|by apply lexes_ignored].
  rewrite <- Hr. unfold read_string. by rewrite skip_app.
Qed.
Lemma desc_shape prefix desc : desc <> "" -> exists Y, description_text prefix desc = prefix +:+ String c_quote (Y +:+ newline).
Proof.
  intros Hd. unfold description_text. rewrite decide_False by done. destruct (split desc newline) as [|a [|b ls]].
  - exists (String c_quote (String c_quote "") +:+ newline +:+ join "" (map (fun line => (if decide (line = "") then "" else prefix +:+ line) +:+ newline) []) +:+ prefix +:+ quotes3). unfold quotes3. by rewrite <- !app_assoc_s.
  - exists (desc +:+ String c_quote ""). unfold in_quotes. by rewrite <- !app_assoc_s.
  - exists (String c_quote (String c_quote "") +:+ newline +:+ join "" (map (fun line => (if decide (line = "") then "" else prefix +:+ line) +:+ newline) (a :: b :: ls)) +:+ prefix +:+ quotes3). unfold quotes3. by rewrite <- !app_assoc_s.
Qed.
Lemma last_of (ls : list string) d : ls <> [] -> last ls = Some (List.last ls d).
Proof. induction ls as [|a [|b ls] IH]; [done|done|]. intros _. change (last (a :: b :: ls)) with (last (b :: ls)). by rewrite IH. Qed.
Lemma clear_read prefix desc rest : all_chars white prefix = true -> desc <> "" -> clear_text desc = true -> read_string (description_text prefix desc +:+ rest) = Some (desc, newline +:+ rest).
Proof.
  intros Hp Hd Hc. rewrite <- comment_eq by done. unfold clear_text in Hc. rewrite bool_decide_false in Hc by done. cbn [orb] in Hc. destruct (decide (split desc newline = [desc])) as [E|E].
  - rewrite E in Hc. by apply comment_single.
  - pose proof (split_join desc newline) as Hj. destruct (split desc newline) as [|a [|b ls]] eqn:Es; [by cbn in Hj; subst| |].
    + exfalso. apply E. cbn in Hj. by subst.
    + rewrite !andb_true_iff, !negb_true_iff in Hc. destruct Hc as (((((Hs & Hr) & H3) & Hx) & Hf) & Hl). apply comment_block; rewrite ?Es; try done.
      * intros [x [y Hxy]]. assert (str_in quotes3 desc = true); [|congruence]. apply str_in_spec. by exists x, y.
      * apply existsb_exists in Hx as (l & Hin & Hb). apply andb_prop in Hb as [Hb Hi]. apply bool_decide_eq_true in Hi. apply negb_true_iff in Hb. exists l. split; [by apply elem_of_list_In|done].
      * by exists a.
      * exists (List.last (a :: b :: ls) ""). split; [by apply last_of|done].
Qed.
Lemma desc_lex prefix desc rest ts : all_chars white prefix = true -> clear_text desc = true -> lexes rest ts -> lexes (description_text prefix desc +:+ rest) (desc_toks (said desc) ++ ts).
Proof.
  intros Hp Hc H. unfold said. destruct (decide (desc = "")) as [->|Hd]; [done|]. cbn [desc_toks app]. pose proof (clear_read prefix desc rest Hp Hd Hc) as Hr. destruct (desc_shape prefix desc Hd) as [Y HY].
  rewrite HY, <- app_assoc_s, sapp_cons in *. eapply quoted_lex; [done|exact Hr| |done]. rewrite !len_app. cbn. lia.
Qed.
(** ** strings *)
Lemma printable_ascii s : all_chars printable s = true -> str_all is_ascii_char s = true.
Proof. induction s as [|c s IH]; [done|]. cbn. intros [Hc Hs]%andb_prop. rewrite IH by done. rewrite andb_true_r. unfold printable in Hc. destruct c as [[] [] [] [] [] [] [] []]; done. Qed.
Lemma printable_quote s rest : all_chars printable s = true -> read_chars (quote_str s +:+ String c_quote rest) = Some (s, rest).
Proof.
  induction s as [|c s IH]; [done|]. cbn [all_chars quote_str]. intros [Hc Hs]%andb_prop. specialize (IH Hs). rewrite <- app_assoc_s. unfold quote_char. destruct (decide (c = dquote)) as [->|N1].
  { unfold esc. rewrite !sapp_cons, sapp_nil_l. cbn [read_chars]. rewrite decide_False by done. rewrite decide_True by done. rewrite decide_False by done. by rewrite IH. }
  destruct (decide (c = backslash)) as [->|N2].
  { unfold esc. rewrite !sapp_cons, sapp_nil_l. cbn [read_chars]. rewrite decide_False by done. rewrite decide_True by done. rewrite decide_False by done. by rewrite IH. }
  unfold printable in Hc. apply bool_decide_eq_true in Hc. unfold code in Hc. replace ((32 <=? N_of_ascii c) && (N_of_ascii c <? 127))%N with true.
  2: { symmetry. apply andb_true_iff. rewrite N.leb_le, N.ltb_lt. lia. }
  rewrite sapp_cons, sapp_nil_l. cbn [read_chars]. rewrite decide_False by done. rewrite decide_False by done. rewrite IH.
  replace (plain_char c) with true; [done|]. symmetry. unfold plain_char, source_char. unfold code. rewrite bool_decide_true by (destruct Hc; assumption). cbn [orb andb].
  rewrite (bool_decide_false (c = c_quote)) by done. rewrite (bool_decide_false (c = c_backslash)) by done.
  rewrite (bool_decide_false (c = c_newline)); [|intros ->; destruct Hc as [Hc _]; by apply Hc]. rewrite (bool_decide_false (c = c_return)); [|intros ->; destruct Hc as [Hc _]; by apply Hc]. done.
Qed.
Lemma quote_str_first s t : s <> "" -> has_prefix (String c_quote "") (quote_str s +:+ t) = false.
Proof.
  destruct s as [|c s]; [done|]. intros _. cbn [quote_str]. rewrite <- app_assoc_s. unfold quote_char. destruct (decide (c = dquote)) as [->|N]; [done|]. unfold esc. repeat case_match; try done.
  rewrite sapp_cons. cbn. by rewrite decide_False by (intros E; apply N; by rewrite <- E).
Qed.
Lemma quote_lex o_quote s rest ts : all_chars printable s = true -> has_prefix (String c_quote "") rest = false -> lexes rest ts -> lexes (q o_quote s +:+ rest) (LStr s :: ts).
Proof.
  intros Hs Hq H. unfold q. rewrite printable_ascii by done. rewrite sapp_cons, <- app_assoc_s, sapp_cons, sapp_nil_l. change dquote with c_quote.
  eapply (lexes_string _ s rest); [| |done].
  - unfold read_string. rewrite skip_quote. assert (Hp : has_prefix quotes3 (String c_quote (quote_str s +:+ String c_quote rest)) = false).
    { unfold quotes3. cbn [has_prefix]. rewrite decide_True by done. destruct (decide (s = "")) as [->|Hne].
      - cbn [quote_str]. rewrite sapp_nil_l. cbn [has_prefix]. rewrite decide_True by done. exact Hq.
      - pose proof (quote_str_first s (String c_quote rest) Hne) as Hf. destruct (quote_str s +:+ String c_quote rest) as [|d u]; [done|]. cbn [has_prefix] in Hf |- *. by destruct (decide (_ = d)). }
    rewrite Hp. rewrite decide_True by done. by apply printable_quote.
  - rewrite len_app. cbn. lia.
Qed.
(** ** types *)
Lemma bang_lex nn rest ts : lexes rest ts -> lexes (bang nn +:+ rest) (bangs nn ++ ts).
Proof. intros H. destruct nn; [|done]. cbn [bang bangs app]. rewrite sapp_cons, sapp_nil_l. apply lexes_punct; [|done]. unfold gql_puncts. rewrite !elem_of_cons. tauto. Qed.
Lemma bang_first nn rest : no_first name_char rest -> no_first name_char (bang nn +:+ rest).
Proof. by destruct nn. Qed.
Ltac punct := apply lexes_punct; [unfold gql_puncts; rewrite !elem_of_cons; tauto|].
Lemma typ_lex t : Forall (fun n => gql_name n = true) (typ_names t) -> forall rest ts, no_first name_char rest -> lexes rest ts -> lexes (typ_text t +:+ rest) (toks_typ t ++ ts).
Proof.
  induction t as [n nn|t IH nn]; intros Hn rest ts Hr H; cbn [typ_text typ_names toks_typ] in *.
  - apply Forall_cons in Hn as [Hn _]. rewrite <- app_assoc_s. cbn [app]. apply lexes_name; [done|by apply bang_first|by apply bang_lex].
  - rewrite <- !app_assoc_s, sapp_cons, sapp_nil_l. cbn [app]. punct. rewrite <- app_assoc. apply IH; [done|done|]. rewrite sapp_cons, sapp_nil_l. cbn [app]. punct. by apply bang_lex.
Qed.
Lemma typ_of_text required t T : typ_of required t = Some T -> qtype_text required t = typ_text T /\ Forall (fun n => gql_name n = true) (typ_names T).
Proof.
  revert T. induction t as [n nn|t IH nn|s]; intros T; cbn [typ_of qtype_text].
  - destruct (gql_name n) eqn:E; [|done]. intros [= <-]. split; [by destruct nn|]. by repeat constructor.
  - destruct (typ_of required t) as [U|]; [|done]. intros [= <-]. destruct (IH U eq_refl) as [-> Hn]. split; [by destruct nn|done].
  - unfold typ_given. destruct (lex_all s) as [ts|]; [|done]. destruct (p_typ _ ts) as [[U [|]]|]; try done. case_decide as Hd; [|done]. intros [= <-]. by destruct Hd.
Qed.
(** ** arguments *)
Lemma closed_app a b : closed b -> b <> "" -> closed (a +:+ b).
Proof. intros [?|[y ->]] Hb; [done|]. right. exists (a +:+ y). by rewrite app_assoc_s. Qed.
Lemma closed_join (f : string -> string) args : closed (join "" (map (fun a => f a +:+ newline) args)).
Proof.
  induction args as [|a args IH]; [by left|]. cbn [map]. rewrite join_cons_nil. destruct (decide (join "" (map (fun a => f a +:+ newline) args) = "")) as [->|Hne]; [|by apply closed_app].
  rewrite sapp_nil_r. right. by exists (f a).
Qed.
Lemma inner_ok text ts args : closed text -> lex_all text = Some ts -> many1 (S (length ts)) (p_input (S (length ts))) ")" (ts ++ [LPunct ")"]) = Some (args, []) ->
  args_toks args (LPunct "(" :: ts ++ [LPunct ")"]) /\
  forall rest tr, lexes rest tr -> lexes ("(" +:+ newline +:+ text +:+ "  )" +:+ rest) ((LPunct "(" :: ts ++ [LPunct ")"]) ++ tr).
Proof.
  intros Hc Hl Hm. split.
  - right. exists ts. split; [done|]. intros n rest Hn. destruct (many1_more rest _ _ ")" (ext_input rest (S (length ts)) n ltac:(lia)) (S (length ts)) n _ _ _ ltac:(lia) Hm) as [_ H].
    rewrite <- app_assoc in H. exact H.
  - intros rest tr H. rewrite sapp_cons, sapp_nil_l. cbn [app]. punct. change (newline +:+ ?x) with (String c_newline x). apply lexes_ignored; [done|]. rewrite <- app_assoc.
    eapply lex_app; [exact Hl|done|]. rewrite !sapp_cons, sapp_nil_l. apply lexes_ignored; [done|]. apply lexes_ignored; [done|]. cbn [app]. by punct.
Qed.
Definition list_body : string :=
  "    ""A List Filter expression such as '{Field: \""position\"", Operation: \""<=\"", Argument: {Value: 10}}'""" +:+ newline +:+
  "    filter: ListFilter" +:+ newline +:+ newline +:+
  "    ""Sort the list, ie '{Field: \""position\"", Order: \""ASC\""}'""" +:+ newline +:+
  "    sort: ListSortParams" +:+ newline.
Lemma list_args_eq : list_args = "(" +:+ newline +:+ list_body +:+ "  )".
Proof. reflexivity. Qed.
Lemma args_lex d args : inputs_of d = Some args -> exists ta, args_toks args ta /\ forall rest ts, lexes rest ts -> lexes (args_text d +:+ rest) (ta ++ ts).
Proof.
  unfold inputs_of, args_text. destruct (qd_type d) as [n nn|t nn|s].
  - intros [= <-]. exists []. split; [by left|]. done.
  - intros [= <-]. destruct (lex_all list_body) as [ts|] eqn:El; [|by vm_compute in El]. destruct (inner_ok list_body ts list_inputs) as [Ha Hl].
    + right. eexists (String.substring 0 (String.length list_body - 1) list_body). vm_compute. reflexivity.
    + done.
    + vm_compute in El. injection El as <-. vm_compute. reflexivity.
    + exists (LPunct "(" :: ts ++ [LPunct ")"]). split; [done|]. intros rest tr H. rewrite list_args_eq, <- !app_assoc_s. by apply Hl.
  - unfold inputs_given. destruct (qd_args d) as [|a args']; [intros [= <-]; exists []; split; [by left|done]|]. set (text := join "" _). destruct (lex_all text) as [ts|] eqn:El; [|done].
    destruct (many1 _ _ _ _) as [[l [|]]|] eqn:Em; try done. intros [= <-]. destruct (inner_ok text ts l) as [Ha Hl]; [apply (closed_join (fun a => if decide (a = "") then "" else "    " +:+ a))|done|done|].
    exists (LPunct "(" :: ts ++ [LPunct ")"]). split; [done|]. intros rest tr H. rewrite <- !app_assoc_s. by apply Hl.
Qed.
(** ** fields *)
Ltac blank := rewrite ?sapp_nil_l, sapp_cons; apply lexes_ignored; [done|].
Ltac endline := change (newline +:+ ?x) with (String c_newline x); apply lexes_ignored; [done|].
Section defs.
Context (title trim o_quote : string -> string) (import : string).
Notation field_of := (field_of trim).
Notation show_field := (show_field (q o_quote) trim).
Lemma deprecated_lex reason rest ts : all_chars printable reason = true -> lexes rest ts ->
  lexes (" @deprecated(reason: " +:+ q o_quote reason +:+ ")" +:+ rest) ([LPunct "@"; LName "deprecated"; LPunct "("; LName "reason"; LPunct ":"; LStr reason; LPunct ")"] ++ ts).
Proof.
  intros Hr H. cbn [app].
  change (" @deprecated(reason: " +:+ q o_quote reason +:+ ")" +:+ rest) with (" " +:+ "@" +:+ "deprecated" +:+ "(" +:+ "reason" +:+ ":" +:+ " " +:+ q o_quote reason +:+ ")" +:+ rest).
  blank. rewrite !sapp_nil_l, sapp_cons, sapp_nil_l. punct. apply lexes_name; [done|done|]. rewrite sapp_cons, sapp_nil_l. punct. apply lexes_name; [done|done|]. rewrite sapp_cons, sapp_nil_l. punct. blank. rewrite sapp_nil_l.
  apply quote_lex; [done|done|]. rewrite sapp_cons, sapp_nil_l. by punct.
Qed.
Lemma resolver_lex rest ts : lexes rest ts ->
  lexes (" @goField(forceResolver: true)" +:+ rest) ([LPunct "@"; LName "goField"; LPunct "("; LName "forceResolver"; LPunct ":"; LName "true"; LPunct ")"] ++ ts).
Proof.
  intros H. cbn [app].
  change (" @goField(forceResolver: true)" +:+ rest) with (" " +:+ "@" +:+ "goField" +:+ "(" +:+ "forceResolver" +:+ ":" +:+ " " +:+ "true" +:+ ")" +:+ rest).
  blank. rewrite !sapp_nil_l, sapp_cons, sapp_nil_l. punct. apply lexes_name; [done|done|]. rewrite sapp_cons, sapp_nil_l. punct. apply lexes_name; [done|done|]. rewrite sapp_cons, sapp_nil_l. punct. blank. rewrite sapp_nil_l.
  apply lexes_name; [done|done|]. rewrite sapp_cons, sapp_nil_l. by punct.
Qed.
Lemma model_lex model rest ts : all_chars printable model = true -> lexes rest ts ->
  lexes ("@goModel(model: " +:+ q o_quote model +:+ ") " +:+ rest) ([LPunct "@"; LName "goModel"; LPunct "("; LName "model"; LPunct ":"; LStr model; LPunct ")"] ++ ts).
Proof.
  intros Hr H. cbn [app].
  change ("@goModel(model: " +:+ q o_quote model +:+ ") " +:+ rest) with ("@" +:+ "goModel" +:+ "(" +:+ "model" +:+ ":" +:+ " " +:+ q o_quote model +:+ ")" +:+ " " +:+ rest).
  rewrite sapp_cons, sapp_nil_l. punct. apply lexes_name; [done|done|]. rewrite sapp_cons, sapp_nil_l. punct. apply lexes_name; [done|done|]. rewrite sapp_cons, sapp_nil_l. punct. blank. rewrite sapp_nil_l.
  apply quote_lex; [done|done|]. rewrite sapp_cons, sapp_nil_l. punct. by blank.
Qed.
Lemma args_first d rest : no_first name_char (args_text d +:+ ": " +:+ rest).
Proof. unfold args_text. destruct (qd_type d); [done|done|]. by destruct (qd_args d). Qed.
Lemma field_lex required d f : field_of required d = Some f ->
  exists tf, field_toks f tf /\ forall rest ts, lexes rest ts -> lexes (show_field required d +:+ rest) (tf ++ ts).
Proof.
  unfold field_of, SpecRead.field_of, SpecGql.show_field. intros Hf.
  set (dep := deprecation trim (qd_desc d)) in *.
  set (desc := match dep with Some (_, rest) => rest | None => qd_desc d end).
  assert (Hdir : exists dirs td, (match dep with Some (reason, rest) => (if all_chars printable reason then Some [Directive "deprecated" [("reason", GStr reason)]] else None, rest) | None => (Some [], qd_desc d) end) = (Some dirs, desc) /\
    dir_toks dirs td /\ forall rest ts, lexes rest ts -> lexes ((match dep with Some (reason, _) => " @deprecated(reason: " +:+ q o_quote reason +:+ ")" | None => "" end) +:+ rest) (td ++ ts)).
  { unfold desc. destruct dep as [[reason r]|].
    - destruct (all_chars printable reason) eqn:Ep; [|by destruct (typ_of _ _), (inputs_of d)]. eexists _, _. split; [done|]. split; [apply (dir_cons "deprecated" "reason" (GStr reason) (LStr reason) [] []); [done|constructor]|].
      intros rest ts H. rewrite <- !app_assoc_s. by apply deprecated_lex.
    - exists [], []. split; [done|]. split; [constructor|done]. }
  destruct Hdir as (dirs & td & Hd & Htd & Hl). rewrite Hd in Hf. destruct (typ_of required (qd_type d)) as [t|] eqn:Et; [|done]. destruct (inputs_of d) as [args|] eqn:Ea; [|done].
  destruct (gql_name (qd_json d) && clear_text desc) eqn:En; [|done]. injection Hf as <-. apply andb_prop in En as [En Ec]. apply typ_of_text in Et as [-> Hn]. apply args_lex in Ea as (ta & Hta & Hla).
  set (gf := if is_list (qd_type d) then [LPunct "@"; LName "goField"; LPunct "("; LName "forceResolver"; LPunct ":"; LName "true"; LPunct ")"] else []).
  exists (desc_toks (said desc) ++ LName (qd_json d) :: ta ++ LPunct ":" :: toks_typ t ++ gf ++ td). split.
  - exists ta, (gf ++ td). cbn [fl_args fl_dirs fl_desc fl_name fl_type]. split; [done|]. split; [|done]. unfold gf. destruct (is_list (qd_type d)); [|done]. by apply (dir_cons "goField" "forceResolver" (GName "true") (LName "true")).
  - intros rest ts H. rewrite <- !app_assoc_s, <- app_assoc. apply desc_lex; [done|done|]. do 2 blank. rewrite sapp_nil_l. cbn [app]. apply lexes_name; [done|apply args_first|]. rewrite <- app_assoc. apply Hla.
    rewrite sapp_cons. cbn [app]. punct. blank. rewrite sapp_nil_l. rewrite <- app_assoc. apply typ_lex; [done| |].
    + destruct (is_list _); [done|]. rewrite sapp_nil_l. by destruct dep as [[]|].
    + rewrite <- app_assoc. unfold gf. destruct (is_list (qd_type d)).
      * apply resolver_lex. apply Hl. by endline.
      * rewrite sapp_nil_l. cbn [app]. apply Hl. by endline.
Qed.
Lemma fields_lex (req : list string) l fs : mapM (fun d => field_of (bool_decide (qd_json d ∈ req)) d) l = Some fs ->
  exists tss, Forall2 field_toks fs tss /\ forall rest ts, lexes rest ts -> lexes (join newline (map (fun d => show_field (bool_decide (qd_json d ∈ req)) d) l) +:+ rest) (List.concat tss ++ ts).
Proof.
  revert fs. induction l as [|d l IH]; intros fs; cbn [mapM].
  - intros [= <-]. exists []. split; [constructor|done].
  - destruct (field_of _ d) as [f|] eqn:Ef; [|done]. cbn. destruct (mapM _ l) as [fs'|] eqn:El; [|done]. intros [= <-]. destruct (field_lex _ d f Ef) as (tf & Ht & Hl). destruct (IH fs' eq_refl) as (tss & Hts & Hls).
    exists (tf :: tss). split; [by constructor|]. intros rest ts H. cbn [List.concat]. rewrite <- app_assoc. destruct l as [|d2 l].
    + cbn [map join]. injection El as <-. inversion Hts; subst. cbn [List.concat app]. by apply Hl.
    + change (lexes ((show_field (bool_decide (qd_json d ∈ req)) d +:+ newline +:+ join newline (map (fun d => show_field (bool_decide (qd_json d ∈ req)) d) (d2 :: l))) +:+ rest) (tf ++ List.concat tss ++ ts)). rewrite <- !app_assoc_s. apply Hl. change (newline +:+ ?x) with (String c_newline x). apply lexes_ignored; [done|]. by apply Hls.
Qed.
Definition good_kind (t : string * string * qstruct) : Prop := t.1.1 = "type" \/ t.1.1 = "interface".
Lemma type_lex t def : good_kind t -> def_of title trim import t = Some def ->
  exists td, def_toks def td /\ forall rest ts, lexes rest ts -> lexes (show_type title (q o_quote) trim import t.1.1 t.1.2 t.2 +:+ rest) (td ++ ts).
Proof.
  destruct t as [[kind impl] s]. unfold good_kind, def_of, show_type. cbn [fst snd]. intros Hk. destruct (mapM _ (qs_fields s)) as [[|f fs]|] eqn:Ef; try done. destruct (fields_lex _ _ _ Ef) as (tss & Hts & Hlf).
  set (model := import +:+ "." +:+ title (qs_key s)). destruct (gql_name (qs_name s) && _ && _ && _) eqn:Ec; [|done]. rewrite !andb_true_iff in Ec. destruct Ec as (((En & Ei) & Ed) & Em). intros [= <-].
  set (is := if decide (impl = "") then [] else [impl]).
  set (dirs := if existsb (fun d => negb (is_virtual d)) (qs_fields s) then [Directive "goModel" [("model", GStr model)]] else []).
  set (td := if existsb (fun d => negb (is_virtual d)) (qs_fields s) then [LPunct "@"; LName "goModel"; LPunct "("; LName "model"; LPunct ":"; LStr model; LPunct ")"] else []).
  eexists. split.
  - apply (toks_type kind (said (qs_desc s)) (qs_name s) is dirs td (f :: fs) tss); [done| | |done|done].
    + unfold is. destruct (decide (impl = "")); [apply Nat.le_0_l|apply Nat.le_refl].
    + unfold dirs, td. destruct (existsb _ _); [|constructor]. apply (dir_cons "goModel" "model" (GStr model) (LStr model) [] []); [done|constructor].
  - intros rest ts H. rewrite <- !app_assoc_s, <- app_assoc. apply desc_lex; [done|done|]. cbn [app]. apply lexes_name; [by destruct Hk as [-> | ->]|done|]. blank. rewrite sapp_nil_l. rewrite <- !app_assoc. cbn [app]. rewrite <- !app_assoc.
    assert (Hbody : forall x, lexes x ts -> lexes (" " +:+ (if existsb (fun d => negb (is_virtual d)) (qs_fields s) then "@goModel(model: " +:+ q o_quote model +:+ ") " else "") +:+ "{" +:+ newline +:+
       join newline (map (fun d => show_field (bool_decide (qd_json d ∈ qs_req s)) d) (qs_fields s)) +:+ "}" +:+ x) (td ++ LPunct "{" :: List.concat tss ++ LPunct "}" :: ts)).
    { intros x Hx. blank. rewrite sapp_nil_l. assert (Hb : lexes ("{" +:+ newline +:+ join newline (map (fun d => show_field (bool_decide (qd_json d ∈ qs_req s)) d) (qs_fields s)) +:+ "}" +:+ x) (LPunct "{" :: List.concat tss ++ LPunct "}" :: ts)).
      { rewrite sapp_cons, sapp_nil_l. punct. change (newline +:+ ?x) with (String c_newline x). apply lexes_ignored; [done|]. apply Hlf. rewrite sapp_cons, sapp_nil_l. by punct. }
      unfold td. destruct (existsb _ _); [|by rewrite sapp_nil_l]. rewrite <- !app_assoc_s. by apply model_lex. }
    unfold is. destruct (decide (impl = "")) as [Hi|Hi].
    + cbn [impl_toks app]. rewrite sapp_nil_l. apply lexes_name; [done|done|]. apply Hbody. by endline.
    + rewrite bool_decide_false in Ei by done. cbn [orb] in Ei. cbn [impl_toks app]. rewrite <- !app_assoc_s. apply lexes_name; [done|done|].
      change (" implements " +:+ ?x) with (" " +:+ "implements" +:+ " " +:+ x). blank. rewrite sapp_nil_l. apply lexes_name; [done|done|]. blank. rewrite sapp_nil_l. apply lexes_name; [done|done|]. apply Hbody. by endline.
Qed.
End defs.
(** ** files *)
Section files.
Context (title lower trim o_quote : string -> string) (structs_map types_map : string -> option string) (import : string).
Notation show_type := (show_type title (q o_quote) trim import).
Notation show_types := (show_types title (q o_quote) trim import).
Definition show_all (l : list (string * string * qstruct)) : string := join "" (map (fun t => newline +:+ show_type t.1.1 t.1.2 t.2) l).
Lemma show_all_cons t l : show_all (t :: l) = newline +:+ show_type t.1.1 t.1.2 t.2 +:+ show_all l.
Proof. unfold show_all. cbn [map]. rewrite join_cons_nil. by rewrite <- app_assoc_s. Qed.
Lemma show_all_app l l' : show_all (l ++ l') = show_all l +:+ show_all l'.
Proof. induction l as [|t l IH]; [done|]. cbn [app]. rewrite !show_all_cons, IH. by rewrite <- !app_assoc_s. Qed.
Lemma show_with kind impl s Ss : show_types kind impl s (types_by_name Ss) = show_all (with_objects (kind, impl, s) Ss).
Proof.
  unfold SpecGql.show_types, with_objects. rewrite show_all_cons. cbn [fst snd]. do 2 f_equal. generalize (types_by_name Ss). clear. intros Ss. induction Ss as [|s Ss IH]; [done|]. cbn [map]. rewrite join_cons_nil, IH.
  rewrite filter_cons. destruct (qs_dead s); [rewrite decide_False by done; by rewrite sapp_nil_l|]. rewrite decide_True by done. cbn [map]. rewrite show_all_cons. cbn [fst snd]. by rewrite <- app_assoc_s.
Qed.
Lemma good_with kind impl s Ss : kind = "type" \/ kind = "interface" -> Forall good_kind (with_objects (kind, impl, s) Ss).
Proof. intros Hk. constructor; [done|]. apply Forall_forall. intros t (x & -> & _)%elem_of_list_fmap. by left. Qed.
Lemma kind_good s : kind_of s = "type" \/ kind_of s = "interface".
Proof. unfold kind_of. destruct (n_oneOf s); tauto. Qed.
Lemma defs_lex l ds : Forall good_kind l -> mapM (def_of title trim import) l = Some ds ->
  exists tss, Forall2 def_toks ds tss /\ lexes (show_all l) (List.concat tss).
Proof.
  intros Hg H%mapM_Some. induction H as [|t d l ds Ed H IH].
  - exists []. split; [constructor|apply lexes_nil].
  - apply Forall_cons in Hg as [Ht Hg]. destruct (IH Hg) as (tss & Hts & Hl).
    destruct (type_lex title trim o_quote import t d Ht Ed) as (td & Htd & Hld). exists (td :: tss). split; [by constructor|]. rewrite show_all_cons. cbn [List.concat]. endline. by apply Hld.
Qed.
Definition any_text (any : bool) : string := if any then newline +:+ "scalar Any" +:+ newline else "".
Lemma file_read e ds : Forall good_kind e.2 -> defs_of title trim import e = Some ds -> parse_gql (header +:+ any_text e.1.2 +:+ show_all e.2) = Some ds.
Proof.
  intros Hg. unfold defs_of. destruct (mapM _ e.2) as [ds'|] eqn:El; [|done]. intros [= <-]. destruct (defs_lex e.2 ds' Hg El) as (tss & Hts & Hl).
  assert (H : exists tss', Forall2 def_toks ((if e.1.2 then [DScalar None "Any" []] else []) ++ ds') tss' /\ lexes (any_text e.1.2 +:+ show_all e.2) (List.concat tss')).
  { destruct e.1.2; [|by exists tss]. exists ([LName "scalar"; LName "Any"] :: tss). split; [constructor; [apply (toks_scalar None "Any")|done]|]. cbn [any_text List.concat app].
    change ((newline +:+ "scalar Any" +:+ newline) +:+ show_all e.2) with (String c_newline ("scalar" +:+ " " +:+ "Any" +:+ newline +:+ show_all e.2)). apply lexes_ignored; [done|]. apply lexes_name; [done|done|]. blank. rewrite sapp_nil_l. apply lexes_name; [done|done|]. by endline. }
  destruct H as (tss' & Hts' & Hl').
  unfold parse_gql. rewrite (lexes_all _ (List.concat tss')).
  - apply document_ok; [done|lia].
  - unfold header. rewrite <- app_assoc_s. change ("# // Code generated by github.com/GannettDigital/jstransform; DO NOT EDIT." +:+ newline +:+ any_text e.1.2 +:+ show_all e.2)
      with ("#" +:+ " // Code generated by github.com/GannettDigital/jstransform; DO NOT EDIT." +:+ newline +:+ any_text e.1.2 +:+ show_all e.2). by apply lexes_comment.
Qed.
Notation doc_files := (doc_files title lower structs_map types_map).
Notation document := (document title lower structs_map types_map (q o_quote) trim import).
Lemma common_eq pkg schema cs : common_text title structs_map types_map (q o_quote) trim import pkg schema cs = show_all (common_types title structs_map types_map pkg schema cs).
Proof. unfold common_text, common_types. destruct (has_all schema); [|done]. apply show_with. Qed.
Lemma member_eq name schema cs m c : member_text title lower structs_map types_map (q o_quote) trim import name schema cs m c = show_all (member_types title lower structs_map types_map name schema cs m c).
Proof. apply show_with. Qed.
Lemma own_eq file schema own : own_text title lower structs_map types_map (q o_quote) trim import file schema own = show_all (own_types title lower structs_map types_map file schema own).
Proof. unfold own_text, own_types. destruct (n_allOf schema), (n_oneOf schema); try done. apply show_with. Qed.
Lemma common_good pkg schema cs : Forall good_kind (common_types title structs_map types_map pkg schema cs).
Proof. unfold common_types. destruct (has_all schema); [|constructor]. apply good_with, kind_good. Qed.
Lemma member_good name schema cs m c : Forall good_kind (member_types title lower structs_map types_map name schema cs m c).
Proof. apply good_with, kind_good. Qed.
Lemma own_good file schema own : Forall good_kind (own_types title lower structs_map types_map file schema own).
Proof. unfold own_types. destruct (n_allOf schema), (n_oneOf schema); try constructor; [by left|]. apply Forall_forall. intros t (x & -> & _)%elem_of_list_fmap. by left. Qed.
Lemma files_eq any files file name pkg schema cs os own :
  Forall2 (fun (f : string * string) e => f.1 = e.1.1 /\ f.2 = header +:+ any_text e.1.2 +:+ show_all e.2 /\ Forall good_kind e.2) (document any files file name pkg schema cs os own) (doc_files any files file name pkg schema cs os own).
Proof.
  unfold SpecDoc.document, SpecRead.doc_files. destruct files.
  - constructor.
    + cbn [fst snd]. split; [done|]. split; [|apply Forall_app; split; [apply common_good|apply own_good]]. rewrite show_all_app, common_eq, own_eq, <- app_assoc_s. done.
    + generalize (n_oneOf schema) at 1 2. intros ms. revert os. induction ms as [|m ms IH]; intros [|c os]; try constructor; [|apply IH]. cbn [fst snd]. split; [done|]. split; [|apply member_good]. by rewrite member_eq.
  - constructor; [|constructor]. cbn [fst snd]. split; [done|]. split.
    + rewrite !show_all_app, common_eq, own_eq, <- app_assoc_s. do 4 f_equal. generalize (n_oneOf schema). intros ms. revert os. induction ms as [|m ms IH]; intros [|c os]; try done.
      cbn [zip_with fmap list_fmap fst snd]. rewrite join_cons_nil, IH. cbn [mjoin list_join]. rewrite show_all_app. by rewrite member_eq.
    + apply Forall_app. split; [apply common_good|]. apply Forall_app. split; [|apply own_good]. generalize (n_oneOf schema). intros ms. revert os. induction ms as [|m ms IH]; intros [|c os]; [apply Forall_nil_2..|].
      cbn [zip_with fmap list_fmap fst snd mjoin list_join]. apply Forall_app. split; [apply member_good|apply IH].
Qed.
Lemma document_read any files file name pkg schema cs os own defss : mapM (defs_of title trim import) (doc_files any files file name pkg schema cs os own) = Some defss ->
  map (fun f : string * string => (f.1, parse_gql f.2)) (document any files file name pkg schema cs os own) = zip_with (fun e ds => (e.1.1, Some ds)) (doc_files any files file name pkg schema cs os own) defss.
Proof.
  generalize (files_eq any files file name pkg schema cs os own). generalize (document any files file name pkg schema cs os own) (doc_files any files file name pkg schema cs os own). clear.
  intros fs es H Hm%mapM_Some. revert fs H. induction Hm as [|e ds es defss Ed Hm IH]; intros fs H; inversion H as [|f e' fs' es' (H1 & H2 & H3) H']; subst; [done|].
  cbn [map zip_with]. rewrite H1, H2, (file_read e ds H3 Ed). f_equal. by apply IH.
Qed.
End files.

(** Parsing the tokens of declarations, and whole files. *)
From stdpp Require Import strings list gmap.
From Coq Require Import Ascii ZArith Lia.
From Verif Require Import GoStr GoStrL Val Conv SpecGen SpecNamed Avro GoSrc SpecGo GoSrcL GoSrcP.

Section dt.
Context (dt : bool).
Definition not_dot (ts : list token) : Prop := match ts with Punct "." :: _ => False | _ => True end.
Lemma p_ident n w ts : identifier w = true -> not_dot ts -> p_type (S n) (Word w :: ts) = Some (RIdent w, ts).
Proof.
  intros [_ H]%identifier_word Hd. cbn [p_type]. rewrite decide_False by (intros ->; vm_compute in H; done). rewrite decide_False by (intros ->; vm_compute in H; done).
  rewrite H. destruct ts as [|[| c| | |] ts]; try done. destruct c as [[] [] [] [] [] [] [] []]; try done.
Qed.
Definition ok_type (t : gtype) : Prop := writable_type dt t = true -> forall n ts, length (toks_type dt t) < n -> not_dot ts ->
  p_type n (toks_type dt t ++ ts) = Some (src_type dt t, ts).
Definition ok_decl (d : gdecl) : Prop := match d with GDecl _ _ _ _ None => True | GDecl _ _ _ _ (Some t) => ok_type t end.
Lemma src_some desc go json req t : src_field dt (GDecl desc go json req (Some t)) = [RField [go] (src_type dt t) (Some ("`" +:+ tag_of dt desc json req t +:+ "`"))].
Proof. done. Qed.
(** the first token of a type *)
Lemma toks_first t : exists x l, toks_type dt t = x :: l /\ (match x with Word _ => True | Punct c => c = "*"%char \/ c = "["%char | _ => False end).
Proof. destruct t; (eexists _, _; split; [reflexivity|]; first [exact I|left; reflexivity|right; reflexivity]). Qed.
Lemma p_field_ok desc go json req t n ts : ok_type t -> writable dt (GDecl desc go json req (Some t)) = true ->
  length (toks_type dt t) + 1 < n ->
  p_field n (Word go :: toks_type dt t ++ Raw (tag_of dt desc json req t) :: Semi :: ts) =
    Some (RField [go] (src_type dt t) (Some ("`" +:+ tag_of dt desc json req t +:+ "`")), Semi :: ts).
Proof.
  intros H Hw Hn. rewrite writable_some in Hw. apply andb_true_iff in Hw as [_ [[Hg _]%andb_true_iff Ht]%andb_true_iff].
  destruct n as [|n]; [lia|]. cbn [p_field]. rewrite (proj2 (identifier_word go Hg)).
  assert (E := H Ht n (Raw (tag_of dt desc json req t) :: Semi :: ts) ltac:(lia) I).
  destruct (toks_first t) as (x & l & Ex & Hx). rewrite Ex in *. cbn [app] in E |- *. destruct x as [w|c| | |]; try done.
  - rewrite E. done.
  - destruct Hx as [-> | ->]; rewrite E; done.
Qed.
Lemma p_fields_ok ds n ts : Forall ok_decl ds -> forallb (writable dt) ds = true -> length (flat_map (toks_decl dt) ds) < n ->
  p_fields n (flat_map (toks_decl dt) ds ++ Punct "}" :: ts) = Some (flat_map (src_field dt) ds, ts).
Proof.
  intros H. revert n. induction H as [|d ds Hd _ IH]; intros n Hw Hn; [destruct n; [cbn in Hn; lia|done]|].
  cbn [forallb] in Hw. apply andb_true_iff in Hw as [Hwd Hw]. destruct d as [desc go json req [t|]].
  - cbn [flat_map] in Hn |- *. rewrite toks_some in Hn |- *. rewrite src_some. rewrite !app_length in Hn. cbn [length] in Hn. rewrite app_length in Hn. cbn [length] in Hn.
    destruct n as [|n]; [lia|]. cbn [p_fields app]. rewrite <- app_assoc. cbn [app]. rewrite <- app_assoc. cbn [app].
    rewrite p_field_ok by (done || lia). rewrite <- ?app_assoc. cbn [app]. rewrite IH by (done || lia). done.
  - cbn [flat_map] in Hn |- *. cbn [toks_decl src_field app]. apply IH; [done|]. exact Hn.
Qed.
Lemma p_type_ok t : ok_type t.
Proof.
  revert t. apply (gtype_ind2 ok_type ok_decl).
  - intros Hw [|n] ts Hn Hd; [cbn in Hn; lia|]. by apply (p_ident n "bool").
  - intros Hw [|n] ts Hn Hd; [cbn in Hn; lia|]. by apply (p_ident n "float64").
  - intros Hw [|n] ts Hn Hd; [cbn in Hn; lia|]. by apply (p_ident n "int64").
  - intros Hw [|n] ts Hn Hd; [cbn in Hn; lia|]. by apply (p_ident n "string").
  - intros Hw [|n] ts Hn Hd; [cbn in Hn; lia|]. done.
  - intros Hw [|[|n]] ts Hn Hd; [cbn in Hn; lia..|].
    change (match p_type (S n) (Word "string" :: Punct "]" :: Word "string" :: ts) with
      | Some (k, Punct "]" :: ts2) => match p_type (S n) ts2 with Some (v, ts3) => Some (RMap k v, ts3) | None => None end | _ => None end = Some (RMap (RIdent "string") (RIdent "string"), ts)).
    rewrite p_ident by done. by rewrite p_ident.
  - intros t IH Hw [|n] ts Hn Hd; [cbn in Hn; lia|]. change (toks_type dt (TPtr t)) with (Punct "*" :: toks_type dt t) in Hn |- *. cbn [length] in Hn.
    change (match p_type n (toks_type dt t ++ ts) with Some (t, ts1) => Some (RStar t, ts1) | None => None end = Some (RStar (src_type dt t), ts)).
    rewrite IH by (done || lia). done.
  - intros t IH Hw [|n] ts Hn Hd; [cbn in Hn; lia|]. change (toks_type dt (TSlice t)) with (Punct "[" :: Punct "]" :: toks_type dt t) in Hn |- *. cbn [length] in Hn.
    change (match p_type n (toks_type dt t ++ ts) with Some (t, ts1) => Some (RArray t, ts1) | None => None end = Some (RArray (src_type dt t), ts)).
    rewrite IH by (done || lia). done.
  - intros ds IH Hw [|n] ts Hn Hd; [cbn in Hn; lia|]. rewrite toks_struct in Hn |- *. cbn [length] in Hn. rewrite app_length in Hn. cbn [length] in Hn. cbn [app].
    change (match p_fields n ((flat_map (toks_decl dt) ds ++ [Punct "}"]) ++ ts) with Some (fs, ts2) => Some (RStruct fs, ts2) | None => None end = Some (RStruct (flat_map (src_field dt) ds), ts)).
    rewrite <- app_assoc. cbn [app]. rewrite p_fields_ok by (done || lia). done.
  - intros m Hw [|n] ts Hn Hd; [cbn in Hn; lia|]. by apply p_ident.
  - done.
  - intros desc go json req t IH. exact IH.
Qed.
Lemma all_ok ds : Forall ok_decl ds.
Proof. apply Forall_forall. intros [? ? ? ? [t|]] _; [apply p_type_ok|exact I]. Qed.

(** ** structs *)
Definition toks_embed (e : string) : list token := [Word e; Semi].
Definition toks_body (embeds : list string) (ds : list gdecl) : list token := flat_map toks_embed embeds ++ flat_map (toks_decl dt) ds.
Lemma p_embeds embeds ds n ts : forallb identifier embeds = true -> forallb (writable dt) ds = true -> length (toks_body embeds ds) < n ->
  p_fields n (toks_body embeds ds ++ Punct "}" :: ts) = Some (map src_embed embeds ++ flat_map (src_field dt) ds, ts).
Proof.
  unfold toks_body. revert n. induction embeds as [|e embeds IH]; intros n He Hw Hn; [apply p_fields_ok; [apply all_ok|done|exact Hn]|].
  cbn [forallb] in He. apply andb_true_iff in He as [He1 He]. cbn [flat_map toks_embed app length] in Hn |- *. cbn [map app].
  destruct n as [|[|[|n]]]; [lia..|]. rewrite <- ?app_assoc. remember (S (S n)) as m. cbn [p_fields]. subst m.
  assert (E : p_field (S (S n)) (Word e :: Semi :: flat_map toks_embed embeds ++ flat_map (toks_decl dt) ds ++ Punct "}" :: ts) =
    Some (src_embed e, Semi :: flat_map toks_embed embeds ++ flat_map (toks_decl dt) ds ++ Punct "}" :: ts)).
  { remember (S n) as m. cbn [p_field]. subst m. rewrite (proj2 (identifier_word e He1)). by rewrite p_ident. }
  rewrite E. rewrite app_assoc. rewrite IH by (done || lia). done.
Qed.
Lemma scan_embeds embeds s : forallb identifier embeds = true ->
  scan (Code false) ((if decide (join newline embeds = "") then "" else join newline embeds +:+ newline +:+ newline) +:+ s) = front (flat_map toks_embed embeds) (scan (Code false) s).
Proof.
  intros He. destruct embeds as [|e embeds]; [cbn; by rewrite front_nil|].
  assert (Hne : join newline (e :: embeds) <> "").
  { cbn [forallb] in He. apply andb_true_iff in He as [He _]. destruct e as [|a e]; [done|]. destruct embeds; [done|]. by rewrite join_cons. }
  rewrite decide_False by done.
  assert (H : forall e embeds s, forallb identifier (e :: embeds) = true -> scan (Code false) (join newline (e :: embeds) +:+ newline +:+ s) = front (flat_map toks_embed (e :: embeds)) (scan (Code false) s)).
  { clear. intros e embeds. revert e. induction embeds as [|e' embeds IH]; intros e s; cbn [forallb]; intros [He He']%andb_true_iff.
    - cbn [join]. rewrite scan_ident by done. rewrite scan_newline. by destruct (scan (Code false) s).
    - rewrite join_cons by done. rewrite <- !app_assoc_s. rewrite scan_ident by done. rewrite scan_newline, semi_true, front_front. rewrite IH by done. by rewrite front_front. }
  rewrite <- !app_assoc_s. rewrite H by done. done.
Qed.
Definition toks_struct_decl (x : string * (list string * list gdecl)) : list token :=
  Word "type" :: Word x.1 :: Word "struct" :: Punct "{" :: toks_body x.2.1 x.2.2 ++ [Punct "}"; Semi].
Lemma scan_struct b name embeds ds s : identifier name = true -> forallb identifier embeds = true -> forallb (writable dt) ds = true ->
  scan (Code b) (show_struct dt name embeds ds +:+ s) = front (removelast (toks_struct_decl (name, (embeds, ds)))) (scan (Code true) s).
Proof.
  intros Hn He Hd. unfold show_struct. rewrite <- !app_assoc_s.
  match goal with |- scan (Code b) ("type " +:+ ?x) = _ => change (scan (Code b) ("type " +:+ x)) with (scan (Code b) ("type" +:+ (" " +:+ x))) end.
  rewrite scan_word by done. rewrite scan_space. rewrite scan_ident by done.
  match goal with |- context [scan (Code true) (" struct {" +:+ ?x)] => change (" struct {" +:+ x) with (" " +:+ ("struct" +:+ (" {" +:+ x))) end.
  rewrite scan_space. rewrite scan_word by done.
  match goal with |- context [scan (Code (ends_line "struct")) (" {" +:+ newline +:+ ?x)] =>
    change (scan (Code (ends_line "struct")) (" {" +:+ newline +:+ x)) with (front [Punct "{"] (scan (Code false) x)) end.
  rewrite scan_embeds by done. rewrite scan_shows; [|apply Forall_forall; intros d _ p t; apply scan_show|done|done].
  change (scan (Code false) ("}" +:+ s)) with (front [Punct "}"] (scan (Code true) s)). rewrite !front_front. f_equal.
  unfold toks_struct_decl, toks_body. cbn [fst snd]. rewrite (app_comm_cons _ _ (Punct "{")), !app_comm_cons.
  change [Punct "}"; Semi] with ([Punct "}"] ++ [Semi]). rewrite (app_assoc _ [Punct "}"] [Semi]). rewrite removelast_last.
  do 4 (cbn [app]; rewrite <- ?app_assoc). done.
Qed.

(** ** files *)
Notation gst := (string * (list string * list gdecl))%type.
Definition st_ok (x : gst) : bool := identifier x.1 && forallb identifier x.2.1 && forallb (writable dt) x.2.2.
Definition st_text (x : gst) : string := match x.2.2 with [] => "" | _ => newline +:+ newline +:+ show_struct dt x.1 x.2.1 x.2.2 end.
Definition st_toks (x : gst) : list token := match x.2.2 with [] => [] | _ => toks_struct_decl x end.
Lemma scan_structs b l : forallb st_ok l = true -> scan (Code b) (join "" (map st_text l)) = semi b (Some (flat_map st_toks l)).
Proof.
  revert b. induction l as [|[name [embeds ds]] l IH]; intros b; [done|]. cbn [forallb map]. intros [Hx Hl]%andb_true_iff. rewrite join_cons_empty.
  unfold st_ok in Hx. cbn [fst snd] in Hx. apply andb_true_iff in Hx as [[Hn He]%andb_true_iff Hd].
  unfold st_text at 1. cbn [fst snd flat_map]. unfold st_toks at 1. cbn [fst snd]. destruct ds as [|d ds]; [apply IH; done|].
  rewrite <- !app_assoc_s. rewrite !scan_newline. change (semi false ?x) with x. rewrite scan_struct by done. rewrite IH by done. cbn [semi]. rewrite add_front. f_equal.
  rewrite front_front. unfold front. f_equal. f_equal.
  assert (H : forall l : list token, l <> [] -> last l = Some Semi -> removelast l ++ [Semi] = l).
  { clear. intros l Hl. destruct (exists_last Hl) as (l' & x & ->). rewrite last_snoc, removelast_last. by intros [= ->]. }
  apply H; [done|]. unfold toks_struct_decl. rewrite !app_comm_cons. change [Punct "}"; Semi] with ([Punct "}"] ++ [Semi]). rewrite app_assoc. apply last_snoc.
Qed.
Lemma p_decls_ok l n : forallb st_ok l = true -> length (flat_map st_toks l) < n -> p_decls n (flat_map st_toks l) = Some (src_types dt l).
Proof.
  revert n. induction l as [|[name [embeds ds]] l IH]; intros n; [destruct n; [cbn; lia|done]|]. cbn [forallb flat_map]. intros [Hx Hl]%andb_true_iff Hn.
  unfold src_types. cbn [flat_map fst snd]. unfold st_toks in Hn |- *. fold st_toks in Hn |- *. cbn [fst snd] in Hn |- *.
  unfold st_ok in Hx. cbn [fst snd] in Hx. apply andb_true_iff in Hx as [[Hnm He]%andb_true_iff Hd].
  destruct ds as [|d ds]; [by apply IH|]. remember (d :: ds) as l' eqn:E. unfold toks_struct_decl in Hn |- *. cbn [fst snd] in Hn |- *. cbn [app length] in Hn.
  rewrite !app_length in Hn. cbn [length] in Hn. destruct n as [|[|n]]; [lia..|]. remember (S n) as m. cbn [p_decls app]. rewrite (proj2 (identifier_word name Hnm)). subst m.
  assert (Ep : p_type (S n) (Word "struct" :: Punct "{" :: (toks_body embeds l' ++ [Punct "}"; Semi]) ++ flat_map st_toks l) =
    Some (src_struct dt embeds l', Semi :: flat_map st_toks l)).
  { change (match p_fields n ((toks_body embeds l' ++ [Punct "}"; Semi]) ++ flat_map st_toks l) with Some (fs, ts2) => Some (RStruct fs, ts2) | None => None end =
      Some (src_struct dt embeds l', Semi :: flat_map st_toks l)). rewrite <- app_assoc. cbn [app]. rewrite p_embeds by (done || lia). done. }
  rewrite Ep. rewrite IH by (done || lia). done.
Qed.
Definition file_head (pkg : string) (time : bool) : string :=
  "package " +:+ pkg +:+ newline +:+ newline +:+
  "// Code generated by github.com/GannettDigital/jstransform; DO NOT EDIT." +:+ newline +:+ newline +:+
  (if time then "import " +:+ in_quotes "time" +:+ newline else "").
Lemma scan_file pkg (time : bool) l : identifier pkg = true -> forallb st_ok l = true ->
  scan (Code false) (file_head pkg time +:+ join "" (map st_text l)) =
    Some ([Word "package"; Word pkg; Semi] ++ (if time then [Word "import"; Str "time"; Semi] else []) ++ flat_map st_toks l).
Proof.
  intros Hp Hl. unfold file_head. rewrite <- !app_assoc_s.
  match goal with |- scan (Code false) ("package " +:+ ?x) = _ => change (scan (Code false) ("package " +:+ x)) with (scan (Code false) ("package" +:+ (" " +:+ x))) end.
  rewrite scan_word by done. rewrite scan_space. rewrite scan_ident by done. rewrite !scan_newline.
  match goal with |- context [scan (Code false) ("// Code generated by github.com/GannettDigital/jstransform; DO NOT EDIT." +:+ newline +:+ ?x)] =>
    change (scan (Code false) ("// Code generated by github.com/GannettDigital/jstransform; DO NOT EDIT." +:+ newline +:+ x)) with (scan (Code false) x) end.
  rewrite scan_newline. cbn [semi].
  assert (E : scan (Code false) ((if time then "import " +:+ in_quotes "time" +:+ newline else "") +:+ join "" (map st_text l)) =
    Some ((if time then [Word "import"; Str "time"; Semi] else []) ++ flat_map st_toks l)).
  { destruct time.
    - rewrite <- !app_assoc_s. match goal with |- scan (Code false) ("import " +:+ in_quotes "time" +:+ newline +:+ ?x) = _ =>
        change (scan (Code false) ("import " +:+ in_quotes "time" +:+ newline +:+ x)) with (add (Word "import") (add (Str "time") (add Semi (scan (Code false) x)))) end.
      rewrite scan_structs by done. done.
    - change ("" +:+ join "" (map st_text l)) with (join "" (map st_text l)). rewrite scan_structs by done. done. }
  rewrite E. done.
Qed.
Lemma p_imports_ok (time : bool) l : p_imports ((if time then [Word "import"; Str "time"; Semi] else []) ++ flat_map st_toks l) = (imports time, flat_map st_toks l).
Proof.
  assert (H : p_imports (flat_map st_toks l) = ([], flat_map st_toks l)).
  { induction l as [|[n [e ds]] l IH]; [done|]. cbn [flat_map]. unfold st_toks at 1 3. cbn [fst snd]. destruct ds; [exact IH|]. done. }
  destruct time; [|exact H]. cbn [app p_imports]. rewrite H. done.
Qed.
Lemma file_parsed pkg time l : identifier pkg = true -> forallb st_ok l = true ->
  parse_go (file_head pkg time +:+ join "" (map st_text l)) = Some (RFile pkg (imports time) (src_types dt l)).
Proof.
  intros Hp Hl. unfold parse_go. rewrite scan_file by done. cbn [app p_file]. rewrite (proj2 (identifier_word pkg Hp)). rewrite p_imports_ok.
  rewrite p_decls_ok; [done|done|]. cbn [length]. rewrite app_length. lia.
Qed.
Lemma head_or (ds : list gdecl) (x : string) : (if decide (length ds = 0) then "" else x) = match ds with [] => "" | _ => x end.
Proof. by destruct ds. Qed.
Lemma show_file_parsed pkg name embeds ds : identifier pkg = true -> identifier name = true -> forallb identifier embeds = true -> forallb (writable dt) ds = true ->
  parse_go (show_file dt pkg name embeds ds) = Some (RFile pkg (imports (existsb uses_time ds)) (src_types dt [(name, (embeds, ds))])).
Proof.
  intros Hp Hn He Hd. rewrite <- (file_parsed pkg (existsb uses_time ds) [(name, (embeds, ds))]); [|done|cbn [forallb]; unfold st_ok; cbn [fst snd]; by rewrite Hn, He, Hd].
  f_equal. unfold show_file, file_head. rewrite <- !app_assoc_s. do 7 f_equal. rewrite head_or. done.
Qed.
Lemma show_structs_parsed title pkg name embeds ds Ss : identifier pkg = true -> identifier (title name) = true -> forallb identifier embeds = true -> forallb (writable dt) ds = true ->
  Forall (fun s => identifier (title s.1) = true /\ forallb (writable dt) s.2 = true) Ss ->
  parse_go (show_structs title dt pkg name embeds ds Ss) =
    Some (RFile pkg (imports (existsb uses_time ds || existsb (fun s => existsb uses_time s.2) Ss))
      (src_types dt ((title name, (embeds, ds)) :: map (fun s => (title s.1, ([], s.2))) Ss))).
Proof.
  intros Hp Hn He Hd Hs. rewrite <- (file_parsed pkg); [|done|].
  - f_equal. unfold show_structs, file_head. rewrite <- !app_assoc_s. do 7 f_equal. cbn [map]. rewrite join_cons_empty. rewrite head_or. f_equal. f_equal.
    rewrite map_map. apply (f_equal (join "")), map_ext. intros s. by rewrite head_or.
  - cbn [forallb]. unfold st_ok at 1. cbn [fst snd]. rewrite Hn, He, Hd. cbn [andb]. induction Hs as [|s Ss [H1 H2] _ IH]; [done|]. cbn [map forallb]. unfold st_ok at 1. cbn [fst snd forallb]. rewrite H1, H2. exact IH.
Qed.
End dt.

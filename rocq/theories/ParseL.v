(** Lemmas on the parsers of GraphQL. *)
From stdpp Require Import strings list.
From Coq Require Import Ascii NArith Lia.
From Verif Require Import GoStr SpecGen SpecGql SpecDesc SpecSdl.

Lemma after_sign_some c ts ts' : after_sign c ts = Some ts' -> ts = LPunct c :: ts'.
Proof. destruct ts as [|[| | |d] ts]; try done. cbn. case_decide; [|done]. subst. by intros [= ->]. Qed.
Lemma after_sign_eq c ts : after_sign c (LPunct c :: ts) = Some ts.
Proof. cbn. by rewrite decide_True. Qed.
Lemma after_sign_more c ts r : ts <> [] -> after_sign c (ts ++ r) = match after_sign c ts with Some ts' => Some (ts' ++ r) | None => None end.
Proof. destruct ts as [|[| | |d] ts]; try done. intros _. cbn. by case_decide. Qed.
Lemma and_then_some {A B} (o : option (A * list lexeme)) (k : A -> parser B) x : and_then o k = Some x -> exists a ts, o = Some (a, ts) /\ k a ts = Some x.
Proof. destruct o as [[a ts]|]; [|done]. intros H. by exists a, ts. Qed.

(** ** a parser that has more tokens than it needs gives the same result *)
Section more.
Context (r : list lexeme).
(** [p'] does what [p] does, if [p] leaves something *)
Definition extends {A} (p p' : parser A) : Prop := forall ts a ts', p ts = Some (a, ts') -> (length ts' <= length ts) /\ (ts' <> [] -> p' (ts ++ r) = Some (a, ts' ++ r)).
Lemma len_cons {A} (l : list A) : l <> [] -> 1 <= length l.
Proof. destruct l; [done|]. cbn. lia. Qed.
Lemma nonempty_le {A B} (l : list A) (m : list B) : l <> [] -> length l <= length m -> m <> [].
Proof. intros H Hl ->. apply len_cons in H. cbn in Hl. lia. Qed.
Lemma ext_word : extends p_word p_word.
Proof. intros [|[w| | |] ts] a ts'; try done. intros [= <- <-]. split; [cbn; lia|done]. Qed.
Lemma ext_desc : extends p_desc p_desc.
Proof. intros [|[w|s| |] ts] a ts'; intros [= <- <-]; (split; [cbn; lia|done]). Qed.
Lemma ext_literal : extends p_literal p_literal.
Proof. intros [|[w|s| |] ts] a ts'; try done; intros [= <- <-]; (split; [cbn; lia|done]). Qed.
Lemma ext_sign c : extends (p_sign c) (p_sign c).
Proof.
  intros ts a ts'. unfold p_sign. destruct (after_sign c ts) as [ts1|] eqn:E; [|done]. apply after_sign_some in E as ->. intros [= <- <-]. split; [cbn; lia|]. intros _. cbn [app]. by rewrite after_sign_eq.
Qed.
Lemma ext_then {A B} (p p' : parser A) (k k' : A -> parser B) : extends p p' -> (forall a, extends (k a) (k' a)) -> extends (fun ts => and_then (p ts) k) (fun ts => and_then (p' ts) k').
Proof.
  intros Hp Hk ts b ts' (a & ts1 & H1 & H2)%and_then_some. destruct (Hp _ _ _ H1) as [L1 E1]. destruct (Hk _ _ _ _ H2) as [L2 E2]. split; [lia|]. intros Hne.
  rewrite E1 by (by eapply nonempty_le; [|exact L2]). cbn. by apply E2.
Qed.
Lemma ext_give {A} (a : A) : extends (fun ts => Some (a, ts)) (fun ts => Some (a, ts)).
Proof. intros ts a' ts' [= <- <-]. by split. Qed.
Lemma ext_if {A} c (p p' : parser A) a : extends p p' -> extends (if_sign c p a) (if_sign c p' a).
Proof.
  intros Hp ts a' ts'. unfold if_sign. destruct (after_sign c ts) as [ts1|] eqn:E.
  - apply after_sign_some in E as ->. intros H. destruct (Hp _ _ _ H) as [L E]. split; [cbn; lia|]. intros Hne. cbn [app]. rewrite after_sign_eq. by apply E.
  - intros [= <- <-]. split; [lia|]. intros Hne. by rewrite after_sign_more, E.
Qed.
Lemma ext_bang : extends p_bang p_bang.
Proof. apply ext_if, ext_give. Qed.
Lemma many1_nil {A} (p p' : parser A) c : extends p p' -> forall n, many1 n p c [] = None.
Proof.
  intros Hp. induction n as [|n IH]; [done|]. cbn [many1]. destruct (p []) as [[a ts]|] eqn:E; [|done]. destruct (Hp _ _ _ E) as [L _]. destruct ts; [|cbn in L; lia]. cbn. by rewrite IH.
Qed.
(** up to a closing sign; nothing need be left *)
Lemma many1_more {A} (p p' : parser A) c : extends p p' -> forall n m ts l ts', n <= m -> many1 n p c ts = Some (l, ts') ->
  length ts' <= length ts /\ many1 m p' c (ts ++ r) = Some (l, ts' ++ r).
Proof.
  intros Hp. induction n as [|n IH]; intros m ts l ts' Hm; [done|]. destruct m as [|m]; [lia|]. cbn [many1]. intros (a & ts1 & H1 & H2)%and_then_some. destruct (Hp _ _ _ H1) as [L1 E1].
  assert (Hne : ts1 <> []). { intros ->. cbn in H2. by rewrite (many1_nil p p' c Hp) in H2. }
  rewrite E1 by done. cbn [and_then]. rewrite after_sign_more by done. destruct (after_sign c ts1) as [ts2|] eqn:E.
  - apply after_sign_some in E as ->. injection H2 as <- <-. split; [cbn in *; lia|done].
  - apply and_then_some in H2 as (l' & ts2 & H2 & H3). injection H3 as <- <-. destruct (IH m ts1 l' ts2) as [L2 E2]; [lia|done|]. split; [lia|]. by rewrite E2.
Qed.
Lemma ext_many1 {A} (p p' : parser A) c n m : extends p p' -> n <= m -> extends (many1 n p c) (many1 m p' c).
Proof. intros Hp Hm ts l ts' H. destruct (many1_more p p' c Hp n m ts l ts' Hm H). by split. Qed.
Lemma ext_typ : forall n m, n <= m -> extends (p_typ n) (p_typ m).
Proof.
  induction n as [|n IH]; intros m Hm; [done|]. destruct m as [|m]; [lia|]. assert (Hnm : n <= m) by lia. intros ts t ts'. cbn [p_typ]. destruct (after_sign "[" ts) as [ts1|] eqn:E.
  - apply after_sign_some in E as ->. cbn [app]. rewrite after_sign_eq. intros H.
    assert (He : extends (fun ts1 => and_then (p_typ n ts1) (fun t ts2 => and_then (p_sign "]" ts2) (fun _ ts3 => and_then (p_bang ts3) (fun b ts4 => Some (TyList t b, ts4)))))
                         (fun ts1 => and_then (p_typ m ts1) (fun t ts2 => and_then (p_sign "]" ts2) (fun _ ts3 => and_then (p_bang ts3) (fun b ts4 => Some (TyList t b, ts4)))))).
    { apply ext_then; [by apply IH|]. intros u. apply ext_then; [apply ext_sign|]. intros _. apply ext_then; [apply ext_bang|]. intros b. apply ext_give. }
    destruct (He _ _ _ H) as [L Hx]. split; [cbn; lia|exact Hx].
  - intros H. assert (He : extends (fun ts => and_then (p_word ts) (fun w ts1 => and_then (p_bang ts1) (fun b ts2 => Some (TyName w b, ts2))))
                                  (fun ts => and_then (p_word ts) (fun w ts1 => and_then (p_bang ts1) (fun b ts2 => Some (TyName w b, ts2))))).
    { apply ext_then; [apply ext_word|]. intros w. apply ext_then; [apply ext_bang|]. intros b. apply ext_give. }
    destruct (He _ _ _ H) as [L Hx]. split; [done|]. intros Hne. rewrite after_sign_more, E; [by apply Hx|]. by eapply nonempty_le.
Qed.
Lemma ext_pair p p' : extends p p' -> extends (p_pair p) (p_pair p').
Proof. intros Hp. apply ext_then; [apply ext_word|]. intros w. apply ext_then; [apply ext_sign|]. intros _. apply ext_then; [done|]. intros v. apply ext_give. Qed.
Lemma ext_value : forall n m, n <= m -> extends (p_value n) (p_value m).
Proof.
  induction n as [|n IH]; intros m Hm; [done|]. destruct m as [|m]; [lia|]. assert (Hnm : n <= m) by lia. intros ts t ts'. cbn [p_value]. destruct (after_sign "[" ts) as [ts1|] eqn:E.
  - apply after_sign_some in E as ->. cbn [app]. rewrite after_sign_eq. destruct (after_sign "]" ts1) as [ts2|] eqn:E2.
    + apply after_sign_some in E2 as ->. cbn [app]. rewrite after_sign_eq. intros [= <- <-]. split; [cbn; lia|done].
    + intros (l & ts2 & H & [= <- <-])%and_then_some. destruct (many1_more _ _ "]" (IH m Hnm) n m ts1 l ts2 Hnm H) as [L Hx]. split; [cbn; lia|]. intros _.
      assert (ts1 <> []) by (intros ->; by rewrite (many1_nil _ _ _ (IH m Hnm)) in H). by rewrite after_sign_more, E2, Hx.
  - destruct (after_sign "{" ts) as [ts1|] eqn:E'.
    + apply after_sign_some in E' as ->. cbn [app]. clear E. change (after_sign "[" (LPunct "{" :: ts1 ++ r)) with (@None (list lexeme)). cbn iota. rewrite after_sign_eq. destruct (after_sign "}" ts1) as [ts2|] eqn:E2.
      * apply after_sign_some in E2 as ->. cbn [app]. rewrite after_sign_eq. intros [= <- <-]. split; [cbn; lia|done].
      * intros (l & ts2 & H & [= <- <-])%and_then_some. pose proof (ext_pair _ _ (IH m Hnm)) as He. destruct (many1_more _ _ "}" He n m ts1 l ts2 Hnm H) as [L Hx]. split; [cbn; lia|]. intros _.
        assert (ts1 <> []) by (intros ->; by rewrite (many1_nil _ _ _ He) in H). by rewrite after_sign_more, E2, Hx.
    + intros H. destruct (ext_literal _ _ _ H) as [L Hx]. split; [done|]. intros Hne. assert (ts <> []) by (by eapply nonempty_le). rewrite !after_sign_more, E, E' by done. by apply Hx.
Qed.
Lemma ext_directives : forall n m, n <= m -> extends (p_directives n) (p_directives m).
Proof.
  induction n as [|n IH]; intros m Hm; [done|]. destruct m as [|m]; [lia|]. assert (Hnm : n <= m) by lia. cbn [p_directives]. apply ext_if. apply ext_then; [apply ext_word|]. intros w.
  apply ext_then; [apply ext_if, ext_many1; [by apply ext_pair, ext_value|done]|]. intros args. apply ext_then; [by apply IH|]. intros ds. apply ext_give.
Qed.
Lemma ext_input n m : n <= m -> extends (p_input n) (p_input m).
Proof.
  intros Hm. apply ext_then; [apply ext_desc|]. intros desc. apply ext_then; [apply ext_word|]. intros w. apply ext_then; [apply ext_sign|]. intros _. apply ext_then; [by apply ext_typ|]. intros t.
  apply ext_then. { apply ext_if. apply ext_then; [by apply ext_value|]. intros v. apply ext_give. }
  intros d. apply ext_then; [by apply ext_directives|]. intros ds. apply ext_give.
Qed.
End more.

(** ** tokens *)
Definition bangs (nn : bool) : list lexeme := if nn then [LPunct "!"] else [].
Fixpoint toks_typ (t : typ) : list lexeme :=
  match t with TyName n nn => LName n :: bangs nn | TyList t nn => LPunct "[" :: toks_typ t ++ LPunct "]" :: bangs nn end.
Lemma bang_ok nn rest : after_sign "!" rest = None -> p_bang (bangs nn ++ rest) = Some (nn, rest).
Proof. intros H. unfold p_bang, if_sign. destruct nn; [done|]. cbn [bangs app]. by rewrite H. Qed.
Lemma typ_ok t : forall n rest, length (toks_typ t) <= n -> after_sign "!" rest = None -> p_typ n (toks_typ t ++ rest) = Some (t, rest).
Proof.
  induction t as [w nn|t IH nn]; intros n rest Hn Hr; (destruct n as [|n]; [cbn in Hn; lia|]); cbn [p_typ toks_typ app].
  - change (after_sign "[" (LName w :: bangs nn ++ rest)) with (@None (list lexeme)). cbn [p_word and_then]. by rewrite bang_ok.
  - rewrite after_sign_eq. rewrite <- app_assoc. cbn [app toks_typ length] in *. rewrite app_length in Hn. cbn [length] in Hn. rewrite IH; [|lia|done]. cbn [and_then]. unfold p_sign. rewrite after_sign_eq. cbn [and_then]. by rewrite bang_ok.
Qed.
(** a directive with one argument, a string or a name *)
Definition tok_value (v : value) : option lexeme := match v with GStr s => Some (LStr s) | GName n => Some (LName n) | _ => None end.
Inductive dir_toks : list directive -> list lexeme -> Prop :=
| dir_nil : dir_toks [] []
| dir_cons d k v t ds ts : tok_value v = Some t -> dir_toks ds ts -> dir_toks (Directive d [(k, v)] :: ds) (LPunct "@" :: LName d :: LPunct "(" :: LName k :: LPunct ":" :: t :: LPunct ")" :: ts).
Lemma value_ok n v t rest : tok_value v = Some t -> p_value (S n) (t :: rest) = Some (v, rest).
Proof. by destruct v; intros [= <-]. Qed.
Lemma dirs_ok ds ts : dir_toks ds ts -> forall n rest, length ts < n -> after_sign "@" rest = None -> p_directives n (ts ++ rest) = Some (ds, rest).
Proof.
  induction 1 as [|d k v t ds ts Hv H IH]; intros n rest Hn Hr; (destruct n as [|n]; [lia|]).
  - cbn [p_directives app]. unfold if_sign. by rewrite Hr.
  - cbn [length] in Hn. cbn [p_directives app]. unfold if_sign at 1. rewrite after_sign_eq. cbn [p_word and_then]. unfold if_sign at 1. rewrite after_sign_eq.
    assert (Hm : many1 n (p_pair (p_value n)) ")" (LName k :: LPunct ":" :: t :: LPunct ")" :: ts ++ rest) = Some ([(k, v)], ts ++ rest)).
    { destruct n as [|n]; [lia|]. cbn [many1]. unfold p_pair at 1. cbn [p_word and_then]. unfold p_sign. rewrite after_sign_eq. cbn [and_then]. rewrite (value_ok _ v t) by done. cbn [and_then]. by rewrite after_sign_eq. }
    rewrite Hm. cbn [and_then]. rewrite IH; [done|lia|done].
Qed.
(** the arguments of a field *)
Definition args_toks (args : list input) (ts : list lexeme) : Prop :=
  args = [] /\ ts = [] \/ exists inner, ts = LPunct "(" :: inner ++ [LPunct ")"] /\ forall n rest, length inner < n -> many1 n (p_input n) ")" (inner ++ LPunct ")" :: rest) = Some (args, rest).
Definition desc_toks (desc : option string) : list lexeme := match desc with Some s => [LStr s] | None => [] end.
Definition field_toks (f : field) (ts : list lexeme) : Prop :=
  exists ta td, args_toks (fl_args f) ta /\ dir_toks (fl_dirs f) td /\ ts = desc_toks (fl_desc f) ++ LName (fl_name f) :: ta ++ LPunct ":" :: toks_typ (fl_type f) ++ td.
(** the next token is a name or a string *)
Definition worded (ts : list lexeme) : Prop := match ts with LName _ :: _ | LStr _ :: _ => True | _ => False end.
Lemma worded_sign c ts : worded ts -> after_sign c ts = None.
Proof. by destruct ts as [|[] ts]. Qed.
Lemma desc_ok desc w rest : p_desc (desc_toks desc ++ LName w :: rest) = Some (desc, LName w :: rest).
Proof. by destruct desc. Qed.
Lemma field_worded f ts rest : field_toks f ts -> worded (ts ++ rest).
Proof. intros (ta & td & _ & _ & ->). by destruct (fl_desc f). Qed.
Lemma dir_first ds ts rest c : dir_toks ds ts -> c <> "@"%char -> after_sign c rest = None -> after_sign c (ts ++ rest) = None.
Proof. intros [|] Hc Hr; [done|]. cbn. by rewrite decide_False. Qed.
Lemma field_ok f ts : field_toks f ts -> forall n rest, length ts < n -> after_sign "!" rest = None -> after_sign "@" rest = None -> p_field n (ts ++ rest) = Some (f, rest).
Proof.
  intros (ta & td & Ha & Hd & ->) n rest Hn H1 H2. destruct f as [desc w args t dirs]. cbn [fl_desc fl_name fl_args fl_type fl_dirs] in *.
  rewrite app_length in Hn. cbn [length] in Hn. rewrite app_length in Hn. cbn [length] in Hn. rewrite app_length in Hn.
  unfold p_field. rewrite <- app_assoc. cbn [app]. rewrite desc_ok. cbn [and_then p_word].
  assert (Hargs : if_sign "(" (many1 n (p_input n) ")") [] ((ta ++ LPunct ":" :: toks_typ t ++ td) ++ rest) = Some (args, LPunct ":" :: toks_typ t ++ td ++ rest)).
  { rewrite <- app_assoc. cbn [app]. rewrite <- app_assoc. destruct Ha as [[-> ->]|(inner & -> & Hm)]; [done|]. unfold if_sign. cbn [app]. rewrite after_sign_eq. rewrite <- app_assoc. cbn [app]. apply Hm.
    cbn [length] in Hn. rewrite app_length in Hn. lia. }
  rewrite Hargs. cbn [and_then]. unfold p_sign. rewrite after_sign_eq. cbn [and_then]. rewrite typ_ok; [|lia|by eapply dir_first]. cbn [and_then]. rewrite (dirs_ok dirs td); [done|done|lia|done].
Qed.
Lemma fields_ok fs tss : Forall2 field_toks fs tss -> fs <> [] -> forall n m rest, length (List.concat tss) < n -> length (List.concat tss) < m ->
  many1 n (p_field m) "}" (List.concat tss ++ LPunct "}" :: rest) = Some (fs, rest).
Proof.
  induction 1 as [|f ts fs tss Hf H IH]; [done|]. intros _ n m rest Hn Hm. destruct n as [|n]; [lia|]. cbn [List.concat] in *. rewrite app_length in *. cbn [many1]. rewrite <- app_assoc.
  assert (Hpos : 1 <= length ts). { pose proof (field_worded f ts [] Hf) as Hw. rewrite app_nil_r in Hw. destruct ts; [done|cbn; lia]. }
  destruct H as [|f2 ts2 fs tss Hf2 H].
  - cbn [List.concat app]. rewrite (field_ok f ts Hf); [|lia|done|done]. cbn [and_then]. by rewrite after_sign_eq.
  - assert (Hw : worded (List.concat (ts2 :: tss) ++ LPunct "}" :: rest)) by (cbn [List.concat]; rewrite <- app_assoc; by eapply field_worded).
    rewrite (field_ok f ts Hf); [|lia|by apply worded_sign|by apply worded_sign]. cbn [and_then]. rewrite (worded_sign "}") by done. rewrite IH; [done|done|lia|lia].
Qed.
Definition impl_toks (is : list string) : list lexeme := match is with [i] => [LName "implements"; LName i] | _ => [] end.
Inductive def_toks : definition -> list lexeme -> Prop :=
| toks_scalar desc w : def_toks (DScalar desc w []) (desc_toks desc ++ [LName "scalar"; LName w])
| toks_type kind desc w is ds td fs tss : kind = "type" \/ kind = "interface" -> length is <= 1 -> dir_toks ds td -> Forall2 field_toks fs tss -> fs <> [] ->
    def_toks (DType kind desc w is ds fs) (desc_toks desc ++ LName kind :: LName w :: impl_toks is ++ td ++ LPunct "{" :: List.concat tss ++ [LPunct "}"]).
Lemma def_worded d ts rest : def_toks d ts -> worded (ts ++ rest).
Proof. by intros [[]|? []]. Qed.
Lemma implements_ok is n rest : length is <= 1 -> 1 <= n -> after_word "implements" rest = None -> after_sign "&" rest = None -> p_implements n (impl_toks is ++ rest) = Some (is, rest).
Proof.
  intros Hi Hn Hw Ha. destruct is as [|i [|j is]]; [| |cbn in Hi; lia]; unfold p_implements; cbn [impl_toks app].
  - by rewrite Hw.
  - destruct n as [|n]; [lia|]. cbn [after_word]. rewrite decide_True by done. change (after_sign "&" (LName i :: rest)) with (@None (list lexeme)). cbn [p_names p_word and_then]. unfold if_sign. by rewrite Ha.
Qed.
Lemma def_ok d ts : def_toks d ts -> forall n rest, length ts <= n -> (rest = [] \/ worded rest) -> p_definition n (ts ++ rest) = Some (d, rest).
Proof.
  intros H n rest Hn Hr. assert (Hs : forall c, after_sign c rest = None) by (intros c; destruct Hr as [->|Hr]; [done|by apply worded_sign]).
  destruct H as [desc w|kind desc w is ds td fs tss Hk Hi Hd Hf Hne]; unfold p_definition; rewrite <- app_assoc; cbn [app]; rewrite desc_ok; cbn [and_then p_word].
  - rewrite decide_True by done. pose proof (dirs_ok [] [] dir_nil n rest) as Hx. cbn [app] in Hx. rewrite Hx; [done|rewrite app_length in Hn; cbn in Hn |- *; lia|done].
  - rewrite decide_False by (by destruct Hk as [-> | ->]). rewrite decide_True by done. rewrite app_length in Hn. cbn [length] in Hn. rewrite !app_length in Hn. cbn [length] in Hn. rewrite app_length in Hn. cbn [length] in Hn.
    rewrite <- app_assoc. rewrite (implements_ok is); [|done|lia| |].
    + cbn [and_then]. rewrite <- app_assoc. rewrite (dirs_ok ds td Hd); [|lia|done]. cbn [and_then app]. unfold if_sign. rewrite after_sign_eq. rewrite <- app_assoc. cbn [app]. rewrite (fields_ok fs tss Hf Hne); [done|lia|lia].
    + by destruct Hd.
    + destruct Hd; [done|]. done.
Qed.
Lemma document_ok ds tss : Forall2 def_toks ds tss -> forall n, length (List.concat tss) < n -> p_document n (List.concat tss) = Some ds.
Proof.
  induction 1 as [|d ts ds tss Hd H IH]; intros n Hn; (destruct n as [|n]; [lia|]); [done|]. cbn [List.concat] in *. rewrite app_length in Hn. pose proof (def_worded d ts (List.concat tss) Hd) as Hw.
  assert (Hpos : 1 <= length ts). { pose proof (def_worded d ts [] Hd) as Hx. rewrite app_nil_r in Hx. destruct ts; [done|cbn; lia]. }
  cbn [p_document]. destruct (ts ++ List.concat tss) as [|x l] eqn:E; [done|]. rewrite <- E. rewrite (def_ok d ts Hd); [|lia|].
  - rewrite IH; [done|lia].
  - destruct H as [|d2 ts2 ds tss Hd2 H]; [by left|]. right. cbn [List.concat]. by eapply def_worded.
Qed.

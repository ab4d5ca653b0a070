(** Text that is not JSON, and which field of a struct has a name. *)
From stdpp Require Import strings list gmap.
From Coq Require Import Ascii ZArith.
From Verif Require Import GoStr GoStrL Val Conv Avro SpecAvro AvroL.

Scheme text_mind := Minimality for text Sort Prop with texts_mind := Minimality for texts Sort Prop with members_mind := Minimality for members Sort Prop.
Combined Scheme text_mutind from text_mind, texts_mind, members_mind.
Scheme finds_mind := Minimality for finds Sort Prop with lack_mind := Minimality for embeds_lack Sort Prop.
Combined Scheme finds_lack from finds_mind, lack_mind.

(** ** a scanner for commas before a comma or a closing bracket *)
Inductive scanst := SOut | SComma | SIn | SEsc.
Definition scan1 (st : scanst) (a : ascii) : option scanst :=
  match st with
  | SOut => Some (if decide (a = ","%char) then SComma else if decide (a = dquote) then SIn else SOut)
  | SComma => if decide (a ∈ [","; "]"; "}"]%char) then None else Some (if decide (a = " "%char) then SComma else if decide (a = dquote) then SIn else SOut)
  | SIn => Some (if decide (a = dquote) then SOut else if decide (a = backslash) then SEsc else SIn)
  | SEsc => Some SIn
  end.
Fixpoint scan (st : scanst) (s : string) : option scanst :=
  match s with "" => Some st | String a s' => match scan1 st a with Some st' => scan st' s' | None => None end end.
Lemma scan_app st a b : scan st (a +:+ b) = match scan st a with Some st' => scan st' b | None => None end.
Proof. revert st. induction a as [|x a IH]; intros st; [done|]. rewrite sapp_cons. cbn [scan]. destruct (scan1 st x); [apply IH|done]. Qed.
Lemma scan_chars s u : chars s u -> scan SIn u = Some SIn.
Proof.
  induction 1 as [|a s t Ha N1 N2 H IH| | | | | | |]; [done|..]; [|cbn; done..].
  cbn [scan scan1]. rewrite !decide_False by done. done.
Qed.
Definition fresh (st : scanst) : Prop := st = SOut \/ st = SComma.
Lemma scan_string s t st : fresh st -> string_text s t -> scan st t = Some SOut.
Proof.
  intros F (u & C & ->). assert (scan st (String dquote (u +:+ String dquote "")) = scan SIn (u +:+ String dquote "")) as -> by (by destruct F as [-> | ->]).
  rewrite scan_app, (scan_chars _ _ C). done.
Qed.
Lemma scan_join ts : Forall (fun t => forall st, fresh st -> scan st t = Some SOut) ts -> ts <> [] -> forall st, fresh st -> scan st (join "," ts) = Some SOut.
Proof.
  induction 1 as [|t ts Ht Hts IH]; intros N st F; [done|]. destruct (decide (ts = [])) as [->|Nt]; [by apply Ht|].
  rewrite join_cons by done. rewrite scan_app, Ht by done. rewrite scan_app. cbn. apply IH; [done|by right].
Qed.
Lemma scan_text :
  (forall d t, text d t -> forall st, fresh st -> scan st t = Some SOut) /\
  (forall ds ts, texts ds ts -> Forall (fun t => forall st, fresh st -> scan st t = Some SOut) ts) /\
  (forall ms ts, members ms ts -> Forall (fun t => forall st, fresh st -> scan st t = Some SOut) ts).
Proof.
  apply text_mutind.
  - intros s t S st F. by eapply scan_string.
  - by intros st [-> | ->].
  - intros ds ts _ IH st F. rewrite scan_app. assert (scan st "[" = Some SOut) as -> by (by destruct F as [-> | ->]).
    rewrite scan_app. destruct (decide (ts = [])) as [->|N]; [done|]. rewrite scan_join; [done|done|done|by left].
  - intros ds ts _ IH st F. rewrite scan_app. assert (scan st "{" = Some SOut) as -> by (by destruct F as [-> | ->]).
    rewrite scan_app. destruct (decide (ts = [])) as [->|N]; [done|]. rewrite scan_join; [done|done|done|by left].
  - intros d t _ IH st F. rewrite scan_app. destruct F as [-> | ->]; apply IH; [by left|by right].
  - constructor.
  - intros d t ds ts _ IH1 _ IH2. by constructor.
  - constructor.
  - intros k kt d t ms ts S _ IH1 _ IH2. constructor; [|done]. intros st F. rewrite scan_app, (scan_string _ _ _ F S). rewrite scan_app. apply IH1. by left.
  - intros m ms t ts _ IH. inversion IH as [|? ? H1 H2]; subst. constructor; [|done]. intros st F. rewrite scan_app. destruct F as [-> | ->]; apply H1; [by left|by right].
Qed.
Lemma not_text s : scan SOut s = None -> forall d, ~ text d s.
Proof. intros N d T. pose proof (proj1 scan_text _ _ T SOut (or_introl eq_refl)). congruence. Qed.

(** a character that strings cannot have: scanning strings for bad escapes *)
Fixpoint escapes_ok (st : bool) (s : string) : bool :=   (* st: after a backslash *)
  match s with
  | "" => true
  | String a s' => if st then bool_decide (a ∈ [dquote; backslash; "b"; "t"; "n"; "f"; "r"]%char) && escapes_ok false s'
                   else escapes_ok (bool_decide (a = backslash)) s'
  end.
Lemma escapes_app a b : (forall st, escapes_ok st (a +:+ b) = true -> escapes_ok st a = true).
Proof.
  induction a as [|x a IH]; intros st; [by destruct st|]. rewrite sapp_cons. cbn [escapes_ok]. destruct st; [|apply IH].
  rewrite !andb_true_iff. intros [? ?]. split; [done|by apply IH].
Qed.
(** closed: ends outside of an escape *)
Inductive closed : string -> Prop := closed_of s : (forall u, escapes_ok false u = true -> escapes_ok false (s +:+ u) = true) -> closed s.
Lemma closed_ok s : closed s -> escapes_ok false s = true.
Proof. intros [s' H]. rewrite <- (sapp_nil_r s'). by apply H. Qed.
Lemma closed_app a b : closed a -> closed b -> closed (a +:+ b).
Proof. intros [a' Ha] [b' Hb]. constructor. intros u Hu. rewrite <- app_assoc_s. auto. Qed.
Lemma closed_chars s u : chars s u -> closed u.
Proof.
  induction 1 as [|a s t Ha N1 N2 H [t' IH]|s t H [t' IH]|s t H [t' IH]|s t H [t' IH]|s t H [t' IH]|s t H [t' IH]|s t H [t' IH]|s t H [t' IH]]; constructor; intros u Hu; [done|..].
  - rewrite sapp_cons. cbn [escapes_ok]. rewrite bool_decide_eq_false_2 by done. by apply IH.
  - rewrite <- app_assoc_s. apply (IH u Hu).
  - rewrite <- app_assoc_s. apply (IH u Hu).
  - rewrite <- app_assoc_s. apply (IH u Hu).
  - rewrite <- app_assoc_s. apply (IH u Hu).
  - rewrite <- app_assoc_s. apply (IH u Hu).
  - rewrite <- app_assoc_s. apply (IH u Hu).
  - rewrite <- app_assoc_s. apply (IH u Hu).
Qed.
Lemma closed_lit s : (forall u, escapes_ok false (s +:+ u) = escapes_ok false u) -> closed s.
Proof. intros H. constructor. intros u. by rewrite H. Qed.
Lemma closed_string s t : string_text s t -> closed t.
Proof.
  intros (u & C & ->). change (String dquote (u +:+ String dquote "")) with (String dquote "" +:+ (u +:+ String dquote "")).
  apply closed_app; [by apply closed_lit|]. apply closed_app; [by eapply closed_chars|]. by apply closed_lit.
Qed.
Lemma closed_join ts : Forall closed ts -> closed (join "," ts).
Proof.
  induction 1 as [|t ts Ht Hts IH]; [by apply closed_lit|]. destruct (decide (ts = [])) as [->|N]; [done|]. rewrite join_cons by done.
  apply closed_app; [done|]. apply closed_app; [by apply closed_lit|done].
Qed.
Lemma closed_text : (forall d t, text d t -> closed t) /\ (forall ds ts, texts ds ts -> Forall closed ts) /\ (forall ms ts, members ms ts -> Forall closed ts).
Proof.
  apply text_mutind.
  - intros s t S. by eapply closed_string.
  - by apply closed_lit.
  - intros ds ts _ IH. apply closed_app; [by apply closed_lit|]. apply closed_app; [by apply closed_join|by apply closed_lit].
  - intros ds ts _ IH. apply closed_app; [by apply closed_lit|]. apply closed_app; [by apply closed_join|by apply closed_lit].
  - intros d t _ IH. apply closed_app; [by apply closed_lit|done].
  - constructor.
  - by constructor.
  - constructor.
  - intros k kt d t ms ts S _ IH1 _ IH2. constructor; [|done]. apply closed_app; [by eapply closed_string|]. apply closed_app; [by apply closed_lit|done].
  - intros m ms t ts _ IH. inversion IH; subst. constructor; [|done]. apply closed_app; [by apply closed_lit|done].
Qed.
Lemma bad_escape s : escapes_ok false s = false -> forall d, ~ text d s.
Proof. intros N d T. apply (proj1 closed_text), closed_ok in T. congruence. Qed.

(** ** the file *)
Section avro.
Context (W : oracles) (o_quote : string -> string) (E : sources).
Notation lower := (go_lower W).
Ltac snorm := cbn [join List.app]; repeat (rewrite sapp_cons || rewrite sapp_nil_l || rewrite sapp_nil_r || rewrite <- app_assoc_s).
Lemma metadata_text : exists t1 t2, text write_time t1 /\ text deleted t2 /\ metadata = t1 +:+ "," +:+ t2 +:+ ",".
Proof.
  eexists _, _. split; [|split].
  - apply text_obj. eapply members_cons; [exact (lit "name" eq_refl)|apply text_str; apply lit; reflexivity|].
    eapply members_cons; [exact (lit "doc" eq_refl)|apply text_str; apply lit; reflexivity|].
    eapply members_cons; [exact (lit "type" eq_refl)|apply text_str; apply lit; reflexivity|].
    eapply members_cons; [exact (lit "logicalType" eq_refl)|apply text_str; apply lit; reflexivity|constructor].
  - apply text_obj. eapply members_cons; [exact (lit "name" eq_refl)|apply text_str; apply lit; reflexivity|].
    eapply members_cons; [exact (lit "doc" eq_refl)|apply text_str; apply lit; reflexivity|].
    eapply members_cons; [exact (lit "default" eq_refl)|apply text_false|].
    eapply members_cons; [exact (lit "type" eq_refl)|apply text_str; apply lit; reflexivity|constructor].
  - vm_compute. reflexivity.
Qed.
Lemma avro_file_thm name fs ds es : plain_text name -> fields lower E [] [] (go_names fs) fs ds es -> NoDup es -> ds <> [] ->
  exists s n, text (record_doc [] name (write_time :: deleted :: ds)) s /\ forall fuel, n <= fuel -> avro_file W o_quote E fuel name (EStruct fs) = Some s.
Proof.
  intros P F N Nd. destruct (proj2 (avro_mutual W o_quote E) _ _ _ _ _ _ F [] 0 N) as (ts & n & T & H); [set_solver|].
  destruct metadata_text as (t1 & t2 & T1 & T2 & M).
  exists ("{" +:+ header o_quote [] name "" +:+ join "," (t1 :: t2 :: ts) +:+ "]}"), (S (S n)). split.
  - apply record_text; [done|by apply plain_b_ok|]. by repeat constructor.
  - intros [|[|fuel]] L; [lia|lia|]. unfold avro_file. change (field_lists (EStruct fs)) with [fs]. rewrite lists_S.
    rewrite (fields_num _ _ _ _ _ _ _ _ F). change (field_map fs) with (go_names fs). specialize (H (S fuel) ltac:(lia)). cbn [Nat.add] in H. rewrite H. cbn [obind].
    rewrite header_app, M. rewrite !join_cons; [|intros ->; apply Nd; by apply (texts_nil_iff _ _ T)|done]. do 2 f_equal. snorm. done.
Qed.
Lemma avro_type_thm ns name t d es : stands lower E ns name t d es -> NoDup es ->
  exists s n, text d s /\ forall fuel, n <= fuel ->
    conv_type W o_quote E fuel ns t name false [] = Some (s, rev es) /\
    exists s', conv_type W o_quote E fuel ns t name true [] = Some (s', rev es) /\
      (may_union t = true -> text (or_null d) s') /\ (is_bool t = true -> s' = s +:+ ",""default"":false") /\
      (may_union t = false -> is_bool t = false -> s' = s).
Proof.
  intros S N. destruct (proj1 (avro_mutual W o_quote E) _ _ _ _ _ S [] N) as (s & n & T & _ & H); [set_solver|].
  exists s, n. split; [done|]. intros fuel L. rewrite !H by done. rewrite app_nil_r. split; [done|]. eexists. split; [done|].
  unfold wrap. split; [|split].
  - intros U. rewrite U. assert (is_bool t = false) as ->.
    { clear -U. induction t; cbn in *; try done; auto. apply bool_decide_eq_true in U. by apply bool_decide_eq_false_2. }
    eapply text_as; [apply text_arr; constructor; [exact (text_lit "null" eq_refl)|constructor; [exact T|constructor]]|]. cbn [join]. snorm. done.
  - by intros ->.
  - by intros -> ->.
Qed.

(** ** mapFields *)
Notation declared := (declared_in lower E).
Notation finds := (finds lower E).
Notation lacks := (embeds_lack lower E).
Lemma declares_iff f k : declares_name f k <-> exists go rest, af_names f = go :: rest /\ field_key go = k.
Proof.
  unfold declares_name, field_key. change invalid_names with method_names. split.
  - intros (go & rest & E1 & [[H ->]|[H ->]]); exists go, rest; (split; [done|]); [by rewrite decide_True|by rewrite decide_False].
  - intros (go & rest & E1 & <-). exists go, rest. split; [done|]. destruct (decide (go ∈ method_names)); [left|right]; done.
Qed.
Lemma declared_fun e t1 t2 : declared e t1 -> declared e t2 -> t1 = t2.
Proof. intros (c & r & S1 & F1) (c' & r' & S2 & F2). rewrite S1 in S2. injection S2 as <- <-. congruence. Qed.
Lemma lacks_app fs1 fs2 k : lacks (fs1 ++ fs2) k <-> lacks fs1 k /\ lacks fs2 k.
Proof.
  induction fs1 as [|f fs1 IH]; cbn [List.app]; [split; [intros; split; [constructor|done]|by intros [_ ?]]|]. split.
  - intros H. inversion H as [|? ? ? N L|? ? ? ? ? gs D N L1 L2]; subst.
    + apply IH in L as [? ?]. split; [by constructor|done].
    + apply IH in L2 as [? ?]. split; [by econstructor|done].
  - intros [H1 H2]. inversion H1 as [|? ? ? N L|? ? ? ? ? gs D N L1 L2]; subst.
    + constructor; [done|]. by apply IH.
    + econstructor; [done|done|done|]. by apply IH.
Qed.
Definition none (fs : list afield) (k : string) : Prop := Forall (fun g => ~ declares_name g k) fs.
Lemma finds_snoc fs g k f : ~ declares_name g k -> finds fs k f -> finds (fs ++ [g]) k f.
Proof.
  intros N H. destruct H as [fs1 f fs2 k D F|fs1 e json desc fs2 k gs f F L D H].
  - rewrite <- app_assoc. cbn. apply finds_own; [done|]. apply Forall_app. split; [done|]. by constructor.
  - rewrite <- app_assoc. cbn. eapply finds_embedded; [|done|done|done]. rewrite app_assoc. apply Forall_app. split; [done|by constructor].
Qed.
Definition right_map (fs : list afield) (m : gmap string afield) : Prop :=
  forall k, match m !! k with Some f => finds fs k f | None => none fs k /\ lacks fs k end.
Lemma map_fields_right : (forall file n t, src_file E file n = Some t -> exists gs, t = EStruct gs) ->
  forall fuel fs m, map_fields W E fuel fs = Some (Some m) -> right_map fs m.
Proof.
  intros HE. induction fuel as [|n IH]; intros fs m; [done|]. cbn [map_fields].
  assert (K : right_map [] ∅) by (intros k; rewrite lookup_empty; split; constructor).
  revert K. change fs with ([] ++ fs) at 2. generalize (@nil afield) at 1 2 as pre. generalize (∅ : gmap string afield) as m0.
  revert m. induction fs as [|f fs IHl]; intros m m0 pre K.
  - intros [= <-]. by rewrite app_nil_r.
  - replace (pre ++ f :: fs) with ((pre ++ [f]) ++ fs) by (by rewrite <- app_assoc).
    destruct (af_names f) as [|go rest] eqn:Ef.
    + assert (Nf : forall k, ~ declares_name f k) by (intros k (go & r & E1 & _); congruence).
      assert (skip : (forall e, af_type f <> EIdent e) -> right_map (pre ++ [f]) m0).
      { intros Ne k. specialize (K k). destruct (m0 !! k); [by apply finds_snoc|]. destruct K as [K1 K2]. split.
        - apply Forall_app. split; [done|by constructor].
        - apply lacks_app. split; [done|]. constructor; [by right|constructor]. }
      destruct f as [names ty json desc]. cbn [af_names af_type] in *. subst names.
      destruct ty as [e| | | | | |]; try (intros H; revert H; apply IHl; apply skip; by intros ?).
      unfold struct_to_filename. destruct (split e "") as [|c rest] eqn:Es; [done|]. cbn [obind].
      destruct (src_file E (join "" (lower c :: rest) +:+ ".go") e) as [t|] eqn:Et; [|done].
      destruct (HE _ _ _ Et) as [gs ->].
      change (x ← Some (EStruct gs); find_fields x) with (Some gs). cbv beta iota.
      destruct (map_fields W E n gs) as [[me|]|] eqn:Em; [|done|done]. specialize (IH _ _ Em).
      intros H. revert H. apply IHl. intros k. specialize (K k). specialize (IH k).
      assert (D : declared e (EStruct gs)) by (by exists c, rest).
      destruct (m0 !! k) as [g|] eqn:E0.
      * rewrite (lookup_union_Some_l _ _ _ _ E0). by apply finds_snoc.
      * rewrite lookup_union_r by done. destruct K as [K1 K2]. destruct (me !! k) as [g|].
        -- eapply (finds_embedded _ _ pre e json desc []); [by rewrite app_nil_r|done|done|done].
        -- destruct IH as [I1 I2]. split; [apply Forall_app; split; [done|by constructor]|]. apply lacks_app. split; [done|]. econstructor; [done|done|done|constructor].
    + intros H. revert H. apply IHl. intros k. specialize (K k). destruct (decide (field_key go = k)) as [<-|Nk].
      * rewrite lookup_insert. apply finds_own; [|constructor]. apply declares_iff. eauto.
      * rewrite lookup_insert_ne by done.
        assert (Nd : ~ declares_name f k) by (rewrite declares_iff; intros (go' & r' & E1 & E2); congruence).
        destruct (m0 !! k); [by apply finds_snoc|]. destruct K as [K1 K2]. split.
        -- apply Forall_app. split; [done|by constructor].
        -- apply lacks_app. split; [done|]. constructor; [left; congruence|constructor].
Qed.
Lemma split_cases {A} (l1 l1' : list A) x x' l2 l2' : l1 ++ x :: l2 = l1' ++ x' :: l2' ->
  (exists l, l1' = l1 ++ x :: l /\ l2 = l ++ x' :: l2') \/ (l1 = l1' /\ x = x' /\ l2 = l2') \/ (exists l, l1 = l1' ++ x' :: l /\ l2' = l ++ x :: l2).
Proof.
  revert l1'. induction l1 as [|y l1 IH]; intros [|y' l1']; cbn.
  - intros [= -> ->]. right. left. done.
  - intros [= -> ->]. left. eauto.
  - intros [= -> <-]. right. right. eauto.
  - intros [= -> H]. destruct (IH _ H) as [(l & -> & ->)|[(-> & -> & ->)|(l & -> & ->)]]; [left|right; left|right; right]; eauto.
Qed.
Lemma finds_unique :
  (forall fs k f, finds fs k f -> (forall g, finds fs k g -> f = g) /\ ~ (none fs k /\ lacks fs k)) /\
  (forall fs k, lacks fs k -> forall fs1 e json desc fs2 gs g, fs = fs1 ++ AField [] (EIdent e) json desc :: fs2 -> declared e (EStruct gs) -> ~ finds gs k g).
Proof.
  apply finds_lack.
  - intros fs1 f fs2 k D F. split.
    + intros g H. remember (fs1 ++ f :: fs2) as fs eqn:Ef. destruct H as [fs1' f' fs2' k D' F'|fs1' e json desc fs2' k gs f' F' L' D' H'].
      * destruct (split_cases _ _ _ _ _ _ Ef) as [(l & -> & ->)|[(-> & -> & ->)|(l & -> & ->)]]; [|done|].
        -- apply Forall_app in F' as [_ F']. inversion F'; subst. done.
        -- apply Forall_app in F as [_ F]. inversion F; subst. done.
      * exfalso. assert (Hin : f ∈ fs1' ++ AField [] (EIdent e) json desc :: fs2') by (rewrite Ef; set_solver).
        rewrite elem_of_app, elem_of_cons in Hin. apply Forall_app in F' as [F1 F2]. rewrite Forall_forall in F1, F2.
        destruct Hin as [Hin|[->|Hin]]; [by apply (F1 f)| |by apply (F2 f)]. destruct D as (go & r & E1 & _). done.
    + intros [N _]. apply Forall_app in N as [_ N]. inversion N; subst. done.
  - intros fs1 e json desc fs2 k gs f F L IHl D H [IH1 IH2]. split.
    + intros g Hg. remember (fs1 ++ AField [] (EIdent e) json desc :: fs2) as fs eqn:Ef. destruct Hg as [fs1' f' fs2' k D' F'|fs1' e' json' desc' fs2' k gs' f' F' L' D' H'].
      * exfalso. assert (Hin : f' ∈ fs1 ++ AField [] (EIdent e) json desc :: fs2) by (rewrite <- Ef; set_solver).
        rewrite elem_of_app, elem_of_cons in Hin. apply Forall_app in F as [F1 F2]. rewrite Forall_forall in F1, F2.
        destruct Hin as [Hin|[->|Hin]]; [by apply (F1 f')| |by apply (F2 f')]. destruct D' as (go & r & E1 & _). done.
      * destruct (split_cases _ _ _ _ _ _ Ef) as [(l & -> & ->)|[(-> & Ee & ->)|(l & -> & ->)]].
        -- exfalso. by eapply (IHl fs1').
        -- injection Ee as -> -> ->. assert (gs' = gs) as -> by (pose proof (declared_fun _ _ _ D D'); congruence). by apply IH1.
        -- exfalso. apply lacks_app in L' as [_ L']. inversion L' as [|? ? ? [N|N]|? ? ? ? ? gs2 D2 N2 L2]; subst; [done|by destruct (N e)|].
           assert (gs2 = gs) as -> by (pose proof (declared_fun _ _ _ D2 D); congruence). by apply IH2.
    + intros [N L2]. apply lacks_app in L2 as [_ L2]. inversion L2 as [|? ? ? [N'|N']|? ? ? ? ? gs2 D2 N2 L2']; subst; [done|by destruct (N' e)|].
      assert (gs2 = gs) as -> by (pose proof (declared_fun _ _ _ D2 D); congruence). by apply IH2.
  - intros k [|? ?]; done.
  - intros f fs k N L IH [|x fs1] e json desc fs2 gs g H D; injection H as -> ->.
    + by destruct N as [N|N]; [|destruct (N e)].
    + by eapply IH.
  - intros e json desc fs k gs D N L IHg L2 IH [|x fs1] e' json' desc' fs2 gs' g H D'.
    + injection H as -> -> -> ->. assert (gs' = gs) as -> by (pose proof (declared_fun _ _ _ D D'); congruence).
      intros Hf. remember gs as gs0 eqn:Eg. destruct Hf as [fs1' f' fs2' k Df F'|fs1' e0 json0 desc0 fs2' k gs1 f' F' L' D0 H'].
      * apply Forall_app in N as [_ N]. inversion N; subst. done.
      * by eapply (IHg fs1' e0 json0 desc0 fs2').
    + injection H as _ ->. by eapply IH.
Qed.
Lemma map_fields_thm : (forall file n t, src_file E file n = Some t -> exists gs, t = EStruct gs) ->
  forall fuel fs m, map_fields W E fuel fs = Some (Some m) -> forall k f, m !! k = Some f <-> finds fs k f.
Proof.
  intros HE fuel fs m H k f. pose proof (map_fields_right HE _ _ _ H k) as R. split.
  - intros Hk. by rewrite Hk in R.
  - intros F. destruct (m !! k) as [g|]; [f_equal; symmetry; by apply (proj1 finds_unique _ _ _ F)|]. by apply (proj1 finds_unique _ _ _ F) in R.
Qed.
End avro.

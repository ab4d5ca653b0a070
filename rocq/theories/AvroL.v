(** The generated Avro schema is the text of the one the struct stands for. *)
From stdpp Require Import strings list gmap.
From Coq Require Import Ascii ZArith.
From Verif Require Import GoStr GoStrL Val Conv Avro SpecAvro.

Scheme stands_mind := Minimality for stands Sort Prop with fields_mind := Minimality for fields Sort Prop.
Combined Scheme stands_fields from stands_mind, fields_mind.

(** ** quoting *)
Definition plain_b (s : string) : bool := str_all (fun a => let n := N_of_ascii a in ((32 <=? n)%N && (n <? 127)%N) || bool_decide (n ∈ [8; 9; 10; 12; 13]%N)) s.
Lemma plain_b_ok s : plain_b s = true <-> plain_text s.
Proof.
  induction s as [|a s IH]; [split; [constructor|done]|]. unfold plain_b in *. cbn [str_all]. rewrite andb_true_iff, IH.
  rewrite orb_true_iff, andb_true_iff, N.leb_le, N.ltb_lt, bool_decide_eq_true. rewrite !elem_of_cons, elem_of_nil. split.
  - intros [H Hs]. constructor; [|done]. unfold same_char, nat_of_ascii. rewrite !elem_of_cons, elem_of_nil. lia.
  - intros H. inversion H as [|? ? Ha Hs]; subst. split; [|done]. unfold same_char, nat_of_ascii in Ha. rewrite !elem_of_cons, elem_of_nil in Ha. lia.
Qed.
Lemma char_of a n : N_of_ascii a = n -> a = ascii_of_N n.
Proof. intros <-. by rewrite ascii_N_embedding. Qed.
Lemma chars_quote_str s : plain_text s -> chars s (quote_str s).
Proof.
  induction 1 as [|a s Ha Hs IH]; [constructor|]. cbn [quote_str]. unfold quote_char.
  destruct (decide (a = dquote)) as [->|N1]; [by constructor|]. destruct (decide (a = backslash)) as [->|N2]; [by constructor|].
  unfold same_char, nat_of_ascii in Ha. rewrite !elem_of_cons, elem_of_nil in Ha.
  destruct ((32 <=? N_of_ascii a) && (N_of_ascii a <? 127))%N eqn:B.
  - apply (chars_plain a s (quote_str s)); [|done|done|done]. apply andb_true_iff in B. rewrite N.leb_le, N.ltb_lt in B. unfold nat_of_ascii. lia.
  - apply andb_false_iff in B. rewrite N.leb_gt, N.ltb_ge in B.
    assert (C : N_of_ascii a = 8%N \/ N_of_ascii a = 9%N \/ N_of_ascii a = 10%N \/ N_of_ascii a = 12%N \/ N_of_ascii a = 13%N) by lia.
    destruct C as [C|[C|[C|[C|C]]]]; apply char_of in C; subst a; cbn; by constructor.
Qed.
Lemma plain_ascii s : plain_text s -> str_all is_ascii_char s = true.
Proof.
  induction 1 as [|a s Ha Hs IH]; [done|]. cbn [str_all]. rewrite IH, andb_true_r. unfold is_ascii_char. apply N.ltb_lt.
  unfold same_char, nat_of_ascii in Ha. rewrite !elem_of_cons, elem_of_nil in Ha. lia.
Qed.
Lemma lit s : plain_b s = true -> string_text s (String dquote (quote_str s +:+ String dquote "")).
Proof. intros H. exists (quote_str s). split; [|done]. by apply chars_quote_str, plain_b_ok. Qed.
Lemma plain_app a b : plain_text a -> plain_text b -> plain_text (a +:+ b).
Proof. induction 1; [done|]. intros. constructor; auto. Qed.

Section avro.
Context (W : oracles) (o_quote : string -> string) (E : sources).
Notation q := (q o_quote).
Lemma q_text s : plain_text s -> string_text s (q s).
Proof. intros H. unfold Avro.q. rewrite plain_ascii by done. apply lit. by apply plain_b_ok. Qed.
Lemma q_plain s : plain_text s -> q s = String dquote (quote_str s +:+ String dquote "").
Proof. intros H. unfold Avro.q. by rewrite plain_ascii. Qed.

(** ** documents *)
Ltac snorm := cbn [join List.app]; repeat (rewrite sapp_cons || rewrite sapp_nil_l || rewrite sapp_nil_r || rewrite <- app_assoc_s).
Ltac slit := match goal with |- string_text ?s _ => exact (lit s eq_refl) end.
Lemma text_as d t t' : text d t -> t = t' -> text d t'.
Proof. by intros ? <-. Qed.
Lemma text_lit s : plain_b s = true -> text (DStr s) (String dquote (quote_str s +:+ String dquote "")).
Proof. intros H. apply text_str. by apply lit. Qed.
Lemma header_app ns name d : header o_quote ns name d = header o_quote ns name "" +:+ d.
Proof. unfold header. snorm. done. Qed.
Lemma in_ns_members ns ms ts : plain_text (join "." ns) -> members ms ts ->
  exists ns_ts, members (in_ns ns ++ ms) (ns_ts ++ ts) /\
    (forall rest, ns_text o_quote ns +:+ rest = join "," (ns_ts ++ [rest])) /\ 
    (forall pre, pre <> [] -> join "," pre +:+ (match ns with [] => "" | _ => ",""namespace"":" +:+ q (join "." ns) end) = join "," (pre ++ ns_ts)).
Proof.
  intros P M. destruct ns as [|n ns].
  - exists []. split; [done|]. split; [done|]. intros pre _. rewrite app_nil_r. by rewrite sapp_nil_r.
  - exists ["""namespace"":" +:+ q (join "." (n :: ns))]. split; [|split].
    + cbn [in_ns List.app]. apply (members_cons "namespace" """namespace""" (DStr _) (q (join "." (n :: ns)))); [slit|apply text_str, q_text; done|done].
    + intros rest. unfold ns_text. generalize (q (join "." (n :: ns))). intros Q. cbn [List.app join]. snorm. done.
    + intros pre N. rewrite join_app by done. generalize (q (join "." (n :: ns))). intros Q. cbn [join]. snorm. done.
Qed.
Lemma record_text ns name ds ts : plain_text name -> plain_text (join "." ns) -> texts ds ts ->
  text (record_doc ns name ds) ("{" +:+ header o_quote ns name "" +:+ join "," ts +:+ "]}").
Proof.
  intros P1 P2 T. unfold record_doc.
  assert (M : members [("type", DStr "record"); ("fields", DArr ds)] ["""type"":""record"""; """fields"":[" +:+ join "," ts +:+ "]"]).
  { change """type"":""record""" with ("""type""" +:+ ":" +:+ """record""").
    change ("""fields"":[" +:+ join "," ts +:+ "]") with ("""fields""" +:+ ":" +:+ ("[" +:+ join "," ts +:+ "]")).
    constructor; [slit|apply text_str; slit|]. constructor; [slit|by apply text_arr|constructor]. }
  destruct (in_ns_members ns _ _ P2 M) as (ns_ts & M' & Hr & _).
  eapply text_as.
  - apply text_obj. cbn [List.app]. eapply members_cons; [exact (lit "name" eq_refl)|apply text_str, q_text, P1|exact M'].
  - unfold header.
    assert (H : """name"":" +:+ q name +:+ "," +:+ ns_text o_quote ns +:+ """type"":""record"",""fields"":[" +:+ "" =
       """name"":" +:+ q name +:+ "," +:+ join "," (ns_ts ++ ["""type"":""record"",""fields"":["])).
    { rewrite <- Hr. by rewrite sapp_nil_r. }
    rewrite H. rewrite (join_cons "," _ (ns_ts ++ _)) by (destruct ns_ts; done).
    assert (H2 : forall l a b, join "," (l ++ [a; b]) = join "," (l ++ [a +:+ "," +:+ b])).
    { intros l a b. destruct l as [|x l]; [done|]. rewrite !join_app by done. done. }
    rewrite H2. assert (H3 : forall l a b, join "," (l ++ [a +:+ b]) = join "," (l ++ [a]) +:+ b).
    { intros l a b. destruct l as [|x l]; [done|]. rewrite !join_app by done. cbn [join]. snorm. done. }
    change ("""type"":""record""" +:+ "," +:+ ("""fields"":[" +:+ join "," ts +:+ "]")) with ("""type"":""record"",""fields"":[" +:+ (join "," ts +:+ "]")).
    rewrite H3. change (String dquote (quote_str "name" +:+ String dquote "")) with """name""". snorm. done.
Qed.
Lemma field_text_doc ns name desc ty (df : bool) tx : plain_text name -> plain_text desc -> plain_text (join "." ns) -> text ty tx ->
  text (field_doc ns name desc ty df) (field_text o_quote ns name desc (tx +:+ (if df then ",""default"":false" else ""))).
Proof.
  intros P1 P2 P3 T. unfold field_doc.
  assert (M : members ([("type", ty)] ++ (if df then [("default", DFalse)] else [])) (("""type"":" +:+ tx) :: (if df then ["""default"":false"] else []))).
  { change ("""type"":" +:+ tx) with ("""type""" +:+ ":" +:+ tx). cbn [List.app]. constructor; [slit|done|].
    destruct df; [|constructor]. change """default"":false" with ("""default""" +:+ ":" +:+ "false"). constructor; [slit|constructor|constructor]. }
  set (dt := if decide (desc = "") then [] else ["""doc"":" +:+ q desc]).
  assert (M2 : members ((if decide (desc = "") then [] else [("doc", DStr desc)]) ++ [("type", ty)] ++ (if df then [("default", DFalse)] else []))
     (dt ++ ("""type"":" +:+ tx) :: (if df then ["""default"":false"] else []))).
  { unfold dt. destruct (decide (desc = "")); [done|]. cbn [List.app]. change ("""doc"":" +:+ q desc) with ("""doc""" +:+ ":" +:+ q desc).
    constructor; [slit|by apply text_str, q_text|done]. }
  destruct (in_ns_members ns _ _ P3 M2) as (ns_ts & M' & _ & Hr).
  eapply text_as.
  - apply text_obj. cbn [List.app]. eapply members_cons; [exact (lit "name" eq_refl)|apply text_str, q_text, P1|exact M'].
  - unfold field_text. change (String dquote (quote_str "name" +:+ String dquote "")) with """name""".
    specialize (Hr ["""name""" +:+ ":" +:+ q name] ltac:(done)). change (["""name""" +:+ ":" +:+ q name] ++ ns_ts) with (("""name""" +:+ ":" +:+ q name) :: ns_ts) in Hr. change (join "," ["""name""" +:+ ":" +:+ q name]) with ("""name""" +:+ ":" +:+ q name) in Hr.
    assert (J : forall a l x, join "," (a :: l ++ [x]) = join "," (a :: l) +:+ "," +:+ x).
    { intros a l x. change (a :: l ++ [x]) with ((a :: l) ++ [x]). by rewrite join_app. }
    set (tail := "," +:+ """type"":" +:+ tx +:+ (if df then ",""default"":false" else "")).
    assert (K : join "," (("""name""" +:+ ":" +:+ q name) :: ns_ts ++ dt ++ ("""type"":" +:+ tx) :: (if df then ["""default"":false"] else [])) =
        join "," (("""name""" +:+ ":" +:+ q name) :: ns_ts) +:+ (if decide (desc = "") then "" else ",""doc"":" +:+ q desc) +:+ tail).
    { rewrite app_comm_cons, app_assoc. rewrite (app_assoc_s (join "," _)).
      assert (D : join "," (("""name""" +:+ ":" +:+ q name) :: ns_ts) +:+ (if decide (desc = "") then "" else ",""doc"":" +:+ q desc) =
                  join "," ((("""name""" +:+ ":" +:+ q name) :: ns_ts) ++ dt)).
      { unfold dt. destruct (decide (desc = "")); [by rewrite app_nil_r, sapp_nil_r|]. rewrite join_app by done. done. }
      rewrite D. rewrite join_app by done. f_equal. unfold tail. destruct df; cbn [join]; snorm; done. }
    rewrite K, <- Hr. unfold tail. snorm. done.
Qed.

(** ** types and fields *)
Notation conv := (conv_type W o_quote E).
Notation wfields := (write_fields W o_quote E).
Notation wlists := (write_lists W o_quote E).
Notation wfield := (write_field W o_quote E).
Notation lower := (go_lower W).
Definition is_obj (d : doc) : bool := match d with DObj _ => true | _ => false end.
Definition wrap (t : texpr) (nullable : bool) (s : string) : string :=
  if nullable then if is_bool t then s +:+ ",""default"":false" else if may_union t then "[""null""," +:+ s +:+ "]" else s else s.
Lemma prim_is id p : avro_prim id p -> prim_name id = Some p.
Proof.
  destruct 1 as [|id H|id H| | | |]; try done.
  - repeat (apply elem_of_cons in H as [->|H]; [done|]). by apply elem_of_nil in H.
  - repeat (apply elem_of_cons in H as [->|H]; [done|]). by apply elem_of_nil in H.
Qed.
Lemma prim_none id : id ∉ go_prims -> prim_name id = None.
Proof.
  unfold go_prims. rewrite !not_elem_of_cons. intros H. unfold prim_name. rewrite !decide_False; [done|..]; rewrite ?elem_of_cons, ?elem_of_nil; naive_solver.
Qed.
Lemma prim_plain id p : avro_prim id p -> plain_b p = true.
Proof. by destruct 1. Qed.
Lemma texts_app ds1 ts1 ds2 ts2 : texts ds1 ts1 -> texts ds2 ts2 -> texts (ds1 ++ ds2) (ts1 ++ ts2).
Proof. induction 1; [done|]. intros. cbn. constructor; auto. Qed.
Lemma texts_nil_iff ds ts : texts ds ts -> (ds = [] <-> ts = []).
Proof. by destruct 1. Qed.
Lemma fields_some ns excl own fs ds es : fields lower E ns excl own fs ds es -> fs <> [] -> ds <> [].
Proof.
  induction 1 as [|? ? ? go ty json desc fs ds es Hg Hf H IH| |? ? ? e json desc gs fs ds1 ds2 es1 es2 Hd H1 IH1 N H2 IH2]; intros Hn; [done|by apply IH|done|].
  intros [-> ->]%app_eq_nil. done.
Qed.
Lemma fields_num ns excl own fs ds es : fields lower E ns excl own fs ds es -> num_fields fs = length fs.
Proof. unfold num_fields. induction 1; cbn in *; try done; by f_equal. Qed.

Notation nest := (nested W o_quote E).
Lemma struct_S n ns fs name nullable seen : conv (S n) ns (EStruct fs) name nullable seen = nest n ns (EStruct fs) name nullable seen.
Proof. done. Qed.
Lemma nested_S n ns fs name nullable seen : nest (S n) ns (EStruct fs) name nullable seen =
  obind (wlists n (ns ++ [name]) [] [fs] seen) (fun '(txt, seen1) =>
    let body := header o_quote (ns ++ [name]) (name +:+ "_record") "" +:+ txt in
    Some (if nullable then "[""null"",{" +:+ body +:+ "]}]" else "{" +:+ body +:+ "]}", seen1)).
Proof. done. Qed.
Lemma lists_S n ns excl fs seen : wlists (S (S n)) ns excl [fs] seen =
  obind (wfields (S n) ns excl (field_map fs) (num_fields fs) 0 fs seen) (fun '(t1, seen1) => Some (t1 +:+ "", seen1)).
Proof. done. Qed.
Lemma fields_S n ns excl own len i f fs seen : wfields (S n) ns excl own len i (f :: fs) seen =
  obind (wfield n ns excl own f seen) (fun '(r, seen1) => obind (wfields n ns excl own len (S i) fs seen1) (fun '(t2, seen2) =>
    Some (match r with Some t1 => t1 +:+ (if decide (S i = len) then "" else ",") +:+ t2 | None => t2 end, seen2))).
Proof. done. Qed.
Lemma field_own n ns excl own go ty json desc seen : wfield (S n) ns excl own (AField [go] ty json desc) seen =
  if decide (go ∈ excl) then Some (None, seen) else
  let name := avro_name (AField [go] ty json desc) go in
  obind (conv n ns ty name (optional lower (AField [go] ty json desc)) seen) (fun '(ty, seen1) => Some (Some (field_text o_quote ns name desc ty), seen1)).
Proof. done. Qed.
Lemma field_embedded n ns excl own e json desc seen : wfield (S n) ns excl own (AField [] (EIdent e) json desc) seen =
  if decide (e ∈ seen) then Some (None, seen) else
  obind (struct_to_filename W e) (fun file =>
  match src_file E file e with
  | None => Some (Some "{""type"":""embedded struct not found""}", seen)
  | Some t => obind (wlists n (ns ++ [e]) own (field_lists t) seen) (fun '(txt, seen1) => Some (Some txt, e :: seen1))
  end).
Proof. done. Qed.
Lemma avro_mutual :
  (forall ns name t d es, stands lower E ns name t d es -> forall seen, NoDup es -> (forall e, e ∈ es -> e ∉ seen) ->
    exists s n, text d s /\ has_prefix "{" s = is_obj d /\
      forall fuel nullable, n <= fuel -> conv fuel ns t name nullable seen = Some (wrap t nullable s, rev es ++ seen)) /\
  (forall ns excl own fs ds es, fields lower E ns excl own fs ds es -> forall seen i, NoDup es -> (forall e, e ∈ es -> e ∉ seen) ->
    exists ts n, texts ds ts /\
      forall fuel, n <= fuel -> wfields fuel ns excl own (i + length fs) i fs seen = Some (join "," ts, rev es ++ seen)).
Proof.
  apply stands_fields.
  - (* prim *) intros ns name id p Hp seen _ _. exists (String dquote (quote_str p +:+ String dquote "")), 1. split; [apply text_lit; by eapply prim_plain|].
    split; [done|]. intros [|fuel] nullable L; [lia|]. cbn [conv_type]. rewrite (prim_is _ _ Hp). cbn [rev List.app]. do 2 f_equal.
    unfold prim_text, wrap. rewrite q_plain by (by eapply plain_b_ok, prim_plain). cbn [may_union is_bool]. destruct nullable; [|done].
    destruct (decide (p = "boolean")) as [->|N].
    + inversion Hp; subst. rewrite bool_decide_eq_true_2 by done. done.
    + assert (id <> "bool") by (intros ->; inversion Hp as [|? H|? H| | | |]; subst; [done|..]; exfalso; set_solver).
      rewrite bool_decide_eq_false_2 by done. rewrite bool_decide_eq_true_2 by done. done.
  - (* time *) intros ns name x seen _ _. exists "{""type"":""long"",""logicalType"":""timestamp-millis""}", 1. split.
    + eapply text_as; [apply text_obj|].
      * eapply members_cons; [exact (lit "type" eq_refl)|exact (text_lit "long" eq_refl)|].
        eapply members_cons; [exact (lit "logicalType" eq_refl)|exact (text_lit "timestamp-millis" eq_refl)|constructor].
      * reflexivity.
    + split; [done|]. intros [|fuel] [] L; [lia|lia|done|done].
  - (* pointer *) intros ns name t d es _ IH seen Hn Hs. destruct (IH seen Hn Hs) as (s & n & T & Hp & H). exists s, (S n). split; [done|]. split; [done|].
    intros [|fuel] nullable L; [lia|]. cbn [conv_type]. rewrite H by lia. done.
  - (* map *) intros ns name v d es _ IH seen Hn Hs. destruct (IH seen Hn Hs) as (s & n & T & Hp & H).
    exists ("{""type"": ""map"", ""values"": " +:+ s +:+ "}"), (S (S n)). split.
    + eapply text_as; [apply text_obj|].
      * eapply members_cons; [exact (lit "type" eq_refl)|apply text_blank; exact (text_lit "map" eq_refl)|].
        apply members_blank. eapply members_cons; [exact (lit "values" eq_refl)|apply text_blank; exact T|constructor].
      * cbn [join]. snorm. done.
    + split; [done|]. intros [|fuel] nullable L; [lia|]. cbn [conv_type]. destruct fuel as [|fuel]; [lia|].
      assert (conv (S fuel) ns (EIdent "string") name false seen = Some ("""string""", seen)) as -> by done. cbn [obind].
      rewrite H by lia. cbn [obind]. unfold wrap. cbn [is_bool may_union]. by destruct nullable.
  - (* array *) intros ns name t d es _ IH seen Hn Hs. destruct (IH seen Hn Hs) as (s & n & T & Hp & H).
    destruct (is_obj d) eqn:O.
    + exists ("{""type"":""array"",""items"":" +:+ s +:+ "}"), (S n). split.
      * eapply text_as; [apply text_obj|].
        -- eapply members_cons; [exact (lit "type" eq_refl)|exact (text_lit "array" eq_refl)|].
           eapply members_cons; [exact (lit "items" eq_refl)| |constructor]. assert (item_doc d = d) as -> by (by destruct d). exact T.
        -- cbn [join]. snorm. done.
      * split; [done|]. intros [|fuel] nullable L; [lia|]. cbn [conv_type]. rewrite H by lia. cbn [obind]. change (wrap t false s) with s. rewrite Hp. unfold wrap. cbn [is_bool may_union]. by destruct nullable.
    + exists ("{""type"":""array"",""items"":{""type"": " +:+ s +:+ "}}"), (S n). split.
      * eapply text_as; [apply text_obj|].
        -- eapply members_cons; [exact (lit "type" eq_refl)|exact (text_lit "array" eq_refl)|].
           eapply members_cons; [exact (lit "items" eq_refl)| |constructor]. assert (item_doc d = DObj [("type", d)]) as -> by (by destruct d).
           apply text_obj. eapply members_cons; [exact (lit "type" eq_refl)|apply text_blank; exact T|constructor].
        -- cbn [join]. snorm. done.
      * split; [done|]. intros [|fuel] nullable L; [lia|]. cbn [conv_type]. rewrite H by lia. cbn [obind]. change (wrap t false s) with s. rewrite Hp. unfold wrap. cbn [is_bool may_union]. by destruct nullable.
  - (* struct *) intros ns name fs ds es P1 P2 F IH seen Hn Hs. destruct (IH seen 0 Hn Hs) as (ts & n & T & H).
    exists ("{" +:+ header o_quote (ns ++ [name]) (name +:+ "_record") "" +:+ join "," ts +:+ "]}"), (S (S (S (S n)))). split.
    + apply record_text; [|done|done]. apply plain_app; [done|]. by apply plain_b_ok.
    + split; [done|]. intros [|[|[|[|fuel]]]] nullable L; try lia. rewrite struct_S, nested_S, lists_S.
      rewrite (fields_num _ _ _ _ _ _ F). change (field_map fs) with (go_names fs). specialize (H (S fuel) ltac:(lia)). cbn [Nat.add] in H. rewrite H. cbn [obind].
      unfold wrap. cbn [is_bool may_union]. destruct nullable; do 2 f_equal; snorm; done.
  - (* named *) intros ns name id fs d es Hid Hd _ IH seen Hn Hs. destruct (IH seen Hn Hs) as (s & n & T & Hp & H). exists s, (S n). split; [done|]. split; [done|].
    intros fuel nullable L. destruct fuel as [|fuel]; [lia|].
    assert (conv (S fuel) ns (EIdent id) name nullable seen = nest fuel ns (EStruct fs) name nullable seen) as ->.
    { cbn [conv_type]. by rewrite (prim_none _ Hid), Hd. }
    rewrite <- struct_S, H by lia. do 2 f_equal. unfold wrap. cbn [is_bool may_union].
    assert (id <> "bool") by (intros ->; apply Hid; unfold go_prims; set_solver).
    rewrite bool_decide_eq_false_2 by done. rewrite bool_decide_eq_true_2 by done. done.
  - (* nil *) intros ns excl own seen i _ _. exists [], 1. split; [constructor|]. intros [|fuel] L; [lia|]. done.
  - (* left out *) intros ns excl own go ty json desc fs ds es Hg Hf F IH seen i Hn Hs. destruct (IH seen (S i) Hn Hs) as (ts & n & T & H).
    exists ts, (S (S n)). split; [done|]. intros [|[|fuel]] L; try lia. rewrite fields_S, field_own. rewrite decide_True by done. cbn [obind].
    replace (i + length (AField [go] ty json desc :: fs)) with (S i + length fs) by (cbn; lia). rewrite H by lia. done.
  - (* own *) intros ns excl own go ty json desc fs d ds es1 es2 f name Hg P1 P2 P3 St IHt F IHf seen i Hn Hs.
    apply NoDup_app in Hn as (Hn1 & Hd & Hn2).
    destruct (IHt seen Hn1 ltac:(set_solver)) as (s & n1 & T & _ & H1).
    destruct (IHf (rev es1 ++ seen) (S i) Hn2) as (ts & n2 & Ts & H2).
    { intros e He. rewrite elem_of_app, elem_of_list_In, <- in_rev, <- elem_of_list_In. set_solver. }
    set (tx := field_text o_quote ns name desc (wrap ty (optional lower f) s)).
    exists (tx :: ts), (Datatypes.S (Datatypes.S (n1 + n2))). split.
    + constructor; [|done]. unfold tx.
      assert (K : wrap ty (optional lower f) s = (if optional lower f && may_union ty then "[""null""," +:+ s +:+ "]" else s) +:+ (if optional lower f && is_bool ty then ",""default"":false" else "")).
      { unfold wrap. destruct (optional lower f); [|by rewrite sapp_nil_r]. cbn [andb].
        assert (B : is_bool ty = true -> may_union ty = false).
        { clear. induction ty; cbn; try done. intros ->%bool_decide_eq_true. done. }
        destruct (is_bool ty); [by rewrite B|]. by rewrite sapp_nil_r. }
      rewrite K. apply field_text_doc; [done|done|done|].
      destruct (optional lower f && may_union ty); [|done].
      eapply text_as; [apply text_arr; constructor; [exact (text_lit "null" eq_refl)|constructor; [exact T|constructor]]|]. cbn [join]. snorm. done.
    + intros [|[|fuel]] L; try lia. rewrite fields_S. unfold f at 1. rewrite field_own. fold f. rewrite decide_False by done. cbv zeta. fold name. rewrite H1 by lia. cbn [obind].
      replace (i + length (f :: fs)) with (Datatypes.S i + length fs) by (cbn; lia). rewrite H2 by lia. cbn [obind]. fold tx.
      rewrite rev_app_distr, <- app_assoc. do 2 f_equal.
      destruct (decide (fs = [])) as [->|N].
      * inversion F; subst. inversion Ts; subst. cbn [length]. rewrite decide_True by lia. cbn [join]. by rewrite !sapp_nil_r.
      * rewrite decide_False by (destruct fs; [done|cbn; lia]). rewrite join_cons; [done|]. intros ->. inversion Ts; subst. by eapply fields_some in F.
  - (* embedded *) intros ns excl own e json desc gs fs ds1 ds2 es1 es2 (c & rest & Es & Ef) G IHg Nd F IHf seen i Hn Hs.
    apply NoDup_app in Hn as (Hn1 & Hd & Hn2). apply NoDup_cons in Hn2 as [He Hn2].
    destruct (IHg seen 0 Hn1 ltac:(set_solver)) as (ts1 & n1 & T1 & H1).
    destruct (IHf (e :: rev es1 ++ seen) (S i) Hn2) as (ts2 & n2 & T2 & H2).
    { intros x Hx. rewrite not_elem_of_cons, elem_of_app, elem_of_list_In, <- in_rev, <- elem_of_list_In. split; [set_solver|]. set_solver. }
    exists (ts1 ++ ts2), (S (S (S (S (n1 + n2))))). split; [by apply texts_app|].
    intros [|[|[|[|fuel]]]] L; try lia. rewrite fields_S, field_embedded. rewrite decide_False by set_solver.
    unfold struct_to_filename. rewrite Es. cbn [obind]. rewrite Ef. change (field_lists (EStruct gs)) with [gs]. rewrite lists_S.
    rewrite (fields_num _ _ _ _ _ _ G). change (field_map gs) with (go_names gs). specialize (H1 (S fuel) ltac:(lia)). cbn [Nat.add] in H1. rewrite H1. cbn [obind].
    replace (i + length (AField [] (EIdent e) json desc :: fs)) with (S i + length fs) by (cbn; lia). rewrite H2 by lia. cbn [obind]. rewrite sapp_nil_r.
    rewrite rev_app_distr. cbn [rev]. rewrite <- !app_assoc. cbn [List.app]. do 2 f_equal.
    assert (N1 : ts1 <> []) by (intros N; apply Nd; by apply (texts_nil_iff _ _ T1)).
    destruct (decide (fs = [])) as [->|N].
    + inversion F; subst. inversion T2; subst. cbn [length]. rewrite decide_True by lia. rewrite app_nil_r. cbn [join]. by rewrite !sapp_nil_r.
    + rewrite decide_False by (destruct fs; [done|cbn; lia]). rewrite join_app; [done|done|].
      intros N2. apply (texts_nil_iff _ _ T2) in N2. revert N2. by eapply fields_some.
Qed.
End avro.

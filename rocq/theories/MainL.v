(** Proofs about the command. *)
From stdpp Require Import strings list gmap.
From Coq Require Import Ascii Lia.
From Verif Require Import GoStr GoStrL Val Gen Files Gql Load Whole Flags SpecFlags FlagsL Main SpecMain.

Lemma sub_list (l1 l2 : list string) : bool_decide (Forall (fun x => x ∈ l2) l1) = true -> forall x, x ∈ l1 -> x ∈ l2.
Proof. intros H%bool_decide_eq_true. by apply Forall_forall. Qed.
Lemma same_list (l1 l2 : list string) : bool_decide (Forall (fun x => x ∈ l2) l1) && bool_decide (Forall (fun x => x ∈ l1) l2) = true -> forall x, x ∈ l1 <-> x ∈ l2.
Proof. intros [H1 H2]%andb_true_iff x. split; by apply sub_list. Qed.
Ltac listed := vm_compute; reflexivity.
Global Instance kind_dec : EqDecision kind.
Proof. solve_decision. Defined.
Lemma kind_switch n : n ∈ switches <-> kind_of n = Some KBool.
Proof.
  rewrite (same_list switches ["interfaceFiles"; "nestedStructs"; "pointers"; "descriptionAsStructTag"; "embedAllOf"; "avro"; "msgp"; "graphql"; "scalarAny"]) by listed.
  unfold kind_of. by repeat case_decide.
Qed.
Lemma kind_text n : n ∈ texts <-> kind_of n = Some KString.
Proof.
  split.
  - revert n. apply Forall_forall. refine (bool_decide_eq_true_1 _ _). listed.
  - rewrite (same_list texts ["outputPathGraphQL"; "importPath"]) by listed. unfold kind_of. by repeat case_decide.
Qed.
Lemma kind_rename n : n ∈ renames <-> kind_of n = Some KMap.
Proof.
  split.
  - revert n. apply Forall_forall. refine (bool_decide_eq_true_1 _ _). listed.
  - unfold renames, kind_of. by repeat case_decide.
Qed.
Lemma kind_all n : n ∈ switches ++ texts ++ renames <-> is_Some (kind_of n).
Proof.
  rewrite !elem_of_app, kind_switch, kind_text, kind_rename. split; [by intros [->|[->| ->]]; eexists|]. intros [[]  ->]; tauto.
Qed.
(** names of options *)
Definition plain_opt (n : string) : bool := match n with String c s => negb (bool_decide (c = "-"%char \/ c = "="%char)) && bool_decide (cut_eq s = None) | "" => false end.
Lemma names_plain n : n ∈ (switches ++ texts ++ renames) ++ ["h"; "help"] -> plain_opt n = true.
Proof. revert n. apply Forall_forall. refine (bool_decide_eq_true_1 _ _). listed. Qed.
Lemma plain_inv n : plain_opt n = true -> exists c s, n = String c s /\ c <> "-"%char /\ c <> "="%char /\ cut_eq s = None.
Proof.
  destruct n as [|c s]; [done|]. cbn. rewrite andb_true_iff, negb_true_iff, bool_decide_eq_false, bool_decide_eq_true. intros [H1 H2]. exists c, s. split_and!; [done|tauto|tauto|done].
Qed.
Lemma opt_text d c s : dashes d -> c <> "-"%char -> option_text (d +:+ String c s) = Some (String c s).
Proof.
  intros [-> | ->] Hc; [|done]. cbn. destruct c as [[] [] [] [] [] [] [] []]; try done.
Qed.
Lemma opt_not_dashes d c s : dashes d -> c <> "-"%char -> d +:+ String c s <> "--".
Proof. intros [-> | ->] Hc; [|done]. cbn. intros [= -> ->]. done. Qed.
Lemma cut_plain n : plain_opt n = true -> cut_value n = (n, None).
Proof. intros (c & s & -> & H1 & H2 & H3)%plain_inv. cbn. by rewrite H3. Qed.
Lemma cut_equals n v : plain_opt n = true -> cut_value (n +:+ "=" +:+ v) = (n, Some v).
Proof.
  intros (c & s & -> & H1 & H2 & H3)%plain_inv. rewrite sapp_cons. cbn [cut_value]. apply cut_eq_none in H3. by rewrite cut_eq_some.
Qed.
Definition set_option (n v : string) (o : values) : option values := k ← kind_of n; set_value k n v o.
Lemma parse_cons a rest o : parse (a :: rest) o = 
    match option_text a with
    | None => PDone o (a :: rest)
    | Some s =>
      if decide (a = "--") then PDone o rest else
      match s with
      | "" => PBad
      | String c _ =>
        if decide (c = "-"%char \/ c = "="%char) then PBad else
        match kind_of (cut_value s).1 with
        | None => if decide ((cut_value s).1 = "help" \/ (cut_value s).1 = "h") then PHelp else PBad
        | Some KBool => match set_value KBool (cut_value s).1 (default "true" (cut_value s).2) o with Some o' => parse rest o' | None => PBad end
        | Some k =>
          match (cut_value s).2, rest with
          | Some v, _ => match set_value k (cut_value s).1 v o with Some o' => parse rest o' | None => PBad end
          | None, v :: rest' => match set_value k (cut_value s).1 v o with Some o' => parse rest' o' | None => PBad end
          | None, [] => PBad
          end
        end
      end
    end.
Proof. cbn [parse]. destruct (option_text a) as [s|]; [|done]. destruct (decide (a = "--")); [done|]. destruct s as [|c s]; [done|]. destruct (decide _); [done|]. by destruct (cut_value (String c s)). Qed.
Lemma parse_opt d n x rest o : dashes d -> plain_opt n = true -> x = n \/ (exists v, x = n +:+ "=" +:+ v) ->
  parse ((d +:+ x) :: rest) o =
        match kind_of n with
        | None => if decide (n = "help" \/ n = "h") then PHelp else PBad
        | Some KBool => match set_value KBool n (default "true" (cut_value x).2) o with Some o' => parse rest o' | None => PBad end
        | Some k =>
          match (cut_value x).2, rest with
          | Some v, _ => match set_value k n v o with Some o' => parse rest o' | None => PBad end
          | None, v :: rest' => match set_value k n v o with Some o' => parse rest' o' | None => PBad end
          | None, [] => PBad
          end
        end.
Proof.
  intros Hd Hn Hx. assert (Hc : (cut_value x).1 = n). { destruct Hx as [->|[v ->]]; [by rewrite cut_plain|by rewrite cut_equals]. }
  destruct (plain_inv n Hn) as (c & s & En & H1 & H2 & H3). assert (Ex : exists y, x = String c y). { destruct Hx as [->|[v ->]]; rewrite En; [by eexists|rewrite sapp_cons; by eexists]. }
  destruct Ex as [y ->]. rewrite parse_cons, opt_text by done. rewrite decide_False by (by apply opt_not_dashes). rewrite decide_False by tauto. by rewrite Hc.
Qed.
Lemma parse_writes n v ws args o : writes (n, v) ws -> parse (ws ++ args) o = match set_option n v o with Some o' => parse args o' | None => PBad end.
Proof.
  unfold set_option. inversion 1 as [d n' v' Hd Hn|d n' v' Hd Hn|d n' Hd Hn]; subst; cbn [app].
  - assert (Hp : plain_opt n = true) by (apply names_plain, elem_of_app; by left). rewrite (parse_opt d n) by eauto. rewrite cut_equals by done. cbn [snd default].
    apply kind_all in Hn as [k ->]. by destruct k.
  - assert (Hn' : n ∈ switches ++ texts ++ renames) by (apply elem_of_app; by right). assert (Hp : plain_opt n = true) by (apply names_plain, elem_of_app; by left).
    rewrite (parse_opt d n) by eauto. rewrite cut_plain by done. cbn [snd default].
    apply elem_of_app in Hn as [->%kind_text| ->%kind_rename]; done.
  - assert (Hn' : n ∈ switches ++ texts ++ renames) by (apply elem_of_app; by left). assert (Hp : plain_opt n = true) by (apply names_plain, elem_of_app; by left).
    rewrite (parse_opt d n) by eauto. rewrite cut_plain by done. cbn [snd default]. apply kind_switch in Hn as ->. done.
Qed.
Lemma parse_help w more o : help w -> parse (w :: more) o = PHelp.
Proof.
  intros (d & n & Hd & Hn & Hw). assert (Hp : plain_opt n = true) by (apply names_plain, elem_of_app; by right).
  assert (E : exists x, w = d +:+ x /\ (x = n \/ exists v, x = n +:+ "=" +:+ v)). { destruct Hw as [->|[v ->]]; eexists; split; eauto. }
  destruct E as (x & -> & Hx). rewrite (parse_opt d n) by done. assert (E : kind_of n = None /\ (n = "help" \/ n = "h")).
  { revert n Hn Hp Hw Hx. intros n Hn _ _ _. apply elem_of_cons in Hn as [->|[->|[]%elem_of_nil]%elem_of_cons]; (split; [vm_compute; reflexivity|tauto]). }
  destruct E as [-> E]. by rewrite decide_True.
Qed.
Lemma parse_ends more rest o : ends more rest -> parse more o = PDone o rest.
Proof.
  destruct 1 as [|w rest Hw|rest]; [done| |].
  - rewrite parse_cons. assert (E : option_text w = None); [|by rewrite E]. destruct Hw as [N| ->]; [|done].
    destruct w as [|c w]; [done|]. destruct (decide (c = "-"%char)) as [->|Hc]; [destruct N; by exists w|]. cbn. destruct c as [[] [] [] [] [] [] [] []]; done.
  - by rewrite parse_cons.
Qed.
Lemma option_inv a s : option_text a = Some s -> a = "-" +:+ s /\ s <> "" \/ a = "--" +:+ s.
Proof.
  destruct a as [|x a]; [done|]. destruct (decide (x = "-"%char)) as [->|Hx].
  2: { cbn. destruct x as [[] [] [] [] [] [] [] []]; done. }
  destruct a as [|y a]; [done|]. destruct (decide (y = "-"%char)) as [->|Hy].
  - intros [= <-]. by right.
  - assert (E : option_text (String "-" (String y a)) = Some (String y a)) by (by apply (opt_text "-"); [left|]). rewrite E. intros [= <-]. by left.
Qed.
Lemma option_none a : option_text a = None -> ~ (exists x, a = "-" +:+ x) \/ a = "-".
Proof.
  destruct a as [|c a]; [left; by intros [x [=]]|]. destruct (decide (c = "-"%char)) as [->|Hc]; [|left; intros [x [= -> _]]; done].
  destruct a as [|b a]; [by right|]. destruct (decide (b = "-"%char)) as [->|Hb]; [done|].
  assert (E : option_text (String "-" (String b a)) = Some (String b a)) by (by apply (opt_text "-"); [left|]). by rewrite E.
Qed.
Lemma cut_inv c s n v : cut_value (String c s) = (n, v) -> match v with Some v => String c s = n +:+ "=" +:+ v | None => n = String c s end /\ (exists s', n = String c s' /\ cut_eq s' = None).
Proof.
  cbn. destruct (cut_eq s) as [[k u]|] eqn:E; intros [= <- <-].
  - apply cut_eq_inv in E as [-> H]. split; [by rewrite sapp_cons|]. exists k. split; [done|by apply cut_eq_none].
  - split; [done|]. by exists s.
Qed.
(** every command line *)
Lemma line_cases args : (exists rest, ends args rest) \/ (exists w more, args = w :: more /\ help w) \/
  (exists n v ws args', args = ws ++ args' /\ writes (n, v) ws /\ ws <> []) \/ forall o, parse args o = PBad.
Proof.
  destruct args as [|a rest]; [left; eexists; constructor|]. destruct (option_text a) as [s|] eqn:Ea.
  2: { left. eexists. apply ends_word. by apply option_none. }
  destruct (decide (a = "--")) as [->|Hdd]; [left; eexists; apply ends_dashes|].
  assert (Hd : exists d, dashes d /\ a = d +:+ s). { apply option_inv in Ea as [[-> _]| ->]; [exists "-"|exists "--"]; (split; [|done]); [by left|by right]. }
  destruct Hd as (d & Hd & ->). destruct s as [|c s].
  { right; right; right. intros o. rewrite parse_cons, Ea. by rewrite decide_False. }
  destruct (decide (c = "-"%char \/ c = "="%char)) as [Hc|Hc].
  { right; right; right. intros o. rewrite parse_cons, Ea. rewrite decide_False by done. by rewrite decide_True. }
  destruct (cut_value (String c s)) as [n v] eqn:Ec. destruct (cut_inv _ _ _ _ Ec) as [Hs (s' & Hn & Hn')].
  destruct (kind_of n) as [k|] eqn:Ek.
  - assert (Hin : n ∈ switches ++ texts ++ renames) by (apply kind_all; by eexists). destruct v as [v|].
    + right; right; left. exists n, v, [d +:+ String c s], rest. split_and!; [done| |done]. rewrite Hs. by constructor.
    + rewrite <- Hs in *. destruct k.
      * right; right; left. exists n, "true", [d +:+ n], rest. split_and!; [done| |done]. apply writes_switch; [done|]. by apply kind_switch.
      * destruct rest as [|v rest].
        -- right; right; right. intros o. rewrite parse_cons, Ea. rewrite decide_False by done. rewrite Hn. rewrite decide_False by done. rewrite <- Hn, Ec. cbn [fst snd]. by rewrite Ek.
        -- right; right; left. exists n, v, [d +:+ n; v], rest. split_and!; [done| |done]. apply writes_next; [done|]. apply elem_of_app. left. by apply kind_text.
      * destruct rest as [|v rest].
        -- right; right; right. intros o. rewrite parse_cons, Ea. rewrite decide_False by done. rewrite Hn. rewrite decide_False by done. rewrite <- Hn, Ec. cbn [fst snd]. by rewrite Ek.
        -- right; right; left. exists n, v, [d +:+ n; v], rest. split_and!; [done| |done]. apply writes_next; [done|]. apply elem_of_app. right. by apply kind_rename.
  - destruct (decide (n = "help" \/ n = "h")) as [Hh|Hh].
    + right; left. exists (d +:+ String c s), rest. split; [done|]. exists d, n. split_and!; [done| |].
      * destruct Hh as [-> | ->]; [right; left|left].
      * destruct v as [v|]; [right; exists v; by rewrite Hs|left; by rewrite <- Hs].
    + right; right; right. intros o. rewrite parse_cons, Ea. rewrite decide_False by done. rewrite decide_False by done. rewrite Ec. cbn [fst snd]. rewrite Ek. by rewrite decide_False.
Qed.
Fixpoint set_options (ss : list (string * string)) (o : values) : option values :=
  match ss with [] => Some o | s :: ss' => set_option s.1 s.2 o ≫= set_options ss' end.
Lemma parse_starts args ss more o : starts args ss more -> parse args o = match set_options ss o with Some o' => parse more o' | None => PBad end.
Proof.
  intros H. revert o. induction H as [|[n v] ws args ss more Hw _ IH]; intros o; [done|]. rewrite (parse_writes n v) by done. cbn [set_options fst snd]. destruct (set_option n v o); [|done]. cbn. apply IH.
Qed.
Lemma starts_app args ss more n v ws : starts args ss more -> writes (n, v) ws -> forall args', args' = ws ++ args -> starts args' ((n, v) :: ss) more.
Proof. intros H1 H2 args' ->. by constructor. Qed.
Lemma parse_split args : forall o, match parse args o with
  | PDone o' rest => exists ss more, starts args ss more /\ ends more rest /\ set_options ss o = Some o'
  | PHelp => exists ss w more o', starts args ss (w :: more) /\ help w /\ set_options ss o = Some o'
  | PBad => True end.
Proof.
  remember (length args) as len eqn:El. revert args El. induction (lt_wf len) as [len _ IH]. intros args El o.
  destruct (line_cases args) as [[rest He]|[(w & more & -> & Hh)|[(n & v & ws & args' & -> & Hw & Hne)|Hb]]].
  - rewrite (parse_ends _ _ _ He). exists [], args. split_and!; [constructor|done|done].
  - rewrite parse_help by done. exists [], w, more, o. split_and!; [constructor|done|done].
  - rewrite (parse_writes n v) by done. destruct (set_option n v o) as [o1|] eqn:Eo; [|done].
    assert (Hlt : length args' < len). { rewrite El, app_length. destruct ws; [done|]. cbn. lia. }
    specialize (IH _ Hlt args' eq_refl o1). destruct (parse args' o1) as [o' rest| |]; [| |done].
    + destruct IH as (ss & more & H1 & H2 & H3). exists ((n, v) :: ss), more. split_and!; [by constructor|done|]. cbn [set_options fst snd]. by rewrite Eo.
    + destruct IH as (ss & w & more & o' & H1 & H2 & H3). exists ((n, v) :: ss), w, more, o'. split_and!; [by constructor|done|]. cbn [set_options fst snd]. by rewrite Eo.
  - by rewrite Hb.
Qed.
(** ** which values are accepted, and what they say *)
Lemma starts_names args ss more : starts args ss more -> Forall (fun s => s.1 ∈ switches ++ texts ++ renames) ss.
Proof.
  induction 1 as [|s ws args ss more Hw _ IH]; constructor; [|done]. inversion Hw; subst; cbn [fst]; [done|apply elem_of_app; by right|apply elem_of_app; by left].
Qed.
Lemma bool_words v : is_Some (parse_bool v) <-> v ∈ on ++ off.
Proof.
  rewrite elem_of_app. unfold parse_bool.
  rewrite (same_list on ["1"; "t"; "T"; "TRUE"; "true"; "True"]) by listed. rewrite (same_list off ["0"; "f"; "F"; "FALSE"; "false"; "False"]) by listed.
  repeat case_decide; split; try tauto; try (by eexists); by intros [].
Qed.
Lemma bool_word v b : parse_bool v = Some b -> v ∈ (if b then on else off).
Proof.
  unfold parse_bool. case_decide as H1; [intros [= <-]; by apply (same_list on ["1"; "t"; "T"; "TRUE"; "true"; "True"])|].
  case_decide; [|done]. intros [= <-]. by apply (same_list off ["0"; "f"; "F"; "FALSE"; "false"; "False"]).
Qed.
Lemma one_valid n v o : n ∈ switches ++ texts ++ renames -> is_Some (set_option n v o) <-> valid (n, v).
Proof.
  intros Hn. unfold set_option, valid. cbn [fst snd]. rewrite kind_switch, kind_rename. apply kind_all in Hn as [k Hk]. rewrite Hk. cbn. destruct k; cbn.
  - rewrite <- bool_words. destruct (parse_bool v) as [b|]; cbn.
    + split; [intros _; split; [intros _; by exists b|done]|intros _; by eexists].
    + split; [by intros [x Hx]|intros [H _]; by destruct (H eq_refl)].
  - split; [intros _; split; done|intros _; by eexists].
  - pose proof (proj1 (set_flag_iff (v_map o n) v)) as Hf. destruct (set_flag (v_map o n) v) as [m []]; cbn in *; split.
    + intros _. split; [done|]. intros _ Hm. by apply Hf in Hm.
    + intros _. by eexists.
    + intros [x Hx]. done.
    + intros [_ H]. destruct (H eq_refl). by apply Hf.
Qed.
Lemma all_valid ss : Forall (fun s => s.1 ∈ switches ++ texts ++ renames) ss -> forall o, is_Some (set_options ss o) <-> Forall valid ss.
Proof.
  induction 1 as [|[n v] ss Hn _ IH]; intros o; cbn [set_options fst snd]; [split; [constructor|by eexists]|]. rewrite Forall_cons, <- (one_valid n v o Hn).
  destruct (set_option n v o) as [o1|]; cbn; [|split; [by intros []|intros [[] _]; done]]. rewrite IH. split; [intros H; split; [by eexists|done]|by intros []].
Qed.
Lemma last_cons ss n v s : last_value ss n v -> last_value (s :: ss) n v.
Proof. intros (b & a & -> & H). by exists (s :: b), a. Qed.
Lemma last_first ss n v : n ∉ ss.*1 -> last_value ((n, v) :: ss) n v.
Proof. intros H. by exists [], ss. Qed.
Lemma upd_same {X} (f : string -> X) n x : upd f n x n = x.
Proof. unfold upd. by rewrite decide_True. Qed.
Lemma upd_other {X} (f : string -> X) n m x : m <> n -> upd f n x m = f m.
Proof. intros H. unfold upd. by rewrite decide_False. Qed.
Lemma set_bool n v o o' m : set_option n v o = Some o' -> if decide (m = n) then m ∈ switches -> parse_bool v = Some (v_bool o' m) else v_bool o' m = v_bool o m.
Proof.
  unfold set_option. destruct (kind_of n) as [k|] eqn:Ek; [|done]. cbn. destruct k; cbn.
  - destruct (parse_bool v); [|done]. cbn. intros [= <-]. cbn. destruct (decide (m = n)) as [->|N]; [by rewrite upd_same|by rewrite upd_other].
  - intros [= <-]. cbn. destruct (decide (m = n)) as [->|N]; [|done]. intros H%kind_switch. congruence.
  - destruct (set_flag _ _) as [x []]; [|done]. intros [= <-]. cbn. destruct (decide (m = n)) as [->|N]; [|done]. intros H%kind_switch. congruence.
Qed.
Lemma set_text n v o o' m : set_option n v o = Some o' -> if decide (m = n) then m ∈ texts -> v_string o' m = v else v_string o' m = v_string o m.
Proof.
  unfold set_option. destruct (kind_of n) as [k|] eqn:Ek; [|done]. cbn. destruct k; cbn.
  - destruct (parse_bool v); [|done]. cbn. intros [= <-]. cbn. destruct (decide (m = n)) as [->|N]; [|done]. intros H%kind_text. congruence.
  - intros [= <-]. cbn. destruct (decide (m = n)) as [->|N]; [by rewrite upd_same|by rewrite upd_other].
  - destruct (set_flag _ _) as [x []]; [|done]. intros [= <-]. cbn. destruct (decide (m = n)) as [->|N]; [|done]. intros H%kind_text. congruence.
Qed.
Lemma set_map n v o o' m : set_option n v o = Some o' -> if decide (m = n) then m ∈ renames -> set_flag (v_map o m) v = (v_map o' m, true) else v_map o' m = v_map o m.
Proof.
  unfold set_option. destruct (kind_of n) as [k|] eqn:Ek; [|done]. cbn. destruct k; cbn.
  - destruct (parse_bool v); [|done]. cbn. intros [= <-]. cbn. destruct (decide (m = n)) as [->|N]; [|done]. intros H%kind_rename. congruence.
  - intros [= <-]. cbn. destruct (decide (m = n)) as [->|N]; [|done]. intros H%kind_rename. congruence.
  - destruct (set_flag _ _) as [x []] eqn:Es; [|done]. intros [= <-]. cbn. destruct (decide (m = n)) as [->|N]; [by rewrite upd_same|by rewrite upd_other].
Qed.
Lemma bools_said ss m : m ∈ switches -> forall o o', set_options ss o = Some o' ->
  (exists v, last_value ss m v /\ parse_bool v = Some (v_bool o' m)) \/ (m ∉ ss.*1 /\ v_bool o' m = v_bool o m).
Proof.
  intros Hm. induction ss as [|[n v] ss IH]; intros o o'; cbn [set_options fst snd]; [intros [= <-]; right; split; [apply not_elem_of_nil|done]|].
  destruct (set_option n v o) as [o1|] eqn:E; [|done]. cbn. intros H. apply (set_bool _ _ _ _ m) in E. destruct (IH _ _ H) as [(w & Hw & Hb)|[Hn Hb]].
  - left. exists w. split; [by apply last_cons|done].
  - destruct (decide (m = n)) as [->|N]; [left; exists v; split; [by apply last_first|by rewrite Hb, E]|]. right. split; [cbn; apply not_elem_of_cons; done|by rewrite Hb].
Qed.
Lemma texts_said ss m : m ∈ texts -> forall o o', set_options ss o = Some o' ->
  last_value ss m (v_string o' m) \/ (m ∉ ss.*1 /\ v_string o' m = v_string o m).
Proof.
  intros Hm. induction ss as [|[n v] ss IH]; intros o o'; cbn [set_options fst snd]; [intros [= <-]; right; split; [apply not_elem_of_nil|done]|].
  destruct (set_option n v o) as [o1|] eqn:E; [|done]. cbn. intros H. apply (set_text _ _ _ _ m) in E. destruct (IH _ _ H) as [Hw|[Hn Hb]].
  - left. by apply last_cons.
  - destruct (decide (m = n)) as [->|N]; [left; rewrite Hb, E by done; by apply last_first|]. right. split; [cbn; apply not_elem_of_cons; done|by rewrite Hb].
Qed.
Lemma maps_said ss m : m ∈ renames -> forall o o', set_options ss o = Some o' ->
  set_flags (v_map o m) (map snd (filter (fun s => s.1 = m) ss)) = Some (v_map o' m).
Proof.
  intros Hm. induction ss as [|[n v] ss IH]; intros o o'; cbn [set_options fst snd]; [by intros [= <-]|].
  destruct (set_option n v o) as [o1|] eqn:E; [|done]. cbn [mbind option_bind]. intros H. apply (set_map _ _ _ _ m) in E. rewrite filter_cons. cbn [fst]. destruct (decide (m = n)) as [->|N].
  - rewrite decide_True by done. cbn [map snd set_flags]. rewrite E by done. by apply IH.
  - rewrite decide_False by congruence. rewrite <- E. by apply IH.
Qed.
Lemma switch_said ss o' m : m ∈ switches -> set_options ss defaults = Some o' -> says_switch ss m (v_bool o' m).
Proof.
  intros Hm H. destruct (bools_said ss m Hm _ _ H) as [(v & Hv & Hb)|[Hn Hb]]; [left; exists v; split; [done|by apply bool_word]|right]. split; [done|]. rewrite Hb. cbn. by rewrite bool_decide_eq_true.
Qed.
Lemma text_said ss o' m : m ∈ texts -> set_options ss defaults = Some o' -> says_text ss m (v_string o' m).
Proof. intros Hm H. destruct (texts_said ss m Hm _ _ H) as [Hv|[Hn Hb]]; [by left|right]. by rewrite Hb. Qed.
Lemma names_said ss o' m : m ∈ renames -> Forall valid ss -> set_options ss defaults = Some o' -> says_names ss m (v_map o' m).
Proof.
  intros Hm Hv H. pose proof (maps_said ss m Hm _ _ H) as Hf. cbn in Hf.
  assert (Hk : exists kss, Forall2 (fun s kvs => kvs <> [] /\ Forall pair_ok kvs /\ s.2 = written kvs) (filter (fun s => s.1 = m) ss) kss).
  { clear H Hf. induction Hv as [|[n v] ss [_ H2] _ (kss & IH)]; [exists []; constructor|]. rewrite filter_cons. cbn [fst snd] in *. destruct (decide (n = m)) as [->|N]; [|by exists kss].
    destruct (flag_cases v) as [Hb|(kvs & K1 & K2 & ->)]; [by destruct (H2 Hm)|]. exists (kvs :: kss). constructor; [|done]. done. }
  destruct Hk as [kss Hk]. exists kss. split; [done|].
  assert (E : map snd (filter (fun s => s.1 = m) ss) = map written kss). { clear -Hk. induction Hk as [|s kvs l kss (_ & _ & E) _ IH]; [done|]. cbn. by rewrite IH, E. }
  rewrite E in Hf. destruct (set_flags_ok kss) with (m := (∅ : gmap string string)) as (m' & H1 & H2).
  { clear -Hk. induction Hk as [|s kvs l kss (H1 & H2 & _) _ IH]; [constructor|]. by constructor. }
  rewrite H1 in Hf. by injection Hf as <-.
Qed.
(** ** the command *)
Section main.
Context (disk : Type) (o_abs : string -> option string) (build : build_args -> disk -> option (disk * res unit)).
Notation main := (main disk o_abs build).
Notation generate := (generate disk build).
Lemma options_parsed args ss rest : options_of args ss rest -> exists o, parse args defaults = PDone o rest /\ set_options ss defaults = Some o.
Proof.
  intros (more & H1 & H2 & H3). destruct (proj2 (all_valid ss (starts_names _ _ _ H1) defaults) H3) as [o Ho]. exists o. split; [|done].
  rewrite (parse_starts _ _ _ _ H1), Ho. by apply parse_ends.
Qed.
Lemma asked args ss rest o : options_of args ss rest -> set_options ss defaults = Some o -> forall inp out, asks ss inp out (args_for o inp out).
Proof.
  intros (more & _ & _ & Hv) Ho inp out. unfold asks, args_for. cbn. rewrite negb_involutive.
  split_and!; first [reflexivity|solve [apply switch_said; [refine (bool_decide_eq_true_1 _ _); listed|done]]|solve [apply text_said; [refine (bool_decide_eq_true_1 _ _); listed|done]]|
    solve [apply names_said; [refine (bool_decide_eq_true_1 _ _); listed|done|done]]].
Qed.
(** a value is said once *)
Lemma last_fun ss n v w : last_value ss n v -> last_value ss n w -> v = w.
Proof.
  intros (b & a & -> & Ha) (b' & a' & E & Ha'). revert b' E. induction b as [|x b IH]; intros [|y b'] E; cbn in E.
  - by injection E as ->.
  - injection E as _ E. destruct Ha. rewrite E. rewrite fmap_app. apply elem_of_app. right. left.
  - injection E as _ E. destruct Ha'. rewrite <- E. rewrite fmap_app. apply elem_of_app. right. left.
  - injection E as _ E. by apply (IH b').
Qed.
Lemma last_in ss n v : last_value ss n v -> n ∈ ss.*1.
Proof. intros (b & a & -> & _). rewrite fmap_app. apply elem_of_app. right. left. Qed.
Lemma on_off v : v ∈ on -> v ∈ off -> False.
Proof. intros H1 H2. assert (E : bool_decide (v ∈ off) = false); [|by apply bool_decide_eq_false in E]. revert v H1 H2. intros v H1 _. revert v H1. apply Forall_forall. refine (bool_decide_eq_true_1 _ _). listed. Qed.
Lemma says_fun ss n b c : says_switch ss n b -> says_switch ss n c -> b = c.
Proof.
  intros [(v & H1 & H2)|[H1 H2]] [(w & K1 & K2)|[K1 K2]].
  - pose proof (last_fun _ _ _ _ H1 K1) as ->. destruct b, c; try done; by destruct (on_off w).
  - by apply last_in in H1.
  - by apply last_in in K1.
  - destruct b, c; try done; [assert (false = true) by (by apply K2, H2)|assert (false = true) by (by apply H2, K2)]; done.
Qed.
Lemma text_fun ss n v w : says_text ss n v -> says_text ss n w -> v = w.
Proof.
  intros [H|[H ->]] [K|[K ->]]; [by eapply last_fun|by apply last_in in H|by apply last_in in K|done].
Qed.
Lemma no_import_iff ss o : set_options ss defaults = Some o -> no_import ss <->
  (v_bool o "avro" && bool_decide (v_string o "importPath" = "") || v_bool o "graphql" && bool_decide (v_string o "importPath" = "")) = true.
Proof.
  intros Ho. assert (Ha : says_switch ss "avro" (v_bool o "avro")) by (apply switch_said; [refine (bool_decide_eq_true_1 _ _); listed|done]).
  assert (Hg : says_switch ss "graphql" (v_bool o "graphql")) by (apply switch_said; [refine (bool_decide_eq_true_1 _ _); listed|done]).
  assert (Ht : says_text ss "importPath" (v_string o "importPath")) by (apply text_said; [refine (bool_decide_eq_true_1 _ _); listed|done]).
  rewrite orb_true_iff, !andb_true_iff, bool_decide_eq_true. unfold no_import. split.
  - intros [[K|K] K2]; [left|right]; (split; [by eapply says_fun|by eapply text_fun]).
  - intros [[K K2]|[K K2]]; rewrite K2 in Ht; (split; [|done]); [left|right]; by rewrite K in *.
Qed.
Lemma main_done args ss rest d : options_of args ss rest -> exists o, set_options ss defaults = Some o /\
  main args d = match rest with
    | [] => Some (d, 1)
    | input :: more =>
      if (v_bool o "avro" && bool_decide (v_string o "importPath" = "") || v_bool o "graphql" && bool_decide (v_string o "importPath" = "")) then Some (d, 1)
      else match o_abs input with
      | None => Some (d, 2)
      | Some inp =>
        match more with
        | [] => generate (args_for o inp "") d
        | output :: _ => match o_abs output with None => Some (d, 3) | Some out => generate (args_for o inp out) d end
        end
      end
    end.
Proof.
  intros H. destruct (options_parsed _ _ _ H) as (o & Hp & Ho). exists o. split; [done|]. unfold Main.main. rewrite Hp. destruct rest as [|input more]; [done|].
  destruct (v_bool o "avro" && _); [done|]. by destruct (v_bool o "graphql" && _).
Qed.
Lemma main_runs args ss input more inp out d : options_of args ss (input :: more) -> ~ no_import ss -> o_abs input = Some inp ->
  match more with [] => out = "" | output :: _ => o_abs output = Some out end ->
  exists b, asks ss inp out b /\ main args d = match build b d with Some (d', Ok _) => Some (d', 0) | Some (d', Err) => Some (d', 4) | Some (d', Panic) => Some (d', 2) | None => None end.
Proof.
  intros H Hn Hi Hm. destruct (main_done args ss _ d H) as (o & Ho & ->). exists (args_for o inp out). split; [by eapply asked|].
  rewrite (no_import_iff ss o Ho) in Hn. destruct (_ || _); [done|]. rewrite Hi. destruct more as [|output more]; [by subst|by rewrite Hm].
Qed.
Lemma main_usage args ss rest d : options_of args ss rest -> rest = [] \/ no_import ss -> main args d = Some (d, 1).
Proof.
  intros H Hr. destruct (main_done args ss _ d H) as (o & Ho & ->). destruct rest as [|input more]; [done|]. destruct Hr as [?|Hr]; [done|].
  rewrite (no_import_iff ss o Ho) in Hr. by rewrite Hr.
Qed.
Lemma main_paths args ss input more d : options_of args ss (input :: more) -> ~ no_import ss ->
  (o_abs input = None -> main args d = Some (d, 2)) /\
  (forall output more', o_abs input <> None -> more = output :: more' -> o_abs output = None -> main args d = Some (d, 3)).
Proof.
  intros H Hn. destruct (main_done args ss _ d H) as (o & Ho & ->). rewrite (no_import_iff ss o Ho) in Hn. destruct (_ || _); [done|]. split; [by intros ->|].
  intros output more' Hi -> Hout. destruct (o_abs input); [|done]. by rewrite Hout.
Qed.
Lemma main_help args ss w more d : starts args ss (w :: more) -> Forall valid ss -> help w -> main args d = Some (d, 0).
Proof.
  intros H1 Hv Hh. destruct (proj2 (all_valid ss (starts_names _ _ _ H1) defaults) Hv) as [o Ho]. unfold Main.main. rewrite (parse_starts _ _ _ _ H1), Ho. by rewrite parse_help.
Qed.
Lemma main_bad args d : ~ (exists ss rest, options_of args ss rest) -> ~ (exists ss w more, starts args ss (w :: more) /\ Forall valid ss /\ help w) -> main args d = Some (d, 2).
Proof.
  intros N1 N2. unfold Main.main. pose proof (parse_split args defaults) as H. destruct (parse args defaults) as [o rest| |]; [| |done].
  - destruct H as (ss & more & H1 & H2 & H3). destruct N1. exists ss, rest, more. split_and!; [done|done|]. apply (all_valid ss (starts_names _ _ _ H1) defaults). by eexists.
  - destruct H as (ss & w & more & o' & H1 & H2 & H3). destruct N2. exists ss, w, more. split_and!; [done| |done]. apply (all_valid ss (starts_names _ _ _ H1) defaults). by eexists.
Qed.
End main.
(** the options determine what is asked *)
Lemma names_fun ss n m m' : says_names ss n m -> says_names ss n m' -> m = m'.
Proof.
  assert (K : forall l kss, Forall2 (fun (s : string * string) kvs => kvs <> [] /\ Forall pair_ok kvs /\ s.2 = written kvs) l kss ->
    map snd l = map written kss /\ Forall (fun kvs => kvs <> [] /\ Forall pair_ok kvs) kss).
  { induction 1 as [|s kvs l kss (H1 & H2 & E) _ [IH1 IH2]]; [done|]. cbn. rewrite IH1, E. split; [done|by constructor]. }
  intros (kss & H1 & H2) (kss' & H1' & H2'). destruct (K _ _ H1) as [E1 F1], (K _ _ H1') as [E2 F2].
  destruct (set_flags_ok kss F1 ∅) as (m1 & G1 & G2), (set_flags_ok kss' F2 ∅) as (m2 & G1' & G2').
  rewrite <- E1 in G1. rewrite <- E2 in G1'. rewrite G1 in G1'. injection G1' as ->.
  by rewrite (set_by_fun _ _ _ _ H2 G2), (set_by_fun _ _ _ _ H2' G2').
Qed.
Lemma asks_fun ss input output b c : asks ss input output b -> asks ss input output c -> b = c.
Proof.
  unfold asks. intros H K. destruct b, c. cbn in *. destruct_and!.
  f_equal; first [congruence|by eapply text_fun|by eapply names_fun|by eapply says_fun|idtac].
  rewrite <- (negb_involutive b_no_nested), <- (negb_involutive b_no_nested0). f_equal. by eapply says_fun.
Qed.
Lemma says_unset ss n : n ∉ ss.*1 -> says_names ss n ∅.
Proof.
  intros H. exists []. split.
  - assert (E : filter (fun s : string * string => s.1 = n) ss = []); [|rewrite E; constructor]. induction ss as [|[k v] ss IH]; [done|]. cbn in H. rewrite filter_cons. cbn. destruct (decide (k = n)) as [->|]; [destruct H; left|]. apply IH. intros Hs. apply H. by right.
  - intros k v. cbn. split; [intros E; right; split; [apply not_elem_of_nil|done]|intros [(b & a & E & _)|[_ E]]; [by destruct b|done]].
Qed.
Lemma struct_args_asked schema out : asks [("embedAllOf", "false")] schema out (struct_args schema out false ∅).
Proof.
  unfold asks, struct_args. cbn.
  assert (U : forall n, n <> "embedAllOf" -> n ∉ [("embedAllOf", "false")].*1) by (intros n N; cbn; by intros [->|[]%elem_of_nil]%elem_of_cons).
  split_and!; try done; try (right; split; [by apply U|done]); try (by apply says_unset, U);
    try (right; split; [by apply U|]; split; [try done; intros H; exfalso; revert H; apply (bool_decide_eq_false_1 _); vm_compute; reflexivity|try done; intros _; apply (bool_decide_eq_true_1 _); vm_compute; reflexivity]).
  left. exists "false". split; [exists [], []; split; [done|apply not_elem_of_nil]|]. apply (bool_decide_eq_true_1 _). vm_compute. reflexivity.
Qed.

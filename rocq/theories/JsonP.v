(** The JSON types of generated structs. *)
From stdpp Require Import strings list gmap.
From Coq Require Import Ascii ZArith Lia.
From Verif Require Import GoStr GoStrL Val Conv Schema Inst Load SpecPath SpecWalk SpecLoad WalkL Gen GenP GenM GenT GenL SortL SpecGen SpecNamed NamedL NamedK NamedF NamedU Avro GoSrc SpecAvro SpecGo GoSrcL GoSrcP GoSrcQ GoSrcA GoSrcB GoSrcC GoJson SpecJson JsonL JsonM JsonN.

(** ** names *)
Lemma str_all_impl (p q : ascii -> bool) s : (forall a, p a = true -> q a = true) -> str_all p s = true -> str_all q s = true.
Proof. intros H. induction s as [|a s IH]; [done|]. cbn [str_all]. intros [Ha Hs]%andb_true_iff. by rewrite H, IH. Qed.
Lemma seen_quotable req s : seen_name req s = true -> quotable s = true /\ without [","%char] s = true /\ valid_tag s = true /\ (req = true -> s <> "-").
Proof.
  unfold seen_name. intros [[Hne Hd]%andb_true_iff Ha]%andb_true_iff. split_and!.
  - unfold quotable, without. revert Ha. apply str_all_impl. intros [[] [] [] [] [] [] [] []]; vm_compute; congruence.
  - unfold without. revert Ha. apply str_all_impl. intros [[] [] [] [] [] [] [] []]; vm_compute; congruence.
  - unfold valid_tag. rewrite Hne. cbn [andb]. revert Ha. apply str_all_impl. intros [[] [] [] [] [] [] [] []]; vm_compute; congruence.
  - intros -> ->. done.
Qed.
Lemma upper_exported s : starts_upper s = true -> exported_name s = true.
Proof. by destruct s. Qed.
Definition struct_type (t : gtype) : bool := match t with TStruct _ | TNamed _ => true | _ => false end.
Section types.
Context (o_unquote : string -> option string) (dt : bool).
Lemma json_field_ok desc go json req ty y : desc_ok dt desc = true -> (if dt then quotable (first_line desc) else true) = true -> starts_upper go = true -> seen_name req json = true ->
  json_field o_unquote go (Some ("`" +:+ tag_of dt desc json req ty +:+ "`")) y = [JF json (negb req && negb (struct_type ty)) (negb req && struct_type ty) y].
Proof.
  intros Hd Hq Hg Hs. destruct (seen_quotable _ _ Hs) as (Hj & Hc & Hv & Hne). unfold json_field, tag_text_of.
  rewrite trim_literal by (done || by apply raw_quotable). rewrite get_json by done.
  rewrite (upper_exported _ Hg). cbn [negb orb].
  assert (Ht : bool_decide (json +:+ json_option req ty = "-") = false).
  { apply bool_decide_eq_false. unfold json_option. destruct req; [rewrite sapp_nil_r; by apply Hne|]. intros E. apply (f_equal String.length) in E. rewrite app_length_s in E. destruct ty; cbn in E; lia. }
  rewrite Ht. cbv zeta. rewrite split_option by done. cbn [hd tl]. rewrite Hv. destruct req; [done|]. destruct ty; done.
Qed.
Context (f : rfile).
Notation json_type := (json_type o_unquote).
(** the type that a type expression stands for, with enough fuel *)
Definition jty (t : rtype) (y : jt) : Prop := exists n, forall fuel, n <= fuel -> json_type fuel f t = Some y.
Lemma jty_star t y : jty t y -> jty (RStar t) (YPtr y).
Proof. intros [n H]. exists (S n). intros [|fuel] Hf; [lia|]. cbn [GoJson.json_type]. by rewrite H by lia. Qed.
Lemma jty_array t y : jty t y -> jty (RArray t) (YSlice y).
Proof. intros [n H]. exists (S n). intros [|fuel] Hf; [lia|]. cbn [GoJson.json_type]. by rewrite H by lia. Qed.
Lemma jty_map : jty (RMap (RIdent "string") (RIdent "string")) YMap.
Proof. exists 1. intros [|fuel] Hf; [lia|]. done. Qed.
Lemma jty_time : "time" ∈ rf_imports f -> jty (RSel "time" "Time") YTime.
Proof. intros H. exists 1. intros [|fuel] Hf; [lia|]. cbn [GoJson.json_type]. by rewrite decide_True. Qed.
Lemma jty_named w t y : assocd w (rf_types f) = Some t -> jty t y -> jty (RIdent w) y.
Proof. intros Ha [n H]. exists (S n). intros [|fuel] Hf; [lia|]. cbn [GoJson.json_type]. rewrite Ha. apply H. lia. Qed.
Context (Hprim : forall w, w ∈ go_prims -> assocd w (rf_types f) = None).
Lemma jty_bool : jty (RIdent "bool") YBool.
Proof. exists 1. intros [|fuel] Hf; [lia|]. cbn [GoJson.json_type]. rewrite Hprim; [done|]. vm_compute. repeat constructor. Qed.
Lemma jty_float : jty (RIdent "float64") YFloat.
Proof. exists 1. intros [|fuel] Hf; [lia|]. cbn [GoJson.json_type]. rewrite Hprim; [done|]. vm_compute. repeat constructor. Qed.
Lemma jty_int : jty (RIdent "int64") YInt.
Proof. exists 1. intros [|fuel] Hf; [lia|]. cbn [GoJson.json_type]. rewrite Hprim; [done|]. vm_compute. repeat constructor. Qed.
Lemma jty_string : jty (RIdent "string") YString.
Proof. exists 1. intros [|fuel] Hf; [lia|]. cbn [GoJson.json_type]. rewrite Hprim; [done|]. vm_compute. repeat constructor. Qed.
Lemma jty_base t date b : base_type t date = Some b -> exists y, ybase t date = Some y /\ jty (src_type dt b) y /\ struct_type b = false /\ is_ystruct y = false.
Proof.
  unfold base_type, ybase. intros H. repeat case_decide; [..|done].
  - injection H as <-. eexists. split_and!; [done|apply jty_bool|done..].
  - injection H as <-. eexists. split_and!; [done|apply jty_float|done..].
  - injection H as <-. eexists. split_and!; [done|apply jty_int|done..].
  - destruct date; [done|]. injection H as <-. eexists. split_and!; [done|apply jty_string|done..].
Qed.
Lemma jty_ptr b t y : jty (src_type dt t) y -> jty (src_type dt (SpecGen.ptr b t)) (yptr b y).
Proof. destruct b; [|done]. apply jty_star. Qed.
(** the JSON fields of a declaration *)
Definition jdecl (d : gdecl) (fs : list jf) : Prop :=
  let 'GDecl desc go json req oty := d in
  match oty with
  | None => fs = []
  | Some ty => exists y, jty (src_type dt ty) y /\ fs = [JF json (negb req && negb (struct_type ty)) (negb req && struct_type ty) y]
  end.
Lemma filter_all {A} (P : A -> Prop) `{forall x, Decision (P x)} (l : list A) : (forall x, x ∈ l -> P x) -> filter P l = l.
Proof. induction l as [|x l IH]; [done|]. intros HP. rewrite filter_cons_True by (apply HP; left). f_equal. apply IH. intros y Hy. apply HP. by right. Qed.
Lemma distinct_all fs : NoDup (map jf_name fs) -> distinct_fields fs = fs.
Proof.
  intros Hnd. unfold distinct_fields.
  assert (H : forall g, g ∈ fs -> count_name (jf_name g) fs = 1).
  { unfold count_name. clear -Hnd. induction fs as [|x fs IH]; [intros g H; by apply elem_of_nil in H|]. cbn in Hnd. apply NoDup_cons in Hnd as [Hx Hnd].
    assert (H0 : filter (fun g => jf_name g = jf_name x) fs = []).
    { clear -Hx. induction fs as [|y fs IH]; [done|]. cbn in Hx. apply not_elem_of_cons in Hx as [H1 H2]. rewrite filter_cons_False by congruence. by apply IH. }
    intros g [->|Hg]%elem_of_cons; [by rewrite filter_cons_True, H0|].
    rewrite filter_cons_False; [by apply IH|]. intros E. apply Hx. rewrite E. apply elem_of_list_In, in_map, elem_of_list_In, Hg. }
  by apply filter_all.
Qed.
Definition decl_ok (d : gdecl) : bool := writable dt d && seen dt d.
Lemma jty_struct ds fss : Forall2 jdecl ds fss -> forallb (writable dt) ds = true -> forallb (seen dt) ds = true -> NoDup (map jf_name (List.concat fss)) ->
  jty (RStruct (flat_map (src_field dt) ds)) (YStruct (List.concat fss)).
Proof.
  intros H Hw Hs Hnd.
  assert (Hm : exists n, forall fuel, n <= fuel -> exists l, mapM (fun g : rfield => let 'RField names ty tag := g in
        match names with [] => None | _ => (fun y => List.concat (map (fun go => json_field o_unquote go tag y) names)) <$> json_type fuel f ty end) (flat_map (src_field dt) ds) = Some l /\
      List.concat l = List.concat fss).
  { clear Hnd. induction H as [|d fs ds fss Hd _ IH]; [exists 0; intros fuel _; by exists []|]. cbn [forallb] in Hw, Hs. apply andb_true_iff in Hw as [Hwd Hw]. apply andb_true_iff in Hs as [Hsd Hs].
    destruct (IH Hw Hs) as [n IH']. destruct d as [desc go json req [ty|]].
    - destruct Hd as (y & [m Hm] & ->). exists (Nat.max n m). intros fuel Hf. destruct (IH' fuel) as (l & Hl & Hc); [lia|]. cbn [flat_map]. rewrite src_some. cbn [app mapM]. rewrite Hm by lia.
      rewrite writable_some in Hwd. apply andb_true_iff in Hwd as [Hdo _]. cbn [seen] in Hsd. rewrite !andb_true_iff in Hsd. destruct Hsd as [[[Hg Hn] Hq] _].
      cbn [fmap option_fmap option_map map]. rewrite json_field_ok by done. cbn [mbind option_bind]. rewrite Hl. cbn. eexists. split; [done|]. cbn. by rewrite Hc.
    - cbn in Hd. subst fs. exists n. exact IH'. }
  destruct Hm as [n Hm]. exists (S n). intros [|fuel] Hf; [lia|]. destruct (Hm fuel) as (l & Hl & Hc); [lia|]. cbn [GoJson.json_type]. rewrite Hl. cbn. rewrite Hc. by rewrite distinct_all.
Qed.
Lemma forall2_perm {A B} (P : A -> B -> Prop) l l' k : l ≡ₚ l' -> Forall2 P l k -> exists k', Forall2 P l' k' /\ k ≡ₚ k'.
Proof.
  intros Hp. revert k. induction Hp as [|x l l' _ IH|x y l|l l1 l2 _ IH1 _ IH2]; intros k H.
  - exists k. done.
  - inversion H as [|? b ? k0 Hb Hk]; subst. destruct (IH k0 Hk) as (k' & H1 & H2). exists (b :: k'). split; [by constructor|]. by apply Permutation_skip.
  - inversion H as [|? b ? k0 Hb Hk]; subst. inversion Hk as [|? c ? k1 Hc Hk1]; subst. exists (c :: b :: k1). split; [by repeat constructor|]. apply Permutation_swap.
  - destruct (IH1 k H) as (k1 & H1 & P1). destruct (IH2 k1 H1) as (k2 & H2 & P2). exists k2. split; [done|]. by etrans.
Qed.
Lemma concat_perm {A} (l l' : list (list A)) : l ≡ₚ l' -> List.concat l ≡ₚ List.concat l'.
Proof. induction 1; cbn; [done|by apply Permutation_app_head| |by etrans]. rewrite !app_assoc. apply Permutation_app_tail, Permutation_app_comm. Qed.
(** the struct for properties: its fields by their Go names *)
Lemma struct_by_name flat pointers reqs ps ds fss : Forall2 jdecl ds fss -> shps flat pointers reqs ps (List.concat fss) -> NoDup ps.*1 ->
  forallb (writable dt) (by_name ds) = true -> forallb (seen dt) (by_name ds) = true ->
  exists fs', List.concat fss ≡ₚ fs' /\ jty (RStruct (flat_map (src_field dt) (by_name ds))) (YStruct fs').
Proof.
  intros H Hsh Hnd Hw Hs. assert (Hp : ds ≡ₚ by_name ds) by (by rewrite by_name_perm). destruct (forall2_perm _ _ _ _ Hp H) as (k & Hk & Hpk). apply concat_perm in Hpk. exists (List.concat k). split; [done|].
  apply jty_struct; [done..|]. rewrite <- Hpk. eapply sub_nodup; [by eapply names_in|done].
Qed.
End types.

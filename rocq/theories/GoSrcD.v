(** Structs found by name. *)
From stdpp Require Import strings list gmap.
From Coq Require Import Ascii ZArith Lia.
From Verif Require Import GoStr GoStrL Val Conv Schema Inst SpecGen SpecNamed Avro GoSrc SpecAvro SpecGo GoSrcC.

Lemma parse_dir_ok dir fs : Forall2 (fun s f => parse_go s = Some f) (go_files dir) fs <-> parse_dir dir = Some fs.
Proof.
  unfold go_files, parse_dir. generalize (filter (fun f : string * string => has_suffix ".go" f.1 = true) dir). intros l. revert fs. induction l as [|x l IH]; intros fs.
  - cbn. split; [by inversion 1|by intros [= <-]].
  - cbn [map mapM]. split.
    + inversion 1 as [|s f ss fs' Hp HF]; subst. rewrite Hp. cbn. apply IH in HF. by rewrite HF.
    + destruct (parse_go x.2) as [f|] eqn:E; [|done]. cbn. destruct (mapM _ l) as [fs'|] eqn:E'; [|done]. intros [= <-]. constructor; [done|]. by apply IH.
Qed.
Lemma filter_fields_none name fs :
  existsb (fun f => let 'RField names ty _ := f in match names with [] => bool_decide (embedded_name ty = Some name) | _ => bool_decide (name ∈ names) end) fs = false ->
  omap (filter_field name) fs = [].
Proof.
  induction fs as [|[names ty tag] fs IH]; [done|]. cbn [existsb]. intros [H1 H2]%orb_false_iff. cbn [omap list_omap filter_field]. rewrite (IH H2). destruct names as [|n names].
  - apply bool_decide_eq_false in H1. by rewrite decide_False.
  - apply bool_decide_eq_false in H1. assert (E : filter (fun x => x = name) (n :: names) = []).
    { destruct (filter (fun x => x = name) (n :: names)) as [|y l] eqn:E; [done|]. assert (Hy : y ∈ y :: l) by left. rewrite <- E in Hy. apply elem_of_list_filter in Hy as [-> Hy]. done. }
    by rewrite E.
Qed.
Lemma filter_type_none name t : mentions name t = false -> (filter_type name t).1 = false.
Proof.
  induction t; intros H; try done; cbn in *.
  - destruct (filter_type name t) as [b t']. cbn in *. by apply IHt.
  - apply orb_false_iff in H as [H1 H2]. destruct (filter_type name t1) as [b1 t1'], (filter_type name t2) as [b2 t2']. cbn in *. by rewrite IHt1, IHt2.
  - rewrite filter_fields_none by done. done.
Qed.
Lemma filter_decls_named name (ts : list (string * rtype)) : map snd (filter (fun d => d.1 = name) (omap (filter_decl name) ts)) = map snd (filter (fun d => d.1 = name) ts).
Proof.
  induction ts as [|[k t] ts IH]; [done|]. cbn [omap list_omap]. unfold filter_decl at 1. cbn [fst snd]. destruct (decide (k = name)) as [->|Hk].
  - rewrite !filter_cons_True by done. cbn. by f_equal.
  - rewrite (filter_cons_False _ (k, t)) by done. destruct (filter_type name t) as [b u]. destruct b; [|done]. rewrite filter_cons_False by done. done.
Qed.
Lemma filter_decls_only name (ts : list (string * rtype)) : Forall (fun d => d.1 <> name -> mentions name d.2 = false) ts ->
  map snd (omap (filter_decl name) ts) = map snd (filter (fun d => d.1 = name) ts).
Proof.
  induction 1 as [|[k t] ts Hk _ IH]; [done|]. cbn in Hk. cbn [omap list_omap]. unfold filter_decl at 1. cbn [fst snd]. destruct (decide (k = name)) as [->|Hne].
  - rewrite filter_cons_True by done. cbn. by f_equal.
  - rewrite filter_cons_False by done. assert (H := filter_type_none name t (Hk Hne)). destruct (filter_type name t) as [b u]. cbn in H. by subst b.
Qed.
Lemma named_none name f : declared f name = [] <-> named_decls name f = [].
Proof.
  unfold declared, named_decls, filter_decls. rewrite <- filter_decls_named. split; [intros H; by apply map_eq_nil in H|by intros ->].
Qed.
Lemma named_length name f : length (named_decls name f) = length (declared f name).
Proof. unfold declared, named_decls, filter_decls. rewrite <- filter_decls_named. by rewrite map_length. Qed.
Lemma one_package_ok fs : one_package fs = true <-> fs <> [] /\ exists pkg, Forall (fun g => rf_package g = pkg) fs.
Proof.
  destruct fs as [|f fs]; [by split; [|intros [? _]]|]. cbn. rewrite forallb_forall. split.
  - intros H. split; [done|]. exists (rf_package f). constructor; [done|]. apply Forall_forall. intros g Hg%elem_of_list_In. by apply H, bool_decide_eq_true in Hg.
  - intros [_ [pkg [Hf HF]%Forall_cons]]. intros g Hg%elem_of_list_In. rewrite Forall_forall in HF. apply bool_decide_eq_true. by rewrite Hf, HF.
Qed.
Lemma flat_none name l : Forall (fun g => declared g name = []) l -> flat_map (fun f => map (fun _ => f) (named_decls name f)) l = [].
Proof. induction 1 as [|g l Hg _ IH]; [done|]. cbn. apply named_none in Hg. by rewrite Hg. Qed.
Lemma found dir name f t : only_in dir name f t -> Forall (fun d => d.1 <> name -> mentions name d.2 = false) (rf_types f) -> struct_in_dir dir name = Some t.
Proof.
  intros (fs1 & fs2 & pkg & HP & Hpkg & Hd & Ho) Hm. apply parse_dir_ok in HP. unfold struct_in_dir. rewrite HP.
  rewrite (proj2 (one_package_ok _)); [|split; [by destruct fs1|by exists pkg]]. apply Forall_app in Ho as [H1 H2]. rewrite flat_map_app. cbn [flat_map].
  rewrite !flat_none by done. rewrite app_nil_r. cbn [app]. assert (Hl := named_length name f). rewrite Hd in Hl. destruct (named_decls name f) as [|d [|]] eqn:E; try done. cbn [map].
  unfold filter_decls. assert (Hs := filter_decls_only name (rf_types f) Hm). fold (declared f name) in Hs. rewrite Hd in Hs.
  destruct (omap (filter_decl name) (rf_types f)) as [|d' l]; [done|]. cbn in Hs |- *. by injection Hs as -> _.
Qed.
Lemma not_found dir name : struct_in_dir dir name <> None -> exists f t, only_in dir name f t.
Proof.
  unfold struct_in_dir. destruct (parse_dir dir) as [fs|] eqn:HP; [|done]. destruct (one_package fs) eqn:Ho; [|done]. apply one_package_ok in Ho as [_ [pkg Hpkg]].
  destruct (flat_map (fun f => map (fun _ => f) (named_decls name f)) fs) as [|f [|]] eqn:E; try done. intros _. apply parse_dir_ok in HP.
  cut (exists fs1 fs2 t, fs = fs1 ++ f :: fs2 /\ declared f name = [t] /\ Forall (fun g => declared g name = []) (fs1 ++ fs2)).
  { intros (fs1 & fs2 & t & -> & H1 & H2). exists f, t, fs1, fs2, pkg. done. }
  clear HP Hpkg. induction fs as [|g fs IH]; [done|]. cbn in E. destruct (named_decls name g) as [|x l] eqn:Eg.
  - destruct (IH E) as (fs1 & fs2 & t & -> & H1 & H2). exists (g :: fs1), fs2, t. split; [done|]. split; [done|]. cbn. constructor; [by apply named_none|done].
  - cbn in E. injection E as -> E. apply app_eq_nil in E as [El Ef]. assert (Hl := named_length name f). rewrite Eg in Hl. apply map_eq_nil in El as ->.
    destruct (declared f name) as [|t [|]] eqn:Ed; try done. exists [], fs, t. split; [done|]. split; [done|]. clear -Ef. induction fs as [|g fs IH]; [constructor|]. cbn in Ef.
    apply app_eq_nil in Ef as [H1 H2]. constructor; [|by apply IH]. apply map_eq_nil in H1. by apply named_none.
Qed.
Section conv.
Context (W : oracles) (o_quote : string -> string) (o_unquote : string -> option string).
Lemma prim_not id : id ∉ go_prims -> prim_name id = None.
Proof.
  unfold go_prims, prim_name. intros H. rewrite !elem_of_cons in H. repeat (rewrite decide_False by (rewrite ?elem_of_cons; tauto)). done.
Qed.
Lemma named_struct dir id f fs fuel ns name null seen : id ∉ go_prims -> only_in dir id f (RStruct fs) -> Forall (fun d => d.1 <> id -> mentions id d.2 = false) (rf_types f) ->
  conv_type W o_quote (sources_of o_unquote dir) fuel ns (EIdent id) name null seen =
  conv_type W o_quote (sources_of o_unquote dir) fuel ns (EStruct (map (to_afield o_unquote) fs)) name null seen.
Proof. intros Hp Ho Hm. destruct fuel as [|n]; [done|]. cbn [conv_type]. rewrite prim_not by done. cbn [src_dir sources_of]. rewrite (found _ _ _ _ Ho Hm). done. Qed.
Lemma unknown_struct dir id fuel ns name null seen : id ∉ go_prims -> (forall f t, ~ only_in dir id f t) ->
  conv_type W o_quote (sources_of o_unquote dir) (S fuel) ns (EIdent id) name null seen = Some ("unknown", seen).
Proof.
  intros Hp Ho. cbn [conv_type]. rewrite prim_not by done. cbn [src_dir sources_of]. destruct (struct_in_dir dir id) as [t|] eqn:E; [|done].
  destruct (not_found dir id) as (f & u & H); [by rewrite E|]. by apply Ho in H.
Qed.
Lemma missing_struct fuel dir name file : (forall text f, (file, text) ∈ dir -> parse_go text = Some f ->
    declared f name = [] /\ Forall (fun d => mentions name d.2 = false) (rf_types f)) ->
  avro_schema o_unquote W o_quote fuel dir name file = Some Err.
Proof.
  intros H. unfold avro_schema, struct_in_file. destruct (assocd file dir) as [text|] eqn:E; [|done]. destruct (parse_go text) as [f|] eqn:Ep; [|done].
  assert (Hin : (file, text) ∈ dir). { clear -E. induction dir as [|[k v] dir IH]; [done|]. cbn in E. case_decide as Hk; [injection E as ->; subst; left|right; by apply IH]. }
  destruct (H text f Hin Ep) as [Hd Hm]. unfold filter_decls. assert (Hs := filter_decls_only name (rf_types f)). fold (declared f name) in Hs. rewrite Hd in Hs.
  destruct (omap (filter_decl name) (rf_types f)); [done|]. exfalso. assert (Hx : Forall (fun d : string * rtype => d.1 <> name -> mentions name d.2 = false) (rf_types f)) by (eapply Forall_impl; [exact Hm|]; by intros ? ? _).
  specialize (Hs Hx). done.
Qed.
End conv.

(** Lemmas about flattening. *)
From stdpp Require Import strings list gmap.
From Coq Require Import Ascii.
From Verif Require Import GoStr GoStrL Val Schema Inst Load SpecLoad.

Lemma assoc_app k (l1 l2 : list (string * tree)) : assoc k (l1 ++ l2) = match assoc k l1 with Some v => Some v | None => assoc k l2 end.
Proof. induction l1 as [|[k' v] l1 IH]; [done|]. cbn. case_decide; [done|]. exact IH. Qed.
Lemma assoc_notin k (l : list (string * tree)) : k ∉ l.*1 -> assoc k l = None.
Proof.
  induction l as [|[k' v] l IH]; [done|]. cbn. intros H. apply not_elem_of_cons in H as [H1 H2]. case_decide; [congruence|]. by apply IH.
Qed.
Lemma assoc_in k (l : list (string * tree)) : k ∈ l.*1 -> is_Some (assoc k l).
Proof.
  induction l as [|[k' v] l IH]; intros H; [by apply elem_of_nil in H|]. cbn in *. case_decide; [by eauto|].
  apply elem_of_cons in H as [->|H]; [done|]. by apply IH.
Qed.
Lemma assoc_filter k (l : list (string * tree)) (ks : list string) : k ∉ ks -> assoc k (filter (fun kv => kv.1 ∉ ks) l) = assoc k l.
Proof.
  intros Hk. induction l as [|[k' v] l IH]; [done|]. destruct (decide (k' ∈ ks)) as [H|H].
  - rewrite filter_cons_False by (cbn; tauto). cbn [assoc]. case_decide; [by subst|]. exact IH.
  - rewrite filter_cons_True by done. cbn [assoc]. case_decide; [done|]. exact IH.
Qed.
Lemma merge_assoc k p c : assoc k (default [] (merge_props p c)) =
  match assoc k (default [] p) with Some v => Some v | None => assoc k (default [] c) end.
Proof.
  unfold merge_props. cbn [from_option id]. set (P := default [] p). rewrite assoc_app. destruct (assoc k P) eqn:H; [done|].
  apply assoc_filter. intros Hin. destruct (assoc_in _ _ Hin). congruence.
Qed.
Lemma merge_nodup p c : NoDup (default [] p).*1 -> NoDup (default [] c).*1 -> NoDup (default [] (merge_props p c)).*1.
Proof.
  unfold merge_props. cbn [from_option id]. set (P := default [] p). set (C := default [] c). intros HP HC.
  rewrite fmap_app. apply NoDup_app. split; [done|]. split.
  - intros k Hk (kv & -> & Hf)%elem_of_list_fmap. apply elem_of_list_filter in Hf as [Hf _]. by apply Hf.
  - induction C as [|[k v] C IH]; [constructor|]. cbn in HC. apply NoDup_cons in HC as [H1 H2].
    destruct (decide (k ∈ P.*1)) as [H|H].
    + rewrite filter_cons_False by (cbn; tauto). by apply IH.
    + rewrite filter_cons_True by done. cbn. apply NoDup_cons. split; [|by apply IH].
      intros (kv & -> & Hf)%elem_of_list_fmap. apply elem_of_list_filter in Hf as [_ Hf]. apply H1. by apply elem_of_list_fmap_1.
Qed.
Lemma first_found_cons k l ls : first_found k (l :: ls) = match assoc k l with Some v => Some v | None => first_found k ls end.
Proof. done. Qed.

Lemma first_found_snoc k ls l : first_found k (ls ++ [l]) = match first_found k ls with Some v => Some v | None => assoc k l end.
Proof. induction ls as [|x ls IH]; cbn; [by destruct (assoc k l)|]. destruct (assoc k x); [done|]. exact IH. Qed.
Lemma first_some_snoc {A} (ls : list (option A)) l : first_some (ls ++ [l]) = match first_some ls with Some v => Some v | None => l end.
Proof. induction ls as [|x ls IH]; cbn; [by destruct l|]. destruct x; [done|]. exact IH. Qed.
Lemma absorbed_snoc i ms out m : absorbed i ms out -> absorbed i (ms ++ [m]) (absorb out m).
Proof.
  intros (H1 & H2 & H3 & H4 & _). unfold absorbed. rewrite app_comm_cons, !map_app.
  split; [|split; [|split; [|split; [|split]]]].
  - intros k. unfold props_of at 1, absorb. cbn [n_props]. rewrite merge_assoc.
    change (default [] (n_props out)) with (props_of out). rewrite H1. cbn [map]. rewrite first_found_snoc. done.
  - unfold absorb. cbn [n_required]. rewrite H2, concat_app. cbn [map concat]. by rewrite app_nil_r.
  - unfold absorb. cbn [n_items]. rewrite H3. cbn [map]. rewrite first_some_snoc. by destruct (first_some _).
  - intros HF. apply Forall_app in HF as [HF Hm]. apply Forall_cons in Hm as [Hm _]. unfold props_of, absorb. cbn [n_props].
    apply merge_nodup; [by apply H4|done].
  - intros _. unfold absorb. cbn. eexists. done.
  - intros H. destruct ms; done.
Qed.
Lemma absorbed_nil i : absorbed i [] i.
Proof.
  split; [|split; [|split; [|split; [|split]]]]; cbn.
  - intros k. by destruct (assoc k (props_of i)).
  - by rewrite app_nil_r.
  - by destruct (n_items i).
  - intros H. by apply Forall_cons in H as [H _].
  - done.
  - done.
Qed.
Lemma rest_refl i : same_rest i i.
Proof. by repeat split. Qed.
Lemma rest_absorb i out m : same_rest i out -> same_rest i (absorb out m).
Proof. destruct out; unfold same_rest, absorb; cbn. done. Qed.
Lemma all_flat i l ms out : absorbed i ms out -> same_rest i out ->
  absorbed i (ms ++ l) (foldl (all_step true) out l) /\ same_rest i (foldl (all_step true) out l).
Proof.
  revert ms out. induction l as [|m l IH]; intros ms out H R; [by rewrite app_nil_r|]. cbn [foldl].
  unfold all_step at 2 4. cbn [negb andb]. replace (ms ++ m :: l) with ((ms ++ [m]) ++ l) by (by rewrite <- app_assoc).
  apply IH; [by apply absorbed_snoc|by apply rest_absorb].
Qed.
Lemma ones_flat ty i l ones ms out : absorbed i ms out -> same_rest i out -> picks (fun m => sub_name (n_fromRef m) = ty) l ones ->
  absorbed i (ms ++ ones) (foldl (one_step ty) out l) /\ same_rest i (foldl (one_step ty) out l).
Proof.
  intros H R Hp. revert ms out H R. induction Hp as [|m l ones Hm Hp IH|m l ones Hm Hp IH]; intros ms out H R; [by rewrite app_nil_r| |];
    cbn [foldl]; unfold one_step at 2 4.
  - rewrite decide_True by done. replace (ms ++ m :: ones) with ((ms ++ [m]) ++ ones) by (by rewrite <- app_assoc).
    apply IH; [by apply absorbed_snoc|by apply rest_absorb].
  - rewrite decide_False by done. by apply IH.
Qed.

(** ** file names *)
Lemma trim_right_all c s t : str_all (fun a => bool_decide (a = c)) t = true -> trim_right c (s +:+ t) = trim_right c s.
Proof.
  intros H. induction s as [|a s IH].
  - rewrite sapp_nil_l. induction t as [|b t IHt]; [done|]. cbn in H. apply andb_true_iff in H as [H1 H2].
    cbn [trim_right]. rewrite IHt by done. cbn. apply bool_decide_eq_true_1 in H1. by rewrite decide_True.
  - rewrite sapp_cons. cbn [trim_right]. by rewrite IH.
Qed.
Lemma trim_right_free c s t : t <> "" -> free_of c t = true -> trim_right c (s +:+ t) = s +:+ t.
Proof.
  intros Hne Hf. assert (Ht : trim_right c t = t).
  { clear s. induction t as [|b t IH]; [done|]. cbn in Hf. apply andb_true_iff in Hf as [H1 H2]. cbn [trim_right].
    destruct (decide (t = "")) as [->|N].
    - cbn. rewrite decide_False; [done|]. intros ->. by rewrite bool_decide_true in H1.
    - rewrite IH by done. destruct t; done. }
  induction s as [|a s IH]; [by rewrite sapp_nil_l|]. rewrite sapp_cons. cbn [trim_right]. rewrite IH. destruct (s +:+ t) eqn:E; [|done].
  by apply app_inv_nil in E as [_ ->].
Qed.
Lemma last_app {A} (l1 l2 : list A) d : l2 <> [] -> List.last (l1 ++ l2) d = List.last l2 d.
Proof.
  intros H. induction l1 as [|x l1 IH]; [done|]. rewrite <- app_comm_cons. destruct (l1 ++ l2) as [|y r] eqn:E; [by apply app_eq_nil in E as [-> ->]|].
  rewrite <- IH. done.
Qed.
Lemma trim_right_split c s : exists base t, s = base +:+ t /\ str_all (fun a => bool_decide (a = c)) t = true /\ trim_right c s = base /\
  (base = "" \/ exists b x, base = b +:+ String x "" /\ x <> c).
Proof.
  induction s as [|a s (base & t & Hs & Ht & Htr & Hb)].
  - exists "", "". split; [done|]. split; [done|]. split; [done|]. by left.
  - cbn [trim_right]. rewrite Htr. destruct base as [|b0 base0].
    + rewrite sapp_nil_l in Hs. subst t. destruct (decide (a = c)) as [->|N].
      * exists "", (String c s). split; [done|]. split; [|split; [done|by left]]. cbn. by rewrite bool_decide_true.
      * exists (String a ""), s. split; [done|]. split; [done|]. split; [done|]. right. by exists "", a.
    + exists (String a (String b0 base0)), t. split; [by rewrite sapp_cons, Hs|]. split; [done|]. split; [done|]. right.
      destruct Hb as [|(b & x & Hb & Hx)]; [done|]. exists (String a b), x. split; [by rewrite Hb|done].
Qed.
Lemma split_last c s : exists d b, free_of c b = true /\ List.last (split s (chr c)) "" = b /\ (s = b \/ s = d +:+ String c b).
Proof.
  induction s as [|a s (d & b & Hb & Hl & Hs)].
  - exists "", "". split; [done|]. split; [by rewrite split_chr_free|]. by left.
  - destruct Hs as [Hs|Hs].
    + subst s. destruct (decide (a = c)) as [->|N].
      * exists "", b. split; [done|]. split; [|by right]. pose proof (split_chr_app c "" b eq_refl) as E. rewrite sapp_nil_l in E. rewrite E.
        rewrite (split_chr_free c b Hb). done.
      * exists "", (String a b). assert (Hf : free_of c (String a b) = true) by (cbn; by rewrite bool_decide_false, Hb).
        split; [done|]. split; [|by left]. by rewrite split_chr_free.
    + exists (String a d), b. split; [done|]. split; [|right; by rewrite Hs]. rewrite Hs. rewrite <- sapp_cons.
      rewrite split_chr_app_gen. rewrite last_app by (by apply split_ne). by rewrite split_chr_free.
Qed.
Lemma head_split c s : exists t, free_of c t = true /\ match split s (chr c) with x :: _ => x | [] => "" end = t /\ (s = t \/ exists e, s = t +:+ String c e).
Proof.
  induction s as [|a s (t & Ht & Hh & Hs)].
  - exists "". split; [done|]. split; [by rewrite split_chr_free|]. by left.
  - destruct (decide (a = c)) as [->|N].
    + exists "". split; [done|]. split; [|right; by exists s]. pose proof (split_chr_app c "" s eq_refl) as E. rewrite sapp_nil_l in E. by rewrite E.
    + assert (Hf : free_of c (String a t) = true) by (cbn; by rewrite bool_decide_false, Ht).
      exists (String a t). split; [done|]. destruct Hs as [->|(e & ->)].
      * split; [by rewrite split_chr_free|by left].
      * rewrite <- sapp_cons. split; [by rewrite split_chr_app|]. right. by exists e.
Qed.
Lemma head_split_unique c s t : free_of c t = true -> (s = t \/ exists e, s = t +:+ String c e) -> match split s (chr c) with x :: _ => x | [] => "" end = t.
Proof. intros Ht [->|(e & ->)]; [by rewrite split_chr_free|by rewrite split_chr_app]. Qed.

Lemma path_base_of dir base sl : str_all (fun a => bool_decide (a = "/"%char)) sl = true -> base <> "" -> free_of "/" base = true ->
  forall ref, (ref = base +:+ sl \/ ref = dir +:+ "/" +:+ base +:+ sl) -> path_base ref = base.
Proof.
  intros Hsl Hne Hf ref Href.
  assert (Htr : trim_right "/" ref = base \/ trim_right "/" ref = dir +:+ "/" +:+ base).
  { destruct Href as [->| ->].
    - left. rewrite trim_right_all by done. by apply (trim_right_free "/" "").
    - right. rewrite !app_assoc_s. rewrite trim_right_all by done. by rewrite trim_right_free. }
  unfold path_base. rewrite decide_False.
  2:{ intros ->. destruct Htr as [H|H]; cbn in H; [congruence|]. symmetry in H. by apply app_inv_nil in H as [_ ?]. }
  rewrite decide_False.
  2:{ destruct Htr as [-> | ->]; [done|]. intros H. by apply app_inv_nil in H as [_ ?]. }
  destruct Htr as [-> | ->].
  - pose proof (split_chr_free "/" base Hf) as E. change (chr "/") with "/" in E. by rewrite E.
  - pose proof (split_chr_free "/" base Hf) as E. pose proof (split_chr_app_gen "/" dir base) as E2. change (chr "/") with "/" in E, E2.
    change ("/" +:+ base) with (String "/" base). rewrite E2, E. by rewrite last_app.
Qed.
Lemma sub_name_iff ref t : t <> "" -> t <> "/" -> sub_name ref = t <-> file_name ref t.
Proof.
  intros Ht Ht'. split.
  - intros H. unfold sub_name in H. destruct (head_split "." (path_base ref)) as (t' & Hf & Hh & Hb).
    change (chr ".") with "." in Hh. rewrite Hh in H. subst t'. unfold path_base in Hb.
    destruct (decide (ref = "")) as [->|Nr].
    { exfalso. destruct Hb as [<-|(e & Hb)]; [done|]. destruct t; [done|]. rewrite sapp_cons in Hb. injection Hb as <- Hb. done. }
    destruct (trim_right_split "/" ref) as (base & sl & Hr & Hsl & Htr & Hx). rewrite Htr in Hb.
    destruct (decide (base = "")) as [->|Nb].
    { exfalso. destruct Hb as [<-|(e & Hb)]; [done|]. destruct t as [|a [|]]; try done; rewrite sapp_cons in Hb; by injection Hb. }
    destruct (split_last "/" base) as (d & b & Hfb & Hl & Hd). change (chr "/") with "/" in Hl. rewrite Hl in Hb.
    exists d, b, sl. split; [|split; [done|]].
    + rewrite Hr. destruct Hd as [->| ->]; [by left|right]. by rewrite <- app_assoc_s.
    + assert (Hbn : b <> "") by (intros ->; destruct Hb as [<-|(e & Hb)]; [done|by destruct t]).
      split; [done|]. split; [done|]. split; [done|]. destruct Hb as [->|(e & ->)]; [by left|right; by exists e].
  - intros (dir & base & sl & Href & Hsl & Hne & Hf & Hdot & Hb). unfold sub_name. rewrite (path_base_of dir base sl Hsl Hne Hf ref Href).
    apply (head_split_unique "." base t Hdot). destruct Hb as [->|(e & ->)]; [by left|right; by exists e].
Qed.

Lemma sub_name_empty ref : sub_name ref = "" <-> ref = "" \/ file_name ref "".
Proof.
  split.
  - intros H. destruct (decide (ref = "")) as [->|Nr]; [by left|right]. unfold sub_name in H.
    destruct (head_split "." (path_base ref)) as (t' & Hf & Hh & Hb).
    change (chr ".") with "." in Hh. rewrite Hh in H. subst t'. unfold path_base in Hb. rewrite decide_False in Hb by done.
    destruct (trim_right_split "/" ref) as (base & sl & Hr & Hsl & Htr & Hx). rewrite Htr in Hb.
    destruct (decide (base = "")) as [->|Nb]. { exfalso. destruct Hb as [Hb|(e & Hb)]; done. }
    destruct (split_last "/" base) as (d & b & Hfb & Hl & Hd). change (chr "/") with "/" in Hl. rewrite Hl in Hb.
    exists d, b, sl. split; [|split; [done|]].
    + rewrite Hr. destruct Hd as [->| ->]; [by left|right]. by rewrite <- app_assoc_s.
    + assert (Hbn : b <> "").
      { intros ->. destruct Hd as [->| ->]; [done|]. destruct Hx as [Hx|(b' & x & Hx & Nx)]; [done|].
        apply Nx. clear -Hx. assert (E : forall (a b : string) x y, a +:+ String x "" = b +:+ String y "" -> x = y).
        { clear. induction a as [|z a IH]; intros b x y; destruct b as [|w b]; rewrite ?sapp_nil_l, ?sapp_cons; intros [= ]; [done|by destruct b|by destruct a|by eapply IH]. }
        symmetry. by eapply E. }
      split; [done|]. split; [done|]. split; [done|]. destruct Hb as [->|(e & ->)]; [by left|right; by exists e].
  - intros [->|(dir & base & sl & Href & Hsl & Hne & Hf & Hdot & Hb)]; [done|]. unfold sub_name. rewrite (path_base_of dir base sl Hsl Hne Hf ref Href).
    apply (head_split_unique "." base "" Hdot). destruct Hb as [->|(e & ->)]; [by left|right; by exists e].
Qed.

Lemma picks_iff {A} (P Q : A -> Prop) l l' : (forall x, P x <-> Q x) -> picks P l l' -> picks Q l l'.
Proof. intros H. induction 1; [constructor|apply picks_take; [by apply H|done]|apply picks_skip; [by rewrite <- H|done]]. Qed.

Lemma flatten_absorbs ty i ones : ty <> "" -> ty <> "/" ->
  picks (fun m => file_name (n_fromRef m) ty) (n_oneOf i) ones ->
  absorbed i (n_allOf i ++ ones) (flatten true ty i) /\ same_rest i (flatten true ty i).
Proof.
  intros H1 H2 Hp. unfold flatten.
  destruct (all_flat i (n_allOf i) [] i (absorbed_nil i) (rest_refl i)) as [Ha Hr].
  apply ones_flat; [done|done|]. eapply picks_iff; [|exact Hp]. intros m. symmetry. by apply sub_name_iff.
Qed.
(** without flattening *)
Lemma flatten_untyped i ones :
  picks (fun m => n_fromRef m = "" \/ file_name (n_fromRef m) "") (n_oneOf i) ones ->
  absorbed i (n_allOf i ++ ones) (flatten true "" i) /\ same_rest i (flatten true "" i).
Proof.
  intros Hp. unfold flatten.
  destruct (all_flat i (n_allOf i) [] i (absorbed_nil i) (rest_refl i)) as [Ha Hr].
  apply ones_flat; [done|done|]. eapply picks_iff; [|exact Hp]. intros m. symmetry. apply sub_name_empty.
Qed.
Lemma all_kept i l : is_Some (n_props i) -> foldl (all_step false) i l = i.
Proof. intros H. induction l as [|m l IH]; [done|]. cbn [foldl]. unfold all_step at 2. cbn [negb andb]. rewrite bool_decide_true by done. exact IH. Qed.
Lemma all_first i m l : n_props i = None -> foldl (all_step false) i (m :: l) = absorb i m.
Proof.
  intros H. cbn [foldl]. unfold all_step at 2. cbn [negb andb]. rewrite bool_decide_false by (intros [? Hx]; congruence).
  apply all_kept. by eexists.
Qed.
Lemma noflatten_own ty i ones : ty <> "" -> ty <> "/" -> is_Some (n_props i) ->
  picks (fun m => file_name (n_fromRef m) ty) (n_oneOf i) ones ->
  absorbed i ones (flatten false ty i) /\ same_rest i (flatten false ty i).
Proof.
  intros H1 H2 Hs Hp. unfold flatten. rewrite all_kept by done.
  apply (ones_flat ty i _ ones [] i (absorbed_nil i) (rest_refl i)). eapply picks_iff; [|exact Hp]. intros m. symmetry. by apply sub_name_iff.
Qed.
Lemma noflatten_first ty i m l ones : ty <> "" -> ty <> "/" -> n_props i = None -> n_allOf i = m :: l ->
  picks (fun m => file_name (n_fromRef m) ty) (n_oneOf i) ones ->
  absorbed i (m :: ones) (flatten false ty i) /\ same_rest i (flatten false ty i).
Proof.
  intros H1 H2 Hs Hal Hp. unfold flatten. rewrite Hal. rewrite all_first by done.
  apply (ones_flat ty i _ ones [m] (absorb i m)).
  - apply (absorbed_snoc i [] i m), absorbed_nil.
  - apply rest_absorb, rest_refl.
  - eapply picks_iff; [|exact Hp]. intros x. symmetry. by apply sub_name_iff.
Qed.

(** ** cache keys *)
Lemma app_chr_inj c a b a' b' : free_of c a = true -> free_of c a' = true -> a +:+ String c b = a' +:+ String c b' -> a = a' /\ b = b'.
Proof.
  revert a'. induction a as [|x a IH]; intros a' H H' E.
  - destruct a' as [|y a']; [rewrite !sapp_nil_l in E; injection E as ->; done|].
    rewrite sapp_nil_l, sapp_cons in E. injection E as <- _. cbn in H'. by rewrite bool_decide_true in H'.
  - destruct a' as [|y a'].
    + rewrite sapp_nil_l, sapp_cons in E. injection E as -> _. cbn in H. by rewrite bool_decide_true in H.
    + rewrite !sapp_cons in E. injection E as -> E. cbn in H, H'. apply andb_true_iff in H as [_ H]. apply andb_true_iff in H' as [_ H'].
      destruct (IH a' H H' E) as [-> ->]. done.
Qed.
Lemma last_chr_inj c a b a' b' : free_of c b = true -> free_of c b' = true -> a +:+ String c b = a' +:+ String c b' -> a = a' /\ b = b'.
Proof.
  revert a'. induction a as [|x a IH]; intros a' H H' E.
  - destruct a' as [|y a']; [rewrite !sapp_nil_l in E; injection E as ->; done|].
    rewrite sapp_nil_l, sapp_cons in E. injection E as <- E. subst b. rewrite free_of_app in H. apply andb_true_iff in H as [_ H].
    cbn in H. by rewrite bool_decide_true in H.
  - destruct a' as [|y a'].
    + rewrite sapp_nil_l, sapp_cons in E. injection E as -> E. subst b'. rewrite free_of_app in H'. apply andb_true_iff in H' as [_ H'].
      cbn in H'. by rewrite bool_decide_true in H'.
    + rewrite !sapp_cons in E. injection E as -> E. destruct (IH a' H H' E) as [-> ->]. done.
Qed.
Lemma key_inj p t f p' t' f' : free_of "|" t = true -> free_of "|" t' = true ->
  schema_key p t f = schema_key p' t' f' -> p = p' /\ t = t' /\ f = f'.
Proof.
  intros Ht Ht' E. unfold schema_key in E. rewrite !app_assoc_s in E. rewrite <- !app_assoc_s in E.
  assert (Hf : forall b : bool, free_of "|" (if b then "true" else "false") = true) by (by intros []).
  assert (E2 : (p +:+ "|" +:+ t) +:+ String "|" (if f then "true" else "false") = (p' +:+ "|" +:+ t') +:+ String "|" (if f' then "true" else "false")).
  { rewrite <- !app_assoc_s. exact E. }
  apply (last_chr_inj "|") in E2 as [E3 E4]; [|by apply Hf..].
  apply (last_chr_inj "|" p t p' t') in E3 as [-> ->]; [|done..]. split; [done|]. split; [done|]. destruct f, f'; done.
Qed.

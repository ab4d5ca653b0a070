(** The mapper of generated structs makes code that compiles and converts every field. *)
From stdpp Require Import strings list gmap.
From Coq Require Import ZArith Lia.
From Verif Require Import GoStr GoStrL Val Conv Avro AvroRun Mapper MapRun SpecMapper MapperL.

(** ** Induction on expressions *)
Fixpoint gexpr_ind' (P : gexpr -> Prop) (Hs : forall p, P (XSel p)) (Ht : forall f p, P (XTime f p)) (Hc : forall f p, P (XSlice f p))
  (Hr : forall r fs, (forall n x, (n, x) ∈ fs -> P x) -> P (XRec r fs)) (Hu : forall r b x, P x -> P (XUnion r b x)) (Ha : forall x, P x -> P (XAddr x))
  (Hg : forall t p x, P x -> P (XGuard t p x)) (x : gexpr) : P x.
Proof.
  destruct x as [p|f p|f p|r fs|r b x|x|t p x]; [apply Hs|apply Ht|apply Hc| |apply Hu; apply (gexpr_ind' P Hs Ht Hc Hr Hu Ha Hg)|
    apply Ha; apply (gexpr_ind' P Hs Ht Hc Hr Hu Ha Hg)|apply Hg; apply (gexpr_ind' P Hs Ht Hc Hr Hu Ha Hg)].
  apply Hr. induction fs as [|[k y] fs IH]; intros n z Hin; [apply elem_of_nil in Hin as []|].
  apply elem_of_cons in Hin as [Heq|Hin]; [|apply (IH n z Hin)]. injection Heq as -> ->. apply (gexpr_ind' P Hs Ht Hc Hr Hu Ha Hg).
Qed.

(** ** Printed structs *)
Definition print_loop : list afield -> list afield -> list afield :=
  fix loop (fs : list afield) (out : list afield) : list afield :=
       match fs with
       | [] => out
       | AField [] _ _ _ :: fs' => loop fs' out
       | AField (n :: _) t j d :: fs' =>
         match t with
         | EIdent _ => loop fs' (out ++ [AField [n] t j d])
         | EArray e =>
           match e with
           | EStruct _ => loop fs' (out ++ [AField [n] (EArray (EStruct (printed e))) j d])
           | EIdent _ => loop fs' (out ++ [AField [n] t j d])
           | _ => [AField [] (EOther "unknown array type") "" ""]
           end
         | ESel _ sel =>
           if decide (sel = "Time") then loop fs' (out ++ [AField [n] (ESel "time" "Time") j d])
           else [AField [] (EOther ("unsupported type """ +:+ sel +:+ """")) "" ""]
         | EStruct _ => loop fs' (out ++ [AField [n] (EStruct (printed t)) j d])
         | _ => loop fs' out
         end
       end.
Lemma printed_struct fs : printed (EStruct fs) = print_loop fs [].
Proof. reflexivity. Qed.
Lemma printed_id T : printable T -> (match T with EStruct fs | EArray (EStruct fs) => printed (EStruct fs) = fs | _ => True end).
Proof.
  induction 1 as [s| |s|fs Hn Hp IH|fs Hp IH]; [exact I..| |exact IH].
  rewrite printed_struct. cut (forall fs0 out, (forall f, f ∈ fs0 -> f ∈ fs) -> print_loop fs0 out = out ++ fs0).
  { intros H. rewrite H by auto. reflexivity. }
  induction fs0 as [|f fs0 IHl]; intros out Hin; [rewrite app_nil_r; reflexivity|].
  destruct (Hn f (Hin f ltac:(left))) as [n Hnf]. pose proof (Hp f (Hin f ltac:(left))) as Hpf. pose proof (IH f (Hin f ltac:(left))) as Hif.
  destruct f as [names t j d]. cbn in Hnf, Hpf, Hif. subst names.
  assert (Hrec : forall out, print_loop fs0 out = out ++ fs0) by (intros; apply IHl; intros; apply Hin; right; assumption).
  inversion Hpf; subst; cbn [print_loop].
  - rewrite Hrec, <- app_assoc. reflexivity.
  - unfold gotime. rewrite decide_True by reflexivity. rewrite Hrec, <- app_assoc. reflexivity.
  - rewrite Hrec, <- app_assoc. reflexivity.
  - rewrite Hrec, <- app_assoc. cbn in Hif |- *. rewrite Hif. reflexivity.
  - rewrite Hrec, <- app_assoc. cbn in Hif |- *. rewrite Hif. reflexivity.
Qed.

Lemma sublist_nodup {A} (l k : list A) : l `sublist_of` k -> NoDup k -> NoDup l.
Proof.
  induction 1 as [|x l k Hs IH|x l k Hs IH]; intros H; [constructor|apply NoDup_cons in H as [Hx H]; constructor; auto|apply NoDup_cons in H as [Hx H]; auto].
  intros Hin. apply Hx. eapply elem_of_submseteq; [exact Hin|]. apply sublist_submseteq. exact Hs.
Qed.
(** ** Running one after the other *)
Lemma each_cons {A B} (f : A -> eres) (k : gv -> A -> B) a l : each f k (a :: l) = match f a with Ran v => match each f k l with inr r => inr (k v a :: r) | e => e end | e => inl e end.
Proof. reflexivity. Qed.

Section S2.
Context (W : oracles) (E : sources) (below : string -> string -> option texpr) (avro : string -> option texpr).
Notation types := (src_dir E).
Notation has_ty := (has_ty types).
Notation selects := (selects types).
Notation closed := (closed types).
Notation visible := (visible types).
Notation path_type := (path_type types).
Notation looks_into := (looks_into types).
Notation typed := (typed types avro).
Notation conv := (conv types avro).
Notation conv_fields := (conv_fields types avro).
Notation fit := (fit types avro).
Notation fit_rec := (fit_rec types avro).
Notation fit_fields := (fit_fields types avro).
Notation gen_value := (gen_value W E below avro).
Notation gen_struct := (gen_struct W E below avro).
Notation gen_child := (gen_child W E below avro).
Notation gen_fields := (gen_fields W E below avro).

Lemma typed_more fns fns' Z x : fns ⊆ fns' -> forall T, typed fns Z x T -> typed fns' Z x T.
Proof.
  intros Hsub. induction x as [p|f p|f p|r fs IH|r b x IH|x IH|t p x IH] using gexpr_ind'; intros T H; inversion H; subst.
  - constructor; assumption.
  - constructor; assumption.
  - constructor; [apply Hsub; assumption|assumption].
  - constructor; [assumption|]. intros n x Hin. match goal with Hl : forall n x, (n, x) ∈ fs -> _ |- _ => destruct (Hl n x Hin) as (T & Hf & Ht) end. exists T. split; [assumption|]. eapply IH; eauto.
  - econstructor; eauto.
  - constructor; auto.
  - econstructor; eauto.
Qed.

Definition fn_works (F : fenv) (d : fndef) : Prop :=
  forall v, has_ty (EArray (fn_elem d)) v -> exists w, call F (fn_name d) v = Ran w /\ conv (EArray (EStar (EIdent (fn_rec d)))) (EArray (fn_elem d)) v w.
Definition pre_ok (pre : list fndef) : Prop :=
  forall i d, pre !! i = Some d ->
    typed (take i pre) (fn_elem d) (XRec (fn_rec d) (fn_fields d)) (EIdent (fn_rec d)) /\
    forall F, (forall d', d' ∈ take i pre -> fn_works F d') -> forall v, has_ty (EArray (fn_elem d)) v ->
      exists w, slice_fn F d v = Ran w /\ conv (EArray (EStar (EIdent (fn_rec d)))) (EArray (fn_elem d)) v w.
Definition used (pre : list fndef) (cs : list string) : Prop :=
  forall i d, pre !! i = Some d -> fn_name d ∈ cs \/ exists d', d' ∈ drop (S i) pre /\ fn_name d ∈ calls_fields (fn_fields d').
Lemma pre_ok_nil : pre_ok [].
Proof. intros i d H. destruct i; discriminate. Qed.
Lemma used_nil cs : used [] cs.
Proof. intros i d H. destruct i; discriminate. Qed.
Lemma pre_ok_app a b : pre_ok a -> pre_ok b -> pre_ok (a ++ b).
Proof.
  intros Ha Hb i d H. apply lookup_app_Some in H as [H|[Hl H]].
  - pose proof (lookup_lt_Some _ _ _ H) as Hlt. rewrite take_app_le by lia. auto.
  - destruct (Hb _ _ H) as [H1 H2]. assert (Ht : take i (a ++ b) = a ++ take (i - length a) b) by (rewrite take_app_ge by lia; reflexivity).
    rewrite Ht. split; [eapply typed_more; [|exact H1]; intros x Hx; apply elem_of_app; right; assumption|].
    intros F HF. apply H2. intros d' Hd'. apply HF. apply elem_of_app. right. assumption.
Qed.
Lemma used_app a b ca cb : used a ca -> used b cb -> used (a ++ b) (ca ++ cb).
Proof.
  intros Ha Hb i d H. apply lookup_app_Some in H as [H|[Hl H]].
  - pose proof (lookup_lt_Some _ _ _ H) as Hlt. destruct (Ha _ _ H) as [Hc|(d' & Hd' & Hc)]; [left; apply elem_of_app; left; assumption|].
    right. exists d'. split; [|assumption]. rewrite drop_app_le by lia. apply elem_of_app. left. assumption.
  - destruct (Hb _ _ H) as [Hc|(d' & Hd' & Hc)]; [left; apply elem_of_app; right; assumption|].
    right. exists d'. split; [|assumption]. rewrite drop_app_ge by lia. replace (S i - length a) with (S (i - length a)) by lia. assumption.
Qed.
Lemma used_more a ca cb : (forall x, x ∈ ca -> x ∈ cb) -> used a ca -> used a cb.
Proof. intros Hs Ha i d H. destruct (Ha _ _ H) as [Hc|Hc]; [left; auto|right; assumption]. Qed.

Definition good_value (gfs : list afield) (prefix : list string) (gn : string) (A G : texpr) (m : mapped) : Prop :=
  pre_ok (m_pre m) /\ used (m_pre m) (calls (m_value m)) /\
  (forall Z T0 fns, path_type Z prefix T0 -> looks_into T0 gfs -> m_pre m ⊆ fns -> typed fns Z (m_value m) A) /\
  (forall F z v0 x, (forall d, d ∈ m_pre m -> fn_works F d) -> path prefix z = Ran v0 -> select gn v0 = Ran x -> has_ty G x ->
     exists w, eval F z (m_value m) = Ran w /\ conv A G x w).
Definition good_fields (gfs afs : list afield) (prefix : list string) (c : mfields) : Prop :=
  pre_ok (mf_pre c) /\ used (mf_pre c) (calls_fields (mf_fields c)) /\
  (mf_fields c).*1 `sublist_of` omap (fun f => head (af_names f)) afs /\
  (forall Z T0 fns, path_type Z prefix T0 -> looks_into T0 gfs -> mf_pre c ⊆ fns ->
     forall n x, (n, x) ∈ mf_fields c -> exists f, f ∈ afs /\ head (af_names f) = Some n /\ typed fns Z x (af_type f)) /\
  (forall F z v0 v1, (forall d, d ∈ mf_pre c -> fn_works F d) -> path prefix z = Ran v0 -> (forall n, select n v0 = select n v1) -> has_ty (EStruct gfs) v1 ->
     exists l, each (fun '(_, y) => eval F z y) (fun v '(n, _) => (n, v)) (mf_fields c) = inr l /\ conv_fields gfs afs v1 l).

Definition anon (G : texpr) : option (list afield) := match G with EStruct fs => Some fs | _ => None end.
Definition sname (G : texpr) : string := match G with EIdent s => s | _ => "" end.

Definition P_fit (A G : texpr) : Prop :=
  forall gfs gn name prefix g, af_names g = [gn] -> af_type g = G -> selects gfs gn G -> (name = gn \/ direct A) ->
  exists n0 m, (forall n, n0 <= n -> gen_value n name prefix A g = Some (Some m)) /\ good_value gfs prefix gn A G m.
Definition P_rec (r : string) (G : texpr) : Prop :=
  record_name r /\ exists afs gfs, avro r = Some (EStruct afs) /\ struct_type types G gfs /\ closed (fun _ => None) gfs /\
    NoDup (omap (fun f => head (af_names f)) afs) /\
  forall prefix, exists n0 c, (forall n t, n0 <= n -> t = G \/ t = EStar G -> gen_child n t prefix afs = Some (Some (c, anon G, sname G))) /\ good_fields gfs afs prefix c.
Definition P_fields (gfs afs : list afield) : Prop :=
  forall file m, closed file gfs -> (forall n T, visible gfs n T -> exists g, m !! field_key n = Some g /\ af_names g = [n] /\ af_type g = T) ->
  forall prefix, exists n0 c, (forall n, n0 <= n -> gen_fields n prefix afs m = Some (Some c)) /\ good_fields gfs afs prefix c.

(** ** Simple values *)
Lemma path_sel prefix n z v0 x : path prefix z = Ran v0 -> select n v0 = Ran x -> path (prefix ++ [n]) z = Ran x.
Proof. intros H1 H2. rewrite path_app, H1. cbn. rewrite H2. reflexivity. Qed.
Lemma path_type_sel gfs prefix n T Z T0 : path_type Z prefix T0 -> looks_into T0 gfs -> selects gfs n T -> path_type Z (prefix ++ [n]) T.
Proof. intros H1 H2 H3. eapply path_type_app; [exact H1|]. eapply path_type_one; eauto. Qed.
Lemma simple_good gfs prefix gn A G m : m_pre m = [] -> selects gfs gn G ->
  (forall fns Z, path_type Z (prefix ++ [gn]) G -> typed fns Z (m_value m) A) ->
  (forall F z x, path (prefix ++ [gn]) z = Ran x -> has_ty G x -> exists w, eval F z (m_value m) = Ran w /\ conv A G x w) ->
  good_value gfs prefix gn A G m.
Proof.
  intros Hpre Hsel Ht He. rewrite <- (app_nil_r []) in Hpre. unfold good_value. rewrite Hpre. split; [apply pre_ok_nil|]. split; [apply used_nil|]. split.
  - intros Z T0 fns H1 H2 _. apply Ht. eapply path_type_sel; eauto.
  - intros F z v0 x _ H1 H2 H3. apply He; [|assumption]. eapply path_sel; eauto.
Qed.
Lemma basics_cases p : p ∈ basics -> p = "string" \/ p = "bool" \/ p = "float64" \/ p = "int64".
Proof. unfold basics. rewrite !elem_of_cons, elem_of_nil. tauto. Qed.
Lemma conv_basic_typed fns Z p q : p ∈ basics -> path_type Z q (EIdent p) -> typed fns Z (XSel q) (EIdent p).
Proof. intros Hp Hq. constructor; [assumption|]. exists p. auto. Qed.
Lemma gen_basic n p name prefix g : p ∈ basics -> af_type g = EIdent p \/ af_type g = EArray (EIdent p) ->
  gen_value (S n) name prefix (EIdent p) g = Some (Some (Mapped (XSel (prefix ++ [gname g])) [] (join "." (prefix ++ [name])))).
Proof.
  intros Hp Hg. destruct (basics_cases _ Hp) as [->|[->|[->| ->]]]; [reflexivity..|]. cbn -[int_value join]. destruct Hg as [-> | ->]; reflexivity.
Qed.

Lemma fit_same_ok p : p ∈ basics -> P_fit (EIdent p) (EIdent p).
Proof.
  intros Hp gfs gn name prefix g Hn Hg Hsel _. eexists 1, _. split.
  - intros [|n] Hle; [lia|]. apply gen_basic; auto.
  - assert (Hgn : gname g = gn) by (unfold gname; rewrite Hn; reflexivity). rewrite Hgn. apply simple_good; [reflexivity|assumption| |]; cbn [m_value].
    + intros. apply conv_basic_typed; assumption.
    + intros F z x Hx Hty. exists x. split; [exact Hx|]. constructor; assumption.
Qed.
Lemma fit_slice_ok p : p ∈ basics -> P_fit (EArray (EIdent p)) (EArray (EIdent p)).
Proof.
  intros Hp gfs gn name prefix g Hn Hg Hsel _. eexists 2, _. split.
  - intros [|[|n]] Hle; [lia..|]. transitivity (gen_value (S n) name prefix (EIdent p) g); [cbn [Mapper.gen_value]; rewrite Hg; reflexivity|apply gen_basic; auto].
  - assert (Hgn : gname g = gn) by (unfold gname; rewrite Hn; reflexivity). rewrite Hgn. apply simple_good; [reflexivity|assumption| |]; cbn [m_value].
    + intros. constructor; [assumption|]. exists p. auto.
    + intros F z x Hx Hty. exists x. split; [exact Hx|]. constructor; assumption.
Qed.
Lemma has_ty_time x : has_ty gotime x -> exists t, x = GTm t.
Proof. intros H. inversion H; subst; eauto. Qed.
Lemma fit_time_ok : P_fit (EIdent "int64") gotime.
Proof.
  intros gfs gn name prefix g Hn Hg Hsel _. assert (Hgn : gname g = gn) by (unfold gname; rewrite Hn; reflexivity). exists 1, (Mapped (XTime FTime (prefix ++ [gn])) [] (join "." (prefix ++ [name]))). split.
  - intros [|n] Hle; [lia|]. cbn [Mapper.gen_value]. rewrite Hg, Hgn. reflexivity.
  - apply simple_good; [reflexivity|assumption| |]; cbn [m_value].
    + intros fns Z Hp. apply (t_time _ _ fns Z FTime). exact Hp.
    + intros F z x Hx Hty. destruct (has_ty_time _ Hty) as [t ->]. exists (GInt (avro_time t)). split; [cbn; rewrite Hx; reflexivity|]. constructor.
Qed.
Lemma mapM_times l : (forall v, v ∈ l -> has_ty gotime v) -> exists ts, l = map GTm ts /\ mapM as_time l = Some ts.
Proof.
  induction l as [|v l IH]; intros H; [exists []; split; reflexivity|]. destruct IH as (ts & -> & Hm); [intros; apply H; right; assumption|].
  destruct (has_ty_time v (H v ltac:(left))) as [t ->]. exists (t :: ts). split; [reflexivity|]. cbn. rewrite Hm. reflexivity.
Qed.
Definition opt_val (o : option gtime) : gv := match o with Some t => GPtr (GTm t) | None => GNil end.
Lemma mapM_opt_times l : (forall v, v ∈ l -> has_ty (EStar gotime) v) -> exists os, l = map opt_val os /\ mapM as_opt_time l = Some os.
Proof.
  induction l as [|v l IH]; intros H; [exists []; split; reflexivity|]. destruct IH as (os & -> & Hm); [intros; apply H; right; assumption|].
  pose proof (H v ltac:(left)) as Hv. inversion Hv as [| | | | | |T|T w Hw| | | |]; subst.
  - exists (None :: os). split; [reflexivity|]. cbn. rewrite Hm. reflexivity.
  - destruct (has_ty_time _ Hw) as [t ->]. exists (Some t :: os). split; [reflexivity|]. cbn. rewrite Hm. reflexivity.
Qed.
Lemma optional_times_omap os : forall acc, optional_times os acc = acc ++ map avro_time (omap id os).
Proof.
  induction os as [|[t|] os IH]; intros acc; cbn; [rewrite app_nil_r; reflexivity| |apply IH]. rewrite IH, <- app_assoc. reflexivity.
Qed.
Lemma has_ty_slice T x : has_ty (EArray T) x -> exists l, x = GSlice l /\ (forall v, v ∈ l -> has_ty T v) /\ (forall v, v ∈ l -> v = GNil -> T = EStar gotime).
Proof. intros H. inversion H; subst. eauto. Qed.
Lemma fit_times_ok : P_fit (EArray (EIdent "int64")) (EArray gotime).
Proof.
  intros gfs gn name prefix g Hn Hg Hsel _. assert (Hgn : gname g = gn) by (unfold gname; rewrite Hn; reflexivity). exists 2, (Mapped (XTime FTimes (prefix ++ [gn])) [] (join "." (prefix ++ [name]))). split.
  - intros [|[|n]] Hle; [lia..|]. cbn [Mapper.gen_value]. rewrite Hg, Hgn. reflexivity.
  - apply simple_good; [reflexivity|assumption| |]; cbn [m_value].
    + intros fns Z Hp. apply (t_time _ _ fns Z FTimes). exact Hp.
    + intros F z x Hx Hty. destruct (has_ty_slice _ _ Hty) as (l & -> & Hl & _). destruct (mapM_times l Hl) as (ts & -> & Hm).
      eexists. split; [|apply c_times]. cbn. rewrite Hx. cbn. rewrite Hm. unfold avro_time_slice. rewrite map_map. reflexivity.
Qed.
Lemma fit_opt_times_ok : P_fit (EArray (EIdent "int64")) (EArray (EStar gotime)).
Proof.
  intros gfs gn name prefix g Hn Hg Hsel _. assert (Hgn : gname g = gn) by (unfold gname; rewrite Hn; reflexivity). exists 2, (Mapped (XTime FOptTimes (prefix ++ [gn])) [] (join "." (prefix ++ [name]))). split.
  - intros [|[|n]] Hle; [lia..|]. cbn [Mapper.gen_value]. rewrite Hg, Hgn. reflexivity.
  - apply simple_good; [reflexivity|assumption| |]; cbn [m_value].
    + intros fns Z Hp. apply (t_time _ _ fns Z FOptTimes). exact Hp.
    + intros F z x Hx Hty. destruct (has_ty_slice _ _ Hty) as (l & -> & Hl & _). destruct (mapM_opt_times l Hl) as (os & -> & Hm).
      eexists. split; [|apply c_opt_times]. cbn. rewrite Hx. cbn. fold opt_val. rewrite Hm. unfold avro_optional_time_slice. rewrite optional_times_omap. cbn [app].
      do 2 f_equal. rewrite <- (map_map avro_time GInt). destruct (map avro_time (omap id os)); reflexivity.
Qed.

(** ** Unions *)
Lemma unions_cases r b p : (r, b, p) ∈ unions -> union_branch r = Some b /\ r ∉ ["string"; "bool"; "float64"] /\ r <> "int64" /\ p ∈ basics.
Proof.
  unfold unions. rewrite !elem_of_cons, elem_of_nil. intros [H|[H|[H|[]]]]; injection H as -> -> ->; (split; [reflexivity|split; [|split; [discriminate|]]]).
  all: first [intros Hin; rewrite !elem_of_cons, elem_of_nil in Hin; destruct Hin as [Hin|[Hin|[Hin|[]]]]; discriminate Hin|unfold basics; clear; set_solver].
Qed.
Lemma gen_ident n t name prefix g : t ∉ ["string"; "bool"; "float64"] -> t <> "int64" ->
  gen_value (S n) name prefix (EIdent t) g =
  match union_branch t with
  | Some b => Some (Some (Mapped (XUnion t b (union_value (prefix ++ [name]) (af_type g))) [] t))
  | None =>
    if has_prefix "UnionNull" t then
      let c := drop_str (String.length "UnionNull") t in
      then2 (gen_struct n name prefix c g) (fun m => Some (Some (Mapped (XUnion ("UnionNull" +:+ c) c (XAddr (m_value m))) (m_pre m) t)))
    else gen_struct n name prefix t g
  end.
Proof. intros H1 H2. cbn [Mapper.gen_value]. rewrite decide_False by assumption. rewrite decide_False by assumption. reflexivity. Qed.
Lemma gen_star n x name prefix g : gen_value (S n) name prefix (EStar x) g =
  then2 (gen_value n name prefix x g) (fun m =>
      Some (Some (if is_star (af_type g) then Mapped (XGuard (m_name m) (prefix ++ [name]) (XAddr (m_value m))) (m_pre m) ""
                  else Mapped (XAddr (m_value m)) (m_pre m) (join "." (prefix ++ [name]))))).
Proof. reflexivity. Qed.

Lemma fit_union_ok r b p G : (r, b, p) ∈ unions -> union_declared avro r b (EIdent p) -> G = EIdent p \/ (p = "int64" /\ G = gotime) -> P_fit (EStar (EIdent r)) G.
Proof.
  intros Hu [Hd1 Hd2] HG gfs gn name prefix g Hn Hg Hsel [->|[]]. destruct (unions_cases _ _ _ Hu) as (Hub & Hr1 & Hr2 & Hp).
  exists 2, (Mapped (XAddr (XUnion r b (union_value (prefix ++ [gn]) G))) [] (join "." (prefix ++ [gn]))). split.
  - intros [|[|n]] Hle; [lia..|]. rewrite gen_star, gen_ident, Hub, Hg by assumption. cbn [then2].
    assert (Hs : is_star G = false) by (destruct HG as [->|[_ ->]]; reflexivity). rewrite Hs. reflexivity.
  - apply simple_good; [reflexivity|assumption| |]; cbn [m_value].
    + intros fns Z Hpt. constructor; [exact I|]. econstructor; [exact Hd1|exact Hd2|].
      destruct HG as [->|[-> ->]]; [apply conv_basic_typed; assumption|]. apply (t_time _ _ fns Z FTime). exact Hpt.
    + intros F z x Hx Hty. destruct HG as [->|[-> ->]].
      * exists (GPtr (union_rec r b x)). change (union_value (prefix ++ [gn]) (EIdent p)) with (XSel (prefix ++ [gn])). split; [cbn; rewrite Hx; reflexivity|]. econstructor; [exact Hu|]. constructor; assumption.
      * destruct (has_ty_time _ Hty) as [t ->]. exists (GPtr (union_rec r b (GInt (avro_time t)))). change (union_value (prefix ++ [gn]) gotime) with (XTime FTime (prefix ++ [gn])). split; [cbn; rewrite Hx; reflexivity|]. econstructor; [exact Hu|]. constructor.
Qed.
Lemma fit_union_time_ok : union_declared avro "UnionNullLong" "Long" (EIdent "int64") -> P_fit (EStar (EIdent "UnionNullLong")) (EStar gotime).
Proof.
  intros [Hd1 Hd2] gfs gn name prefix g Hn Hg Hsel [->|[]].
  exists 2, (Mapped (XGuard "UnionNullLong" (prefix ++ [gn]) (XAddr (XUnion "UnionNullLong" "Long" (XTime FOptTime (prefix ++ [gn]))))) [] ""). split.
  - intros [|[|n]] Hle; [lia..|]. cbn [Mapper.gen_value]. rewrite Hg. reflexivity.
  - apply simple_good; [reflexivity|assumption| |]; cbn [m_value].
    + intros fns Z Hpt. eapply t_guard; [exact Hpt|]. constructor; [exact I|]. econstructor; [exact Hd1|exact Hd2|]. apply (t_time _ _ fns Z FOptTime). exact Hpt.
    + intros F z x Hx Hty. inversion Hty as [| | | | | |T|T v Hv| | | |]; subst.
      * exists GNil. split; [cbn; rewrite Hx; reflexivity|]. constructor.
      * destruct (has_ty_time _ Hv) as [t ->]. exists (GPtr (union_rec "UnionNullLong" "Long" (GInt (avro_time t)))). split; [cbn; rewrite Hx; reflexivity|].
        apply c_ptr, (c_union _ _ _ _ "int64"); [vm_compute; right; left|constructor].
Qed.

(** ** Structs *)
Lemma record_ident r : record_name r -> r ∉ ["string"; "bool"; "float64"] /\ r <> "int64" /\ union_branch r = None /\ has_prefix "UnionNull" r = false /\ union_branch ("UnionNull" +:+ r) = None.
Proof.
  intros (Hb & Hp & Hu). split; [|split; [|split; [|split]]].
  - intros Hin. apply Hb. clear -Hin. unfold basics. set_solver.
  - intros ->. apply Hb. clear. unfold basics. set_solver.
  - unfold union_branch. rewrite !decide_False; [reflexivity|intros ->; discriminate Hp..].
  - exact Hp.
  - unfold union_branch. rewrite !decide_False; [reflexivity|intros Heq; injection Heq as ->; apply Hu; clear; vm_compute; set_solver..].
Qed.
Lemma union_ident r : "UnionNull" +:+ r ∉ ["string"; "bool"; "float64"] /\ "UnionNull" +:+ r <> "int64" /\ has_prefix "UnionNull" ("UnionNull" +:+ r) = true /\ drop_str (String.length "UnionNull") ("UnionNull" +:+ r) = r.
Proof.
  split; [|split; [|split]].
  - rewrite !elem_of_cons, elem_of_nil. intros [H|[H|[H|[]]]]; discriminate H.
  - discriminate.
  - reflexivity.
  - reflexivity.
Qed.
Lemma gen_struct_one n name prefix r g afs : avro r = Some (EStruct afs) -> (forall e, af_type g <> EArray e) ->
  gen_struct (S n) name prefix r g = then2 (gen_child n (af_type g) (prefix ++ [name]) afs) (fun '(fs, _, _) => Some (Some (Mapped (XRec r (mf_fields fs)) (mf_pre fs) ""))).
Proof. intros Ha Hg. cbn [Mapper.gen_struct]. rewrite Ha. cbn. destruct (af_type g) eqn:E0; try reflexivity. destruct (Hg _ eq_refl). Qed.
Lemma gen_struct_slice n name prefix r g afs elt : avro r = Some (EStruct afs) -> af_type g = EArray elt ->
  gen_struct (S n) name prefix r g = then2 (gen_child n elt [] afs) (fun '(fs, anon, s) =>
        let base := match anon with Some gfs => EStruct (printed (EStruct gfs)) | None => EIdent s end in
        let elem := if is_star elt then EStar base else base in
        let fname := (match anon with Some _ => "" | None => s +:+ "_" end) +:+ r +:+ "Slice" in
        Some (Some (Mapped (XSlice fname (prefix ++ [gname g])) (mf_pre fs ++ [FnDef fname elem r (mf_fields fs)]) ""))).
Proof. intros Ha Hg. cbn [Mapper.gen_struct]. rewrite Ha, Hg. reflexivity. Qed.
Lemma struct_not G gfs : struct_type types G gfs -> is_star G = false /\ forall e, G <> EArray e.
Proof. intros [->|(s & -> & _)]; (split; [reflexivity|discriminate]). Qed.
Lemma good_fields_typed gfs afs prefix c r Z T0 fns : avro r = Some (EStruct afs) -> NoDup (omap (fun f => head (af_names f)) afs) ->
  good_fields gfs afs prefix c -> path_type Z prefix T0 -> looks_into T0 gfs -> mf_pre c ⊆ fns -> typed fns Z (XRec r (mf_fields c)) (EIdent r).
Proof.
  intros Ha Hnd (_ & _ & Hs & Ht & _) H1 H2 H3. constructor.
  - exact (sublist_nodup _ _ Hs Hnd).
  - intros n x Hin. destruct (Ht _ _ _ H1 H2 H3 n x Hin) as (f & Hf & Hh & Htx). exists (af_type f). split; [|assumption].
    exists afs, f. split; [assumption|]. split; [assumption|]. split; [|reflexivity]. destruct (af_names f); [discriminate|]. injection Hh as ->. left.
Qed.
Lemma rec_good_value gfs0 gfs afs prefix gn r G c : record_name r -> avro r = Some (EStruct afs) -> NoDup (omap (fun f => head (af_names f)) afs) -> struct_type types G gfs ->
  good_fields gfs afs (prefix ++ [gn]) c ->
  (forall Z T0 fns, selects gfs0 gn G \/ selects gfs0 gn (EStar G) -> path_type Z prefix T0 -> looks_into T0 gfs0 -> mf_pre c ⊆ fns -> typed fns Z (XRec r (mf_fields c)) (EIdent r)) /\
  (forall F z v0 x v, (forall d, d ∈ mf_pre c -> fn_works F d) -> path prefix z = Ran v0 -> select gn v0 = Ran x -> has_ty G v -> x = v \/ x = GPtr v ->
     exists l, eval F z (XRec r (mf_fields c)) = Ran (GRec l []) /\ conv (EStar (EIdent r)) G v (GPtr (GRec l []))).
Proof.
  intros Hr Ha Hnd HG Hgood. split.
  - intros Z T0 fns Hsel H1 H2 H3. destruct Hsel as [Hsel|Hsel].
    + eapply good_fields_typed; eauto; [eapply path_type_sel; eauto|left; assumption].
    + eapply good_fields_typed; eauto; [eapply path_type_sel; eauto|right; eauto].
  - intros F z v0 x v HF Hp Hx Hv Hxv. destruct Hgood as (_ & _ & _ & _ & He).
    pose proof (struct_type_val _ _ _ _ HG Hv) as Hs.
    destruct (He F z x v HF (path_sel _ _ _ _ _ Hp Hx)) as (l & Hl & Hc).
    { intros n. destruct Hxv as [->| ->]; [reflexivity|]. eapply select_ptr_struct; eauto. }
    { assumption. }
    exists l. split; [cbn [eval]; rewrite Hl; reflexivity|]. econstructor; eauto.
Qed.
Lemma fit_struct_ok r G : P_rec r G -> P_fit (EStar (EIdent r)) G.
Proof.
  intros (Hr & afs & gfs & Ha & HG & Hcl & Hnd & Hgen) gfs0 gn name prefix g Hn Hg Hsel [->|[]].
  destruct (Hgen (prefix ++ [gn])) as (n0 & c & Hc & Hgood). destruct (record_ident _ Hr) as (H1 & H2 & H3 & H4 & _). destruct (struct_not _ _ HG) as [Hst Harr].
  exists (S (S (S n0))), (Mapped (XAddr (XRec r (mf_fields c))) (mf_pre c) (join "." (prefix ++ [gn]))). split.
  - intros [|[|[|n]]] Hle; [lia..|]. rewrite gen_star, gen_ident, H3, H4 by assumption. erewrite gen_struct_one by (rewrite ?Hg; eassumption). rewrite Hg, Hst, Hc by (auto; lia). reflexivity.
  - destruct (rec_good_value gfs0 gfs afs prefix gn r G c Hr Ha Hnd HG Hgood) as [Ht He]. destruct Hgood as (Hp1 & Hp2 & _).
    split; [exact Hp1|]. split; [exact Hp2|]. cbn [m_value m_pre]. split.
    + intros Z T0 fns Hz Hl Hsub. constructor; [exact I|]. eapply Ht; eauto.
    + intros F z v0 x HF Hp Hx Hty. destruct (He F z v0 x x HF Hp Hx Hty (or_introl eq_refl)) as (l & Hl & Hcv). eexists. split; [|exact Hcv].
      change (ebind (eval F z (XRec r (mf_fields c))) (fun v => Ran (GPtr v)) = Ran (GPtr (GRec l []))). rewrite Hl. reflexivity.
Qed.
Lemma fit_union_struct_ok r G : union_declared avro ("UnionNull" +:+ r) r (EStar (EIdent r)) -> P_rec r G -> P_fit (EStar (EIdent ("UnionNull" +:+ r))) G.
Proof.
  intros [Hd1 Hd2] (Hr & afs & gfs & Ha & HG & Hcl & Hnd & Hgen) gfs0 gn name prefix g Hn Hg Hsel [->|[]].
  destruct (Hgen (prefix ++ [gn])) as (n0 & c & Hc & Hgood). destruct (record_ident _ Hr) as (_ & _ & _ & _ & H5). destruct (struct_not _ _ HG) as [Hst Harr].
  destruct (union_ident r) as (H1 & H2 & H3 & H4).
  exists (S (S (S n0))), (Mapped (XAddr (XUnion ("UnionNull" +:+ r) r (XAddr (XRec r (mf_fields c))))) (mf_pre c) (join "." (prefix ++ [gn]))). split.
  - intros [|[|[|n]]] Hle; [lia..|]. rewrite gen_star, gen_ident, H5, H3, H4 by assumption. cbv zeta. erewrite gen_struct_one by (rewrite ?Hg; eassumption). rewrite Hg, Hst, Hc by (auto; lia). reflexivity.
  - destruct (rec_good_value gfs0 gfs afs prefix gn r G c Hr Ha Hnd HG Hgood) as [Ht He]. destruct Hgood as (Hp1 & Hp2 & _).
    split; [exact Hp1|]. split; [exact Hp2|]. cbn [m_value m_pre]. split.
    + intros Z T0 fns Hz Hl Hsub. constructor; [exact I|]. econstructor; [exact Hd1|exact Hd2|]. constructor; [exact I|]. eapply Ht; eauto.
    + intros F z v0 x HF Hp Hx Hty. destruct (He F z v0 x x HF Hp Hx Hty (or_introl eq_refl)) as (l & Hl & Hcv). eexists. split; [|apply c_union_struct; [exact Hr|exact Hcv]].
      change (ebind (ebind (ebind (eval F z (XRec r (mf_fields c))) (fun v => Ran (GPtr v))) (fun v => Ran (union_rec ("UnionNull" +:+ r) r v))) (fun v => Ran (GPtr v)) = Ran (GPtr (union_rec ("UnionNull" +:+ r) r (GPtr (GRec l []))))). rewrite Hl. reflexivity.
Qed.
Lemma fit_union_ptr_ok r G : union_declared avro ("UnionNull" +:+ r) r (EStar (EIdent r)) -> P_rec r G -> P_fit (EStar (EIdent ("UnionNull" +:+ r))) (EStar G).
Proof.
  intros [Hd1 Hd2] (Hr & afs & gfs & Ha & HG & Hcl & Hnd & Hgen) gfs0 gn name prefix g Hn Hg Hsel [->|[]].
  destruct (Hgen (prefix ++ [gn])) as (n0 & c & Hc & Hgood). destruct (record_ident _ Hr) as (_ & _ & _ & _ & H5). destruct (struct_not _ _ HG) as [Hst Harr].
  destruct (union_ident r) as (H1 & H2 & H3 & H4).
  exists (S (S (S n0))), (Mapped (XGuard ("UnionNull" +:+ r) (prefix ++ [gn]) (XAddr (XUnion ("UnionNull" +:+ r) r (XAddr (XRec r (mf_fields c)))))) (mf_pre c) ""). split.
  - intros [|[|[|n]]] Hle; [lia..|]. rewrite gen_star, gen_ident, H5, H3, H4 by assumption. cbv zeta. erewrite gen_struct_one by (rewrite ?Hg; first [eassumption|discriminate]). rewrite Hg, Hc by (auto; lia). reflexivity.
  - destruct (rec_good_value gfs0 gfs afs prefix gn r G c Hr Ha Hnd HG Hgood) as [Ht He]. destruct Hgood as (Hp1 & Hp2 & _).
    split; [exact Hp1|]. split; [exact Hp2|]. cbn [m_value m_pre]. split.
    + intros Z T0 fns Hz Hl Hsub. eapply t_guard; [eapply path_type_sel; eauto|]. constructor; [exact I|]. econstructor; [exact Hd1|exact Hd2|]. constructor; [exact I|]. eapply Ht; eauto.
    + intros F z v0 x HF Hp Hx Hty. inversion Hty as [| | | | | |T|T v Hv| | | |]; subst.
      * exists GNil. split; [|constructor]. cbn [eval]. rewrite (path_sel _ _ _ _ _ Hp Hx). reflexivity.
      * destruct (He F z v0 (GPtr v) v HF Hp Hx Hv (or_intror eq_refl)) as (l & Hl & Hcv). eexists. split; [|apply c_ptr, c_union_struct; [exact Hr|exact Hcv]].
        cbn [eval]. rewrite (path_sel _ _ _ _ _ Hp Hx). cbn [ebind].
        change (ebind (ebind (ebind (eval F z (XRec r (mf_fields c))) (fun v => Ran (GPtr v))) (fun v => Ran (union_rec ("UnionNull" +:+ r) r v))) (fun v => Ran (GPtr v)) = Ran (GPtr (union_rec ("UnionNull" +:+ r) r (GPtr (GRec l []))))). rewrite Hl. reflexivity.
Qed.

(** ** Slices of structs *)
Lemma struct_elem G gfs elt : struct_type types G gfs -> printable G -> elt = G \/ elt = EStar G ->
  (let base := match anon G with Some gfs => EStruct (printed (EStruct gfs)) | None => EIdent (sname G) end in
   if is_star elt then EStar base else base) = elt.
Proof.
  intros HG Hp Helt. assert (Hb : match anon G with Some gfs => EStruct (printed (EStruct gfs)) | None => EIdent (sname G) end = G).
  { destruct HG as [->|(s & -> & _)]; cbn [anon sname]; [|reflexivity]. pose proof (printed_id _ Hp) as Hi. cbn -[printed] in Hi. rewrite Hi. reflexivity. }
  cbv zeta. rewrite Hb. destruct (struct_not _ _ HG) as [Hs _]. destruct Helt as [->| ->]; [rewrite Hs; reflexivity|reflexivity].
Qed.
Lemma items_ok gfs afs r c G elt F fname : record_name r -> avro r = Some (EStruct afs) -> struct_type types G gfs -> elt = G \/ elt = EStar G ->
  good_fields gfs afs [] c -> (forall d, d ∈ mf_pre c -> fn_works F d) ->
  forall v, has_ty (EArray elt) v -> exists w, slice_fn F (FnDef fname elt r (mf_fields c)) v = Ran w /\ conv (EArray (EStar (EIdent r))) (EArray elt) v w.
Proof.
  intros Hr Ha HG Helt Hgood HF v Hv. destruct (has_ty_slice _ _ Hv) as (l & -> & Hl & Hnil).
  assert (Hone : forall x, x ∈ l -> exists w, eval F x (XAddr (XRec r (mf_fields c))) = Ran w /\ conv (EStar (EIdent r)) elt x w).
  { intros x Hx. destruct Hgood as (_ & _ & _ & _ & He).
    assert (exists y, has_ty G y /\ ((x = y /\ elt = G) \/ (x = GPtr y /\ elt = EStar G))) as (y & Hy & Hxy).
    { pose proof (Hl x Hx) as Hxt. destruct Helt as [->| ->]; [exists x; auto|].
      inversion Hxt as [| | | | | |T|T y Hy| | | |]; subst; [|exists y; auto].
      exfalso. specialize (Hnil GNil Hx eq_refl). injection Hnil as ->. destruct HG as [HG|(s & HG & _)]; discriminate HG. }
    pose proof (struct_type_val _ _ _ _ HG Hy) as Hs.
    destruct (He F x x y HF eq_refl) as (fl & Hfl & Hc).
    { intros n. destruct Hxy as [[-> _]|[-> _]]; [reflexivity|]. eapply select_ptr_struct; eauto. }
    { assumption. }
    assert (Hcv : conv (EStar (EIdent r)) G y (GPtr (GRec fl []))) by (econstructor; eauto).
    exists (GPtr (GRec fl [])). split; [cbn [eval]; rewrite Hfl; reflexivity|]. destruct Hxy as [[-> ->]|[-> ->]]; [assumption|]. apply c_ptr. assumption. }
  clear Hl Hnil Hv. cbn [slice_fn fn_rec fn_fields].
  assert (exists ws, each (fun z => eval F z (XAddr (XRec r (mf_fields c)))) (fun w _ => w) l = inr ws /\ Forall2 (conv (EStar (EIdent r)) elt) l ws) as (ws & Hws & Hf).
  { induction l as [|x l IH]; [exists []; split; [reflexivity|constructor]|].
    destruct (Hone x ltac:(left)) as (w & Hw & Hcw). destruct IH as (ws & Hws & Hf); [intros; apply Hone; right; assumption|].
    exists (w :: ws). split; [|constructor; assumption]. rewrite each_cons, Hw, Hws. reflexivity. }
  exists (GSlice ws). rewrite Hws. split; [reflexivity|]. constructor. exact Hf.
Qed.
Lemma fit_slices_ok r G elt : P_rec r G -> printable G -> elt = G \/ elt = EStar G -> P_fit (EArray (EStar (EIdent r))) (EArray elt).
Proof.
  intros (Hr & afs & gfs & Ha & HG & Hcl & Hnd & Hgen) Hpr Helt gfs0 gn name prefix g Hn Hg Hsel _.
  destruct (Hgen []) as (n0 & c & Hc & Hgood). destruct (record_ident _ Hr) as (H1 & H2 & H3 & H4 & _).
  assert (Hgn : gname g = gn) by (unfold gname; rewrite Hn; reflexivity).
  set (fname := (match anon G with Some _ => "" | None => sname G +:+ "_" end) +:+ r +:+ "Slice").
  exists (S (S (S n0))), (Mapped (XSlice fname (prefix ++ [gn])) (mf_pre c ++ [FnDef fname elt r (mf_fields c)]) ""). split.
  - intros [|[|[|n]]] Hle; [lia..|]. transitivity (gen_value (S (S n)) name prefix (EIdent r) g); [cbn [Mapper.gen_value]; rewrite Hg; reflexivity|].
    rewrite gen_ident, H3, H4 by assumption. erewrite gen_struct_slice by eassumption. rewrite (Hc n elt) by (auto; lia). cbn [then2].
    pose proof (struct_elem G gfs elt HG Hpr Helt) as Hel. cbv zeta in Hel |- *. rewrite Hel, Hgn. reflexivity.
  - pose proof Hgood as (Hp1 & Hp2 & _ & Ht & _). split; [|split; [|split]]; cbn [m_value m_pre].
    + intros i d Hi. apply lookup_app_Some in Hi as [Hi|[Hlen Hi]].
      { pose proof (lookup_lt_Some _ _ _ Hi) as Hlt. rewrite take_app_le by lia. apply Hp1. exact Hi. }
      destruct (i - length (mf_pre c)) as [|k] eqn:Ek; [|destruct k; discriminate Hi]. injection Hi as <-. replace i with (length (mf_pre c)) by lia. rewrite take_app.
      split; cbn [fn_elem fn_rec fn_fields].
      * eapply good_fields_typed; [exact Ha|exact Hnd|exact Hgood|constructor| |reflexivity]. destruct Helt as [->| ->]; [left; assumption|right; eauto].
      * intros F HF v Hv. eapply items_ok; eauto.
    + intros i d Hi. apply lookup_app_Some in Hi as [Hi|[Hlen Hi]].
      { pose proof (lookup_lt_Some _ _ _ Hi) as Hlt. right. rewrite drop_app_le by lia. destruct (Hp2 _ _ Hi) as [Hx|(d' & Hd' & Hx)].
        - exists (FnDef fname elt r (mf_fields c)). split; [apply elem_of_app; right; left|exact Hx].
        - exists d'. split; [apply elem_of_app; left; assumption|exact Hx]. }
      destruct (i - length (mf_pre c)) as [|k] eqn:Ek; [|destruct k; discriminate Hi]. injection Hi as <-. left. cbn. left.
    + intros Z T0 fns Hz Hl Hsub. apply (t_slice _ _ fns Z (FnDef fname elt r (mf_fields c))).
      * apply Hsub. apply elem_of_app. right. left.
      * cbn. eapply path_type_sel; eauto.
    + intros F z v0 x HF Hp Hx Hty. destruct (HF (FnDef fname elt r (mf_fields c)) ltac:(apply elem_of_app; right; left) x Hty) as (w & Hw & Hcv).
      exists w. split; [|exact Hcv]. cbn [eval]. rewrite (path_sel _ _ _ _ _ Hp Hx). exact Hw.
Qed.

(** ** Fields *)
Lemma gen_fields_cons n prefix f afs m name l : af_names f = name :: l ->
  gen_fields (S n) prefix (f :: afs) m =
        if has_prefix "Avro" name then gen_fields n prefix afs m
        else match m !! name with
        | None => Some None
        | Some g =>
          then2 (gen_value n name prefix (af_type f) g) (fun v =>
          then2 (gen_fields n prefix afs m) (fun rest =>
          Some (Some (MFields ((name, m_value v) :: mf_fields rest) (m_pre v ++ mf_pre rest)))))
        end.
Proof. intros H. cbn [Mapper.gen_fields]. rewrite H. reflexivity. Qed.
Lemma fit_nil_ok gfs : P_fields gfs [].
Proof.
  intros file m Hc Hm prefix. exists 1, (MFields [] []). split; [intros [|n] Hle; [lia|reflexivity]|].
  split; [apply pre_ok_nil|]. split; [apply used_nil|]. split; [constructor|]. split.
  - intros Z T0 fns _ _ _ n x Hin. apply elem_of_nil in Hin as [].
  - intros F z v0 v1 _ _ _ _. exists []. split; [reflexivity|constructor].
Qed.
Lemma fit_meta_ok gfs f a l afs : af_names f = a :: l -> metadata_name a -> P_fields gfs afs -> P_fields gfs (f :: afs).
Proof.
  intros Hn Hmeta IH file m Hc Hm prefix. destruct (IH file m Hc Hm prefix) as (n0 & c & Hg & (Hp & Hu & Hs & Ht & He)).
  exists (S n0), c. split.
  - intros [|n] Hle; [lia|]. rewrite (gen_fields_cons _ _ _ _ _ _ _ Hn), Hmeta. apply Hg. lia.
  - split; [exact Hp|]. split; [exact Hu|]. split; [cbn; rewrite Hn; cbn; constructor; exact Hs|]. split.
    + intros Z T0 fns H1 H2 H3 n x Hin. destruct (Ht _ _ _ H1 H2 H3 n x Hin) as (f' & Hf & Hh). exists f'. split; [right; assumption|exact Hh].
    + intros F z v0 v1 H1 H2 H3 H4. destruct (He F z v0 v1 H1 H2 H3 H4) as (r & Hr & Hcv). exists r. split; [exact Hr|]. eapply cf_meta; eauto.
Qed.
Lemma fit_cons_ok gfs f a l n G afs : af_names f = a :: l -> ~ metadata_name a -> a = field_key n -> field types gfs n G -> a = n \/ direct (af_type f) ->
  P_fit (af_type f) G -> P_fields gfs afs -> P_fields gfs (f :: afs).
Proof.
  intros Hn Hmeta Hkey [Hsel Hvis] Hdir Hfit IH file m Hc Hm prefix. destruct (IH file m Hc Hm prefix) as (n0 & c & Hg & (Hp & Hu & Hs & Ht & He)).
  destruct (Hm _ _ Hvis) as (g & Hmg & Hgn & HgT). rewrite <- Hkey in Hmg.
  destruct (Hfit gfs n a prefix g Hgn HgT Hsel Hdir) as (n1 & v & Hv & (Vp & Vu & Vt & Ve)).
  exists (S (max n0 n1)), (MFields ((a, m_value v) :: mf_fields c) (m_pre v ++ mf_pre c)). split.
  - intros [|k] Hle; [lia|]. rewrite (gen_fields_cons _ _ _ _ _ _ _ Hn). unfold metadata_name in Hmeta. destruct (has_prefix "Avro" a); [destruct (Hmeta eq_refl)|].
    rewrite Hmg, Hv by lia. cbn [then2]. rewrite Hg by lia. reflexivity.
  - split; [apply pre_ok_app; assumption|]. split; [apply (used_app _ _ _ _ Vu Hu)|]. split; [cbn; rewrite Hn; cbn; constructor; exact Hs|]. cbn [mf_pre mf_fields]. split.
    + intros Z T0 fns H1 H2 H3 k x Hin. apply elem_of_cons in Hin as [Heq|Hin].
      * injection Heq as -> ->. exists f. split; [left|]. split; [rewrite Hn; reflexivity|]. eapply Vt; eauto. intros d Hd. apply H3. apply elem_of_app. left. assumption.
      * destruct (Ht Z T0 fns H1 H2) with (n := k) (x := x) as (f' & Hf & Hh); [intros d Hd; apply H3; apply elem_of_app; right; assumption|assumption|]. exists f'. split; [right; assumption|exact Hh].
    + intros F z v0 v1 H1 H2 H3 H4. destruct (select_typed _ _ _ _ _ _ Hc Hsel H4) as (x & Hx & HxT).
      destruct (Ve F z v0 x) as (w & Hw & Hcw); [intros d Hd; apply H1; apply elem_of_app; left; assumption|assumption|rewrite H3; assumption|assumption|].
      destruct (He F z v0 v1) as (r & Hr & Hcv); [intros d Hd; apply H1; apply elem_of_app; right; assumption|assumption..|].
      exists ((a, w) :: r). split; [rewrite each_cons, Hw, Hr; reflexivity|]. eapply cf_cons; eauto.
Qed.
Lemma child_struct G gfs t : struct_type types G gfs -> t = G \/ t = EStar G -> child_fields E t = Some (gfs, match G with EIdent s => Some s | _ => None end).
Proof. intros HG Ht. destruct HG as [->|(s & -> & Hb & Hs)], Ht as [->| ->]; cbn; rewrite ?Hs; reflexivity. Qed.
Lemma owns_nodup (fs : list afield) n T T' : NoDup (owns fs).*1 -> (n, T) ∈ owns fs -> (n, T') ∈ owns fs -> T = T'.
Proof.
  generalize (owns fs) as l. intros l. induction l as [|[k t] l IH]; intros Hnd H1 H2; [apply elem_of_nil in H1 as []|].
  cbn in Hnd. apply NoDup_cons in Hnd as [Hk Hnd].
  assert (Hin : forall T, (k, T) ∈ l -> False) by (intros T0 H; apply Hk; apply elem_of_list_fmap; exists (k, T0); auto).
  apply elem_of_cons in H1 as [H1|H1]; apply elem_of_cons in H2 as [H2|H2]; [congruence|injection H1 as -> ->; destruct (Hin _ H2)|injection H2 as -> ->; destruct (Hin _ H1)|auto].
Qed.
Lemma fit_rec_ok r G afs gfs : record_name r -> avro r = Some (EStruct afs) -> NoDup (omap (fun f => head (af_names f)) afs) ->
  struct_type types G gfs -> closed (fun _ => None) gfs -> embs gfs = [] -> P_fields gfs afs -> P_rec r G.
Proof.
  intros Hr Ha Hnd HG Hcl Hemb Hf. split; [assumption|]. exists afs, gfs. split; [assumption|]. split; [assumption|]. split; [assumption|]. split; [assumption|]. intros prefix.
  destruct (map_fields_ok types W (E_child E below) (fun _ => None) ltac:(discriminate) gfs Hcl) as (n0 & m & Hm & Hgood).
  assert (Hone : forall n T T', visible gfs n T -> visible gfs n T' -> T = T').
  { intros n T T' H1 H2. inversion Hcl as [fs0 Hnd0 _ _ _]; subst. apply NoDup_app in Hnd0 as (Hnd0 & _).
    inversion H1; subst; [|match goal with H : _ ∈ embs gfs |- _ => rewrite Hemb in H; apply elem_of_nil in H as [] end].
    inversion H2; subst; [|match goal with H : _ ∈ embs gfs |- _ => rewrite Hemb in H; apply elem_of_nil in H as [] end].
    eapply owns_nodup; eauto. }
  destruct (Hf _ m Hcl) with (prefix := prefix) as (n1 & c & Hc & Hgf).
  { intros n T Hv. eapply good_map_lookup; eauto. }
  exists (S (max n0 n1)), c. split; [|assumption]. intros [|k] t Hle Ht; [lia|]. cbn [Mapper.gen_child]. rewrite (child_struct _ _ _ HG Ht), Hm by lia. cbn [then2].
  rewrite Hc by lia. cbn [then2]. destruct HG as [->|(s & -> & _)]; reflexivity.
Qed.

Scheme fit_mind := Minimality for SpecMapper.fit Sort Prop
  with fit_rec_mind := Minimality for SpecMapper.fit_rec Sort Prop
  with fit_fields_mind := Minimality for SpecMapper.fit_fields Sort Prop.
Lemma fit_fields_ok gfs afs : fit_fields gfs afs -> P_fields gfs afs.
Proof.
  apply (fit_fields_mind types avro P_fit P_rec P_fields).
  - exact fit_same_ok.
  - exact fit_time_ok.
  - exact fit_slice_ok.
  - exact fit_times_ok.
  - exact fit_opt_times_ok.
  - intros r b p G Hu Hd HG. exact (fit_union_ok r b p G Hu Hd HG).
  - exact fit_union_time_ok.
  - intros r G _ HP. exact (fit_struct_ok r G HP).
  - intros r G Hd _ HP. exact (fit_union_struct_ok r G Hd HP).
  - intros r G Hd _ HP. exact (fit_union_ptr_ok r G Hd HP).
  - intros r G _ HP Hpr. exact (fit_slices_ok r G G HP Hpr (or_introl eq_refl)).
  - intros r G _ HP Hpr. exact (fit_slices_ok r G (EStar G) HP Hpr (or_intror eq_refl)).
  - intros r G afs0 gfs0 Hr Ha Hnd HG Hcl He _ HP. exact (fit_rec_ok r G afs0 gfs0 Hr Ha Hnd HG Hcl He HP).
  - exact fit_nil_ok.
  - intros gfs0 f a l afs0 Hn Hm _ HP. exact (fit_meta_ok gfs0 f a l afs0 Hn Hm HP).
  - intros gfs0 f a l n G afs0 Hn Hm Hk Hf Hd _ HP _ HPs. exact (fit_cons_ok gfs0 f a l n G afs0 Hn Hm Hk Hf Hd HP HPs).
Qed.

(** ** The whole *)
Notation own_file := (own_file W E).
Lemma defined_app a b F : defined (a ++ b) F = defined b (defined a F).
Proof. apply fold_left_app. Qed.
Lemma call_other f f' h F v : f <> f' -> call ((f', h) :: F) f v = call F f v.
Proof.
  intros Hne. unfold call. cbn. rewrite decide_False by (cbn; congruence). destruct (list_find (fun d => d.1 = f) F) as [[i [n h']]|]; reflexivity.
Qed.
Lemma call_same f h F v : call ((f, h) :: F) f v = h v.
Proof. unfold call. cbn. rewrite decide_True by reflexivity. reflexivity. Qed.
Lemma defined_works pre : pre_ok pre -> NoDup (map fn_name pre) -> forall d, d ∈ pre -> fn_works (defined pre []) d.
Proof.
  intros Hok Hnd. assert (H : forall k, k <= length pre -> forall d, d ∈ take k pre -> fn_works (defined (take k pre) []) d).
  { induction k as [|k IH]; intros Hk d Hd; [apply elem_of_nil in Hd as []|].
    destruct (lookup_lt_is_Some_2 pre k ltac:(lia)) as [d0 Hd0]. rewrite (take_S_r _ _ _ Hd0) in *. rewrite defined_app. cbn.
    apply elem_of_app in Hd as [Hd|Hd%elem_of_list_singleton].
    - intros v Hv. assert (Hne : fn_name d <> fn_name d0).
      { intros Heq. rewrite <- (take_drop_middle _ _ _ Hd0), map_app in Hnd. apply NoDup_app in Hnd as (_ & Hnd & _). apply (Hnd (fn_name d)).
        - apply elem_of_list_fmap. eauto.
        - rewrite Heq. cbn. left. }
      destruct (IH ltac:(lia) d Hd v Hv) as (w & Hw & Hcv). exists w. split; [|exact Hcv]. rewrite call_other by assumption. exact Hw.
    - subst d0. intros v Hv. destruct (Hok _ _ Hd0) as [_ Hs]. destruct (Hs (defined (take k pre) [])) with (v := v) as (w & Hw & Hcv); [intros; apply IH; [lia|assumption]|assumption|].
      exists w. split; [|exact Hcv]. rewrite call_same. exact Hw. }
  intros d Hd. specialize (H (length pre) ltac:(lia) d). rewrite firstn_all in H. auto.
Qed.
Lemma mapping_ok name gfs afs : fits types avro own_file name gfs afs ->
  exists n0 c, (forall n, n0 <= n -> generate_mapping W E below avro n name (EStruct gfs) = Some (Some c)) /\
    (NoDup (map fn_name (mf_pre c)) ->
       compiles types avro name (EStar (EStruct gfs)) c /\
       forall z, has_ty (EStruct gfs) z -> exists l, run_mapping c (GPtr z) = Ran (GRec l []) /\ conv_fields gfs afs z l).
Proof.
  intros (Ha & Hnd & Hcl & Hone & Hfit).
  destruct (map_fields_ok types W E own_file) with (fs := gfs) as (n0 & m & Hm & Hgood); [|exact Hcl|].
  { intros e t. unfold own_file. destruct (struct_to_filename W e) as [fn|]; [|discriminate]. cbn. eauto. }
  destruct (fit_fields_ok _ _ Hfit own_file m Hcl) with (prefix := @nil string) as (n1 & c & Hc & Hg).
  { intros n T Hv. eapply good_map_lookup; eauto. }
  exists (max n0 n1), c. split.
  - intros n Hle. unfold generate_mapping. cbn. rewrite Hm by lia. cbn. rewrite Ha. cbn. apply Hc. lia.
  - intros Hdup. pose proof Hg as (Hp & Hu & _ & _ & He). split.
    + split; [exact Hdup|]. split.
      * intros i d Hi. split; [apply Hp; exact Hi|]. apply Hu. exact Hi.
      * eapply good_fields_typed; [exact Ha|exact Hnd|exact Hg|constructor| |reflexivity]. right. exists (EStruct gfs). split; [reflexivity|]. left. reflexivity.
    + intros z Hz. destruct (He (defined (mf_pre c) []) (GPtr z) (GPtr z) z) as (l & Hl & Hcv).
      * apply defined_works; assumption.
      * reflexivity.
      * intros n. eapply select_ptr_struct; eauto.
      * exact Hz.
      * exists l. split; [|exact Hcv]. unfold run_mapping. cbn [eval]. rewrite Hl. reflexivity.
Qed.
End S2.

(** the two halves *)
Lemma fields_ok W E below avro name gfs afs : fits (src_dir E) avro (own_file W E) name gfs afs ->
  exists n0 c, (forall n, n0 <= n -> generate_mapping W E below avro n name (EStruct gfs) = Some (Some c)) /\
    (NoDup (map fn_name (mf_pre c)) -> forall z, has_ty (src_dir E) (EStruct gfs) z ->
      exists l, run_mapping c (GPtr z) = Ran (GRec l []) /\ conv_fields (src_dir E) avro gfs afs z l).
Proof. intros H. destruct (mapping_ok W E below avro name gfs afs H) as (n0 & c & Hg & Hc). exists n0, c. split; [exact Hg|]. intros Hn. apply (Hc Hn). Qed.
Lemma compiles_ok W E below avro name gfs afs : fits (src_dir E) avro (own_file W E) name gfs afs ->
  exists n0 c, (forall n, n0 <= n -> generate_mapping W E below avro n name (EStruct gfs) = Some (Some c)) /\
    (NoDup (map fn_name (mf_pre c)) -> compiles (src_dir E) avro name (EStar (EStruct gfs)) c).
Proof. intros H. destruct (mapping_ok W E below avro name gfs afs H) as (n0 & c & Hg & Hc). exists n0, c. split; [exact Hg|]. intros Hn. apply (Hc Hn). Qed.

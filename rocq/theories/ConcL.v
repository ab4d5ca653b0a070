(** A program of Conc.v that runs without interruption is the computation of Heap.v. *)
From stdpp Require Import strings list gmap.
From Coq Require Import Ascii ZArith Lia.
From Verif Require Import GoStr Val Conv Instr Heap Api Conc.

Section seq.
Context (perm : nat -> nat -> list nat).
Fixpoint pseq {A} (p : prog A) (s : st) : st * res A :=
  match p with
  | PRet r => (s, r)
  | PAlloc c k => pseq (k (nxt s)) (St (<[nxt s := c]> (hp s)) (S (nxt s)) (froms s) (tick s))
  | PWrite l c k => pseq k (St (<[l := c]> (hp s)) (nxt s) (froms s) (tick s))
  | PHeap k => pseq (k (hp s)) s
  | PFrom id k => pseq (k (default [] (froms s !! id))) s
  | PSet id fr k => pseq k (St (hp s) (nxt s) (<[id := fr]> (froms s)) (tick s))
  | PIter n k => pseq (k (perm (tick s) n)) (St (hp s) (nxt s) (froms s) (S (tick s)))
  end.
(** [p] does what [c] does *)
Definition does {A} (p : prog A) (c : M A) : Prop := forall s, pseq p s = c s.
Lemma does_bind {A B} (p : prog A) c (k : A -> prog B) k' : does p c -> (forall a, does (k a) (k' a)) -> does (pbind p k) (Heap.mbind c k').
Proof.
  intros Hp Hk s. unfold Heap.mbind. rewrite <- Hp. clear Hp. revert s.
  induction p as [[a| |]|c0 q IH|l c0 q IH|q IH|i q IH|i fr q IH|n q IH]; intros s; cbn; [apply Hk| | |apply IH..]; done.
Qed.
Lemma does_try {A} (p : prog A) c : does p c -> does (ptry p) (mtry c).
Proof.
  intros Hp s. unfold mtry. rewrite <- Hp. clear Hp. revert s.
  induction p as [[a| |]|c0 q IH|l c0 q IH|q IH|i q IH|i fr q IH|n q IH]; intros s; cbn; [done..|apply IH|apply IH|apply IH|apply IH|apply IH|apply IH].
Qed.
Lemma does_ret {A} (a : A) : does (pret a) (mret a). Proof. done. Qed.
Lemma does_fail {A} : does (@pfail A) mfail. Proof. done. Qed.
Lemma does_panic {A} : does (@ppanic A) mpanic. Proof. done. Qed.
Lemma does_lift {A} (r : res A) : does (plift r) (mlift r). Proof. done. Qed.
Lemma does_heap : does pheap mheap. Proof. done. Qed.
Lemma does_alloc c : does (palloc c) (alloc c). Proof. done. Qed.
Lemma does_write l c : does (pwrite l c) (write l c). Proof. done. Qed.
Hint Resolve does_ret does_fail does_panic does_lift does_heap does_alloc does_write : does.
Ltac dd := repeat first [progress intros | solve [eauto with does] | match goal with |- does (pbind _ _) _ => apply does_bind end | case_match].
Lemma does_map_set l k v : does (pmap_set l k v) (map_set l k v).
Proof. unfold pmap_set, map_set. dd. Qed.
Hint Resolve does_map_set : does.
Context (W : oracles).
Lemma does_append1 s v : does (pappend1 W s v) (append1 W s v).
Proof. unfold pappend1, append1. apply does_bind; [dd|]. intros h. cbv zeta. destruct s.1; [case_decide|]; dd. Qed.
Hint Resolve does_append1 : does.
Lemma does_append_nils k s : does (pappend_nils W k s) (append_nils W k s).
Proof. revert s. induction k as [|k IH]; intros s; cbn [pappend_nils append_nils]; dd. Qed.
Lemma does_slice_set s i v : does (pslice_set s i v) (slice_set s i v).
Proof. unfold pslice_set, slice_set. dd. Qed.
Lemma does_slice_get s i : does (pslice_get s i) (slice_get s i).
Proof. unfold pslice_get, slice_get. dd. Qed.
Lemma does_merge_old v o : does (pmerge_old v o) (merge_old v o).
Proof. unfold pmerge_old, merge_old. dd. Qed.
Hint Resolve does_append_nils does_slice_set does_slice_get does_merge_old : does.
Lemma does_save_in_slice splits : forall cur v, does (psave_in_slice W cur splits v) (save_in_slice W cur splits v).
Proof.
  induction splits as [|sp rest IH]; intros cur v; cbn [psave_in_slice save_in_slice]; [dd|].
  destruct (atoi _); [|dd]. apply does_bind; [dd|]. intros c1. apply does_bind; [dd|]. intros c2.
  destruct (_ <? 0)%Z; [dd|]. cbv zeta. destruct rest; [dd|]. apply does_bind; [dd|]. intros old.
  apply does_bind; [apply does_try, IH|]. dd.
Qed.
Hint Resolve does_save_in_slice : does.
Lemma does_get_slice t k : does (pget_slice t k) (get_slice t k).
Proof. unfold pget_slice, get_slice. dd. Qed.
Hint Resolve does_get_slice : does.
Lemma does_save_leaf t p v : does (psave_leaf W t p v) (save_leaf W t p v).
Proof. unfold psave_leaf, save_leaf. dd. Qed.
Hint Resolve does_save_leaf : does.
Lemma does_save_splits splits : forall b t v, does (psave_splits W b t splits v) (save_splits W b t splits v).
Proof.
  induction splits as [|sp rest IH]; intros b t v; cbn [psave_splits save_splits]; [dd|].
  destruct (negb b && _); [destruct rest; [dd|apply IH]|]. destruct rest as [|sp2 rest]; [dd|].
  destruct (split sp "[") as [|a [|a2 asp]]; [dd| |].
  - apply does_bind; [dd|]. intros h. apply does_bind; [destruct (hmap h t !! sp) as [[[]| | | |]|]; dd|]. intros nt. apply does_bind; [dd|]. intros _. apply IH.
  - apply does_bind; [dd|]. intros sv. apply does_bind; [dd|]. intros nt. apply does_bind; [dd|]. intros nv. apply does_bind; [dd|]. intros _. apply IH.
Qed.
Lemma does_save_in_tree t p v : does (psave_in_tree W t p v) (save_in_tree W t p v).
Proof. unfold psave_in_tree, save_in_tree. destruct (vnil v); [dd|apply does_save_splits]. Qed.
Hint Resolve does_save_in_tree : does.
Lemma does_inject g : does (pinject g) (inject g).
Proof.
  revert g. fix IH 1. intros [v|s|l|l]; cbn [pinject inject]; [apply does_ret|apply does_ret| |apply does_ret].
  apply does_bind; [|intros vs; apply does_bind; [apply does_alloc|intros a; apply does_ret]].
  induction l as [|g l IHl]; [apply does_ret|]. apply does_bind; [apply IH|]. intros v. apply does_bind; [apply IHl|]. intros vs. apply does_ret.
Qed.
Hint Resolve does_inject : does.
Context (f : fmt).
Lemma does_run_tis t input ft m : does (prun_tis W f t input ft m) (run_tis W f t input ft m).
Proof.
  intros s. unfold prun_tis, run_tis. cbn.
  set (fr := default [] (froms s !! ti_id t)). rewrite lookup_insert. unfold tis_run. cbn.
  assert (E : match ti_meth t with MLast => rev (match ti_meth t with MLast => rev (match ti_meth t with MLast => rev fr | _ => fr end) | _ => match ti_meth t with MLast => rev fr | _ => fr end end)
              | _ => match ti_meth t with MLast => rev (match ti_meth t with MLast => rev fr | _ => fr end) | _ => match ti_meth t with MLast => rev fr | _ => fr end end end =
              match ti_meth t with MLast => rev fr | _ => fr end) by (destruct (ti_meth t); [done|by rewrite rev_involutive|done]).
  rewrite E. clear E.
  set (r := match ti_meth t with MConcat => _ | _ => _ end).
  destruct r as [g| |]; [apply does_inject|done|done].
Qed.
Hint Resolve does_run_tis : does.
Lemma does_run_opt_tis ts input ft m : does (prun_opt_tis W f ts input ft m) (run_opt_tis W f ts input ft m).
Proof. unfold prun_opt_tis, run_opt_tis. dd. Qed.
Hint Resolve does_run_opt_tis : does.
Lemma does_heap_get p input : does (pheap_get W p input) (heap_get W p input).
Proof. unfold pheap_get, heap_get. dd. Qed.
Hint Resolve does_heap_get : does.
Lemma does_scal_json p jt d ts input m : does (pscal_json W f p jt d ts input m) (scal_json W f p jt d ts input m).
Proof. unfold pscal_json, scal_json. dd. Qed.
Lemma does_scal_xml jt d ts input m : does (pscal_xml W f jt d ts input m) (scal_xml W f jt d ts input m).
Proof. unfold pscal_xml, scal_xml. dd. Qed.
Lemma does_as_slice v : does (pas_slice v) (as_slice v).
Proof. unfold pas_slice, as_slice. dd. Qed.
Hint Resolve does_scal_json does_scal_xml does_as_slice : does.
Lemma does_base_json p d ts input m : does (pbase_json W f p d ts input m) (Heap.base_json W f p d ts input m).
Proof. unfold pbase_json, Heap.base_json. dd. Qed.
Lemma does_base_xml d ts input m : does (pbase_xml W f d ts input m) (Heap.base_xml W f d ts input m).
Proof. unfold pbase_xml, Heap.base_xml. dd. Qed.
Hint Resolve does_base_json does_base_xml : does.
Lemma does_items k : forall i it it', (forall i, does (it i) (it' i)) -> does (pitems k i it) (items k i it').
Proof. induction k as [|k IH]; intros i it it' H; cbn [pitems items]; dd. Qed.
Lemma does_new_array n vs : does (pnew_array n vs) (new_array n vs).
Proof. unfold pnew_array, new_array. dd. Qed.
Hint Resolve does_new_array : does.
Definition child_does (c : option (val -> modifier -> prog val)) (c' : option (val -> modifier -> M val)) : Prop :=
  option_Forall2 (fun ex ex' => forall input m, does (ex input m) (ex' input m)) c c'.
Lemma does_arr_json p d ts c c' input m : child_does c c' -> does (parr_json W f p d ts c input m) (arr_json W f p d ts c' input m).
Proof.
  intros Hc. unfold parr_json, arr_json. cbv zeta. apply does_bind; [dd|]. intros [b ch].
  apply does_bind; [dd|]. intros i'. destruct Hc as [ex ex' He|]; [|dd]. apply does_bind; [|dd]. apply does_items. intros i. apply He.
Qed.
Lemma does_arr_xml p d ts c c' input m : child_does c c' -> does (parr_xml W f p d ts c input m) (arr_xml W f p d ts c' input m).
Proof.
  intros Hc. unfold parr_xml, arr_xml. cbv zeta. apply does_bind; [dd|]. intros [b ch].
  destruct Hc as [ex ex' He|]; [|dd]. apply does_bind; [|dd]. apply does_items. intros i. apply does_bind; [dd|]. intros v. destruct v; dd.
Qed.
Definition acts_do (a : list (string * (val -> modifier -> prog val))) (a' : list (string * (val -> modifier -> M val))) : Prop :=
  Forall2 (fun x y => x.1 = y.1 /\ forall input m, does (x.2 input m) (y.2 input m)) a a'.
Lemma does_save_children op l a a' input m : acts_do a a' -> does (psave_children W op l a input m) (save_children W op l a' input m).
Proof.
  induction 1 as [|[c ex] [c' ex'] a a' [Hc He] _ IH]; cbn [psave_children save_children]; [dd|]. cbn in *. subst c'. apply does_bind; [apply He|]. intros cv.
  apply does_bind; [dd|]. intros _. apply IH.
Qed.
Lemma does_finish l : does (pfinish_obj l) (finish_obj l).
Proof. unfold pfinish_obj, finish_obj. apply does_bind; [dd|]. intros h. case_decide; dd. Qed.
Lemma pick_do a a' o : acts_do a a' -> acts_do (omap (fun i => a !! i) o) (omap (fun i => a' !! i) o).
Proof.
  intros H. induction o as [|i o IH]; cbn; [constructor|].
  destruct (a !! i) as [x|] eqn:E.
  - destruct (Forall2_lookup_l _ _ _ _ _ H E) as (y & -> & Hxy). by constructor.
  - apply lookup_ge_None_1 in E. rewrite (Forall2_length _ _ _ H) in E. by rewrite lookup_ge_None_2.
Qed.
Lemma does_members a a' p l input m : acts_do a a' ->
  does (acts <~~ pshuffle a ;; psave_children W p l acts input m ;~; pfinish_obj l)
       (acts <-- shuffle perm a' ;; save_children W p l acts input m ;;; finish_obj l).
Proof.
  intros H s. cbn. rewrite (Forall2_length _ _ _ H). unfold Heap.mbind at 1. unfold shuffle.
  apply does_bind; [by apply does_save_children, pick_do|]. intros _. apply does_finish.
Qed.
Lemma does_obj_json p d ts a a' input m : acts_do a a' -> does (pobj_json W f p d ts a input m) (obj_json W perm f p d ts a' input m).
Proof.
  intros H. unfold pobj_json, obj_json. apply does_bind; [dd|]. intros v. apply does_bind; [destruct v as [[]| | | |]; dd|].
  intros l. by apply does_members.
Qed.
Lemma does_obj_xml p d ts a a' input m : acts_do a a' -> does (pobj_xml W f p d ts a input m) (obj_xml W perm f p d ts a' input m).
Proof.
  intros H. unfold pobj_xml, obj_xml. cbv zeta.
  assert (Hr : forall input, does (l <~~ (match d with Some d => pret d | None => palloc (CMap ∅) end) ;; acts <~~ pshuffle a ;; psave_children W p l acts input m ;~; pfinish_obj l)
     (l <-- (match d with Some d => mret d | None => alloc (CMap ∅) end) ;; acts <-- shuffle perm a' ;; save_children W p l acts input m ;;; finish_obj l)).
  { intros i'. apply does_bind; [dd|]. intros l. by apply does_members. }
  destruct ts as [t|]; [|apply Hr]. apply does_bind; [dd|]. intros v.
  destruct v as [sc| | |n|l]; [|dd|dd|apply Hr|destruct l; apply Hr].
  destruct sc; dd.
Qed.
Lemma does_load : forall t, does (pload t) (load t).
Proof.
  fix IH 1. intros [sc|ts|kvs|n|l]; cbn [pload load]; [apply does_ret| | |apply does_ret|apply does_ret].
  - apply does_bind; [|intros vs; apply does_bind; [apply does_alloc|intros a; apply does_ret]].
    induction ts as [|t ts IHt]; [apply does_ret|]. apply does_bind; [apply IH|]. intros v. apply does_bind; [apply IHt|]. intros vs. apply does_ret.
  - apply does_bind; [|intros vs; apply does_bind; [apply does_alloc|intros a; apply does_ret]].
    induction kvs as [|[k t] ts IHt]; [apply does_ret|]. apply does_bind; [apply IH|]. intros v. apply does_bind; [apply IHt|]. intros vs. apply does_ret.
Qed.
Lemma does_marshal v : does (pmarshal W v) (marshal W v).
Proof. intros s. unfold pmarshal, marshal. cbn. destruct (reify _ _ _) as [t|]; [destruct (tree_ok t)|]; done. Qed.
End seq.

Lemma does_exec perm W f : forall i input m, does perm (pexec W f i input m) (exec W perm f i input m).
Proof.
  destruct f.
  {
  fix IH 1. intros [p jt d ts|p d ts cs|p d ts c] input m; cbn [pexec exec].
    - first [apply does_scal_json|apply does_scal_xml].
    - assert (H : acts_do perm (List.map (fun kc : string * itr => match kc with (_, c) => (it_path c, pexec W FJson c) end) cs)
        (List.map (fun kc : string * itr => match kc with (_, c) => (it_path c, exec W perm FJson c) end) cs)).
      { induction cs as [|[k c] cs IHc]; cbn; constructor; [|apply IHc]. split; [reflexivity|]. cbn. intros. apply IH. }
      first [exact (does_obj_json _ _ _ _ _ _ _ _ _ _ H)|exact (does_obj_xml _ _ _ _ _ _ _ _ _ _ H)].
    - assert (H : child_does perm (match c with Some c' => Some (pexec W FJson c') | None => None end) (match c with Some c' => Some (exec W perm FJson c') | None => None end)).
      { destruct c as [c|]; constructor. intros. apply IH. }
      first [exact (does_arr_json _ _ _ _ _ _ _ _ _ _ H)|exact (does_arr_xml _ _ _ _ _ _ _ _ _ _ H)].
  }
  {
  fix IH 1. intros [p jt d ts|p d ts cs|p d ts c] input m; cbn [pexec exec].
    - first [apply does_scal_json|apply does_scal_xml].
    - assert (H : acts_do perm (List.map (fun kc : string * itr => match kc with (_, c) => (it_path c, pexec W FXml c) end) cs)
        (List.map (fun kc : string * itr => match kc with (_, c) => (it_path c, exec W perm FXml c) end) cs)).
      { induction cs as [|[k c] cs IHc]; cbn; constructor; [|apply IHc]. split; [reflexivity|]. cbn. intros. apply IH. }
      first [exact (does_obj_json _ _ _ _ _ _ _ _ _ _ H)|exact (does_obj_xml _ _ _ _ _ _ _ _ _ _ H)].
    - assert (H : child_does perm (match c with Some c' => Some (pexec W FXml c') | None => None end) (match c with Some c' => Some (exec W perm FXml c') | None => None end)).
      { destruct c as [c|]; constructor. intros. apply IH. }
      first [exact (does_arr_json _ _ _ _ _ _ _ _ _ _ H)|exact (does_arr_xml _ _ _ _ _ _ _ _ _ _ H)].
  }
Qed.

Lemma does_base perm W E f i raw : does perm (pbase W E f i raw) (transform_no_validation W E perm f i raw).
Proof.
  unfold pbase, transform_no_validation, Api.base_json, Api.base_xml. destruct f.
  - destruct (e_json E raw) as [doc|]; [|apply does_fail]. unfold base_json_transform. apply does_bind; [apply does_load|]. intros v.
    apply does_bind; [apply does_exec|]. intros o. apply does_marshal.
  - destruct (e_xml E raw) as [n|]; [|apply does_fail]. unfold base_xml_transform.
    apply does_bind; [apply does_exec|]. intros o. apply does_marshal.
Qed.
Lemma does_transform perm W E f i raw : does perm (ptransform W E f i raw) (transform W E perm f i raw).
Proof.
  assert (H : forall c, does perm (pbase W E f i raw) c -> does perm (ptransform W E f i raw) (doc <-- c ;; valid <-- mlift (validate E doc) ;; if valid : bool then mret doc else mfail)).
  { intros c Hc. apply does_bind; [done|]. intros doc. apply does_bind; [apply does_lift|]. intros [|]; done. }
  unfold transform. destruct f; apply H; exact (does_base perm W E _ i raw).
Qed.

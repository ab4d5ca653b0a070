(** Documents and files for the examples and refutations of PropsLoad. *)
From stdpp Require Import strings list gmap.
From Coq Require Import Ascii ZArith.
From Verif Require Import GoStr GoStrL Val Schema Inst Load SpecLoad SpecRef SpecExp World Cases FlatL RefL DerefL TermL ExpL ExpT LoadL.
From Verif Require Den HeapL.

(** ** checking documents *)
Fixpoint distinctb (t : tree) : bool :=
  match t with
  | TArr l => (fix all (l : list tree) : bool := match l with [] => true | t :: l' => distinctb t && all l' end) l
  | TObj kvs => bool_decide (NoDup kvs.*1) &&
                (fix all (l : list (string * tree)) : bool := match l with [] => true | (_, t) :: l' => distinctb t && all l' end) kvs
  | _ => true
  end.
Lemma distinctb_ok t : distinctb t = true -> distinct t.
Proof.
  induction t as [s|l IH|kvs IH|n|l] using HeapL.tree_ind'; try done.
  - cbn. induction IH as [|x l Hx _ IHl]; [done|]. intros [H1 H2]%andb_true_iff. split; [by apply Hx|by apply IHl].
  - cbn. intros [Hn H]%andb_true_iff. split; [by apply bool_decide_eq_true_1 in Hn|]. clear Hn. induction IH as [|[k x] l Hx _ IHl]; [done|].
    apply andb_true_iff in H as [H1 H2]. split; [by apply Hx|by apply IHl].
Qed.
Fixpoint plainb (t : tree) : bool :=
  match t with
  | TS (SStr s) => bool_decide (raw_text s = s)
  | TArr l => (fix all (l : list tree) : bool := match l with [] => true | t :: l' => plainb t && all l' end) l
  | TObj kvs => (fix all (l : list (string * tree)) : bool := match l with [] => true | (_, t) :: l' => plainb t && all l' end) kvs
  | _ => true
  end.
Lemma plainb_ok t : plainb t = true -> plain t.
Proof.
  induction t as [s|l IH|kvs IH|n|l] using HeapL.tree_ind'; try done.
  - destruct s; try done. cbn. intros H. by apply bool_decide_eq_true_1 in H.
  - cbn. induction IH as [|x l Hx _ IHl]; [done|]. intros [H1 H2]%andb_true_iff. split; [by apply Hx|by apply IHl].
  - cbn. induction IH as [|[k x] l Hx _ IHl]; [done|]. intros [H1 H2]%andb_true_iff. split; [by apply Hx|by apply IHl].
Qed.
Definition all_refs (P : string -> bool) (t : tree) : bool :=
  forallb (fun p => match pget p t with Some (TS (SStr r)) => P r | _ => true end) (find_refs t).
Lemma all_refs_ok (P : string -> bool) t : all_refs P t = true -> forall π r, ref_at t π r -> P r = true.
Proof.
  intros H π r Hr. pose proof (find_refs_complete _ _ _ Hr) as Hin. unfold all_refs in H. rewrite forallb_forall in H.
  apply elem_of_list_In in Hin. specialize (H _ Hin). destruct Hr as (o & Ho & Hr). by rewrite pget_app, (reach_pget _ _ _ Ho) in H; cbn in H; rewrite Hr in H.
Qed.
Lemma no_refs_ok t : find_refs t = [] -> forall π r, ~ ref_at t π r.
Proof. intros H π r Hr%find_refs_complete. rewrite H in Hr. by apply elem_of_nil in Hr. Qed.

(** ** a document with references to references, at s/top.json, and a file s/other.json *)
Definition ref_to (r : string) (more : list (string * tree)) : tree := TObj (("$ref", jstr r) :: more).
Definition other_doc : tree := TObj [("type", jstr "object"); ("properties", TObj [("o", typed "string" [])]); ("definitions", TObj [("c", typed "number" [])])].
Definition top_doc : list (string * tree) :=
  [("type", jstr "object");
   ("properties", TObj [("p", ref_to "#/definitions/a" [("description", jstr "beside")]);
                        ("l", arr_schema (ref_to "other.json#/definitions/c" []) [])]);
   ("definitions", TObj [("a", typed "object" [("description", jstr "target"); ("properties", TObj [("q", ref_to "#/definitions/b" [])])]);
                         ("b", typed "string" [])])].
Definition no_files : files := Files (fun _ => None) (fun _ => None) (fun _ => true) (fun _ r => "/s/" +:+ r).
Definition two_files : files :=
  Files (fun p => if decide (p = "/s/top.json") then Some (TObj top_doc) else if decide (p = "/s/other.json") then Some other_doc else None)
        (fun _ => None) (fun _ => true) (fun _ r => "/s/" +:+ r).
Definition other_inst : instance := match d_inst true other_doc with Ok i => i | _ => zero_inst true end.
Definition others : gmap string instance := {[ "/s/other.json" := other_inst ]}.
Definition known_refs (r : string) : Prop := r ∈ ["#/definitions/a"; "#/definitions/b"; "other.json#/definitions/c"].
Definition ref_rank (r : string) : nat := if decide (r = "#/definitions/a") then 1 else 0.
Lemma other_loads : forall q j, others !! q = Some j -> exists n, load_schema two_files "" true n q = Some (Ok j).
Proof.
  intros q j H. unfold others in H. apply lookup_singleton_Some in H as [<- <-]. exists 1. vm_compute. done.
Qed.
Lemma simple_ok τ : bool_decide (τ <> [] /\ Forall (fun c => c <> "" /\ free_of "/" c = true) τ) = true -> simple_path τ.
Proof. intros H. by apply bool_decide_eq_true_1 in H. Qed.
(** no reference strictly between the top and [τ] *)
Definition refless (t : tree) (π : list string) : bool :=
  match pget π t with Some (TObj o) => match assoc "$ref" o with Some (TS (SStr _)) => false | _ => true end | _ => true end.
Lemma not_below_ok t k τ : forallb (fun n => refless t (k :: take n τ)) (List.seq 0 (length τ)) = true -> not_below_ref t (k :: τ).
Proof.
  intros H π ρ r E H1 H2 (o & Ho & Hr). rewrite forallb_forall in H. destruct π as [|x π]; [done|]. injection E as <- ->.
  specialize (H (length π)). rewrite take_app in H. unfold refless in H. rewrite (reach_pget _ _ _ Ho), Hr in H.
  discriminate H. apply in_seq. rewrite app_length. destruct ρ; [done|]. cbn. lia.
Qed.
Lemma top_ranked : ranked two_files (fun q => Ok <$> others !! q) "/s/top.json" (TObj top_doc) ref_rank known_refs.
Proof.
  split.
  - intros π r H. assert (E : bool_decide (known_refs r) = true); [|by apply bool_decide_eq_true_1 in E].
    refine (all_refs_ok (fun r => bool_decide (known_refs r)) (TObj top_doc) _ π r H). vm_compute. done.
  - intros r Hr. unfold known_refs in Hr. rewrite !elem_of_cons, elem_of_nil in Hr. destruct Hr as [->|[->|[->|[]]]].
    + eapply (known_own _ _ _ _ _ _ _ ["definitions"; "a"]).
      * split; [by apply simple_ok|by left].
      * by vm_compute.
      * by apply not_below_ok.
      * intros π r' H. cbn [List.app] in H. 
        assert (E : bool_decide (known_refs r' /\ ref_rank r' < 1) = true); [|by apply bool_decide_eq_true_1 in E].
        refine (all_refs_ok (fun r => bool_decide (known_refs r /\ ref_rank r < 1)) _ _ π r' H). vm_compute. done.
    + eapply (known_own _ _ _ _ _ _ _ ["definitions"; "b"]).
      * split; [by apply simple_ok|by left].
      * by vm_compute.
      * by apply not_below_ok.
      * intros π r' H. exfalso. revert H. refine (no_refs_ok _ _ π r'). vm_compute. done.
    + eapply (known_other _ _ _ _ _ _ _ (m_inst other_inst) ["definitions"; "c"]).
      * exists "other.json", other_inst. split; [by split|]. split; [done|]. split; [by vm_compute|]. split; [done|]. split; [right; by apply simple_ok|by vm_compute].
      * by vm_compute.
      * by apply distinctb_ok.
      * intros π r' H. exfalso. revert H. refine (no_refs_ok _ _ π r'). vm_compute. done.
Qed.

(** ** refutations *)
(** a definition that refers to itself *)
Definition self_doc : tree := TObj [("definitions", TObj [("a", ref_to "#/definitions/a" [])])].
Definition self_doc' : tree := TObj [("definitions", TObj [("a", ref_to "#/definitions/a" [("fromRef", jstr "#/definitions/a")])])].
Lemma self_never F lf path n : dereference F lf path n self_doc = None.
Proof.
  assert (H : forall n, dereference F lf path n self_doc' = None).
  { clear n. induction n as [|n IH]; [done|]. change (dereference F lf path (S n) self_doc') with (dereference F lf path n self_doc'). exact IH. }
  destruct n as [|n]; [done|]. change (dereference F lf path (S n) self_doc) with (dereference F lf path n self_doc'). apply H.
Qed.
(** two files that refer to each other *)
Definition file_to (r : string) : tree := TObj [("type", jstr "object"); ("properties", TObj [("p", ref_to r [])])].
Definition ring : files :=
  Files (fun p => if decide (p = "/s/a.json") then Some (file_to "b.json") else if decide (p = "/s/b.json") then Some (file_to "a.json") else None)
        (fun _ => None) (fun _ => true) (fun _ r => "/s/" +:+ r).
Lemma ring_never ty fl n : load_schema ring ty fl n "/s/a.json" = None /\ load_schema ring ty fl n "/s/b.json" = None.
Proof.
  induction n as [|n [IHa IHb]]; [done|].
  assert (Ea : resolve ring (load_schema ring ty fl n) "b.json" (file_to "b.json") "/s/a.json" = None).
  { change (match load_schema ring ty fl n "/s/b.json" with None => None | Some (Ok i) => Some (match m_inst i with TObj kvs => Ok (TObj (set_assoc "fromRef" (TS (SStr "b.json")) kvs)) | _ => Err end) | Some Err => Some Err | Some Panic => Some Panic end = None). by rewrite IHb. }
  assert (Eb : resolve ring (load_schema ring ty fl n) "a.json" (file_to "a.json") "/s/b.json" = None).
  { change (match load_schema ring ty fl n "/s/a.json" with None => None | Some (Ok i) => Some (match m_inst i with TObj kvs => Ok (TObj (set_assoc "fromRef" (TS (SStr "a.json")) kvs)) | _ => Err end) | Some Err => Some Err | Some Panic => Some Panic end = None). by rewrite IHa. }
  assert (H : forall path r, resolve ring (load_schema ring ty fl n) r (file_to r) path = None -> dereference ring (load_schema ring ty fl n) path (S n) (file_to r) = None).
  { intros path r H. cbn [dereference]. unfold file_to at 1. change (find_refs (file_to r)) with [["properties"; "p"; "$ref"]]. cbn [expand_all].
    assert (E : expand_ref ring (load_schema ring ty fl n) path ["properties"; "p"; "$ref"] (file_to r) = None); [|by rewrite E].
    unfold expand_ref. change (pget ["properties"; "p"; "$ref"] (file_to r)) with (Some (TS (SStr r))). cbn iota. by rewrite H. }
  split; cbn [load_schema].
  - change (f_file ring "/s/a.json") with (Some (file_to "b.json")). cbn [f_valid ring negb]. by rewrite (H _ _ Ea).
  - change (f_file ring "/s/b.json") with (Some (file_to "a.json")). cbn [f_valid ring negb]. by rewrite (H _ _ Eb).
Qed.
(** a quoted word beside a reference *)
Definition quoted : string := String (ascii_of_nat 34) (String "x" (String (ascii_of_nat 34) "")).
Definition escape_doc : tree := TObj [("a", typed "string" []); ("p", ref_to "#/a" [("description", jstr quoted)])].
(** a reference at the top of a document *)
Definition root_doc : list (string * tree) := [("$ref", jstr "#/definitions/a"); ("definitions", TObj [("a", typed "string" [])])].
(** a reference in an array in an array *)
Definition deep_doc : tree := TObj [("a", typed "string" []); ("p", TArr [TArr [ref_to "#/a" []]])].
(** no own properties and two allOf members *)
Definition with_props (ps : list (string * tree)) : instance := Inst false [] [] "" None false "" "" [] None [] (Some ps) "" [] "" "" None.
Definition all_two : instance :=
  Inst true [with_props [("a", typed "string" [])]; with_props [("b", typed "string" [])]] [] "" None false "" "" [] None [] None "" [] "" "" None.

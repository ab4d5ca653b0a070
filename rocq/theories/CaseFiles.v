(** Schemas for the examples and refutations of PropsFiles. *)
From stdpp Require Import strings list gmap.
From Coq Require Import Ascii ZArith.
From Verif Require Import GoStr Val Conv Schema Inst Load FlatL SpecPath SpecLoad SpecGen SpecNamed SpecFiles WalkL Gen GenP World Cases CaseGen CaseLoad Files.

(** files in the directory /s, where paths are relative to *)
Definition in_s (p : string) : string := if has_prefix "/" p then p else "/s/" +:+ p.
Definition files_in (l : list (string * tree)) : files := Files (fun p => assocd p l) (fun _ => None) (fun _ => true) (fun _ r => in_s r).
Definition fmt_same (t : string) : option string := Some t.
Definition order_same (_ : nat) : string -> list string -> list string := same_order.
Definition order_other (_ : nat) : string -> list string -> list string := other_order.
Definition keys_same (_ : nat) : list string -> list string -> list string := as_is.
Definition keys_other (_ : nat) : list string -> list string -> list string := backwards.

(** a schema with own properties, one allOf and two oneOf members *)
Definition text_field (k : string) : tree := obj_of [(k, typed "string" [])] [].
Definition media_doc : tree :=
  typed "object" [("allOf", TArr [ref_to "base.json" []]); ("oneOf", TArr [ref_to "image.json" []; ref_to "sub/clip.json" []]); ("properties", TObj [("title", typed "string" [])])].
Definition media_files : files :=
  files_in [("/s/media.json", media_doc); ("/s/base.json", text_field "id"); ("/s/image.json", text_field "src"); ("/s/sub/clip.json", text_field "length")].
Definition media_args : args := Args false false false false (fun k => if decide (k = "clip") then Some "Video" else None) no_names.
Definition media_text (name : string) (embeds fields : list string) : string :=
  show_file false "pkg" (exported W0 name) embeds (by_name (map (fun k => GDecl "" (exported W0 k) k false (Some TString)) fields)).
Definition media_wanted : list wanted :=
  [Wanted "/s/base.json" "base" "Base" [] (media_text "Base" [] ["id"]);
   Wanted "/s/media.json" "media" "Media" [] (media_text "Media" [] ["title"; "id"]);
   Wanted "/s/image.json" "image" "image" ["Base"; "Media"] (media_text "image" ["Base"; "Media"] ["src"]);
   Wanted "/s/sub/clip.json" "clip" "Video" ["Base"; "Media"] (media_text "Video" ["Base"; "Media"] ["length"])].
Definition loaded_or (x : option (res instance)) : instance := match x with Some (Ok i) => i | _ => zero_inst false end.
Lemma strings_declared A (ks : list string) : Forall field_name ks -> a_fieldNames A = no_names -> forall reqs, reqs = [] ->
  declares_all (exported W0) (a_fieldNames A) false reqs (map (fun k => (k, typed "string" [])) ks) (map (fun k => GDecl "" (exported W0 k) k false (Some TString)) ks).
Proof.
  intros H HA reqs ->. induction H as [|k ks Hk _ IH]; [constructor|]. cbn [map].
  pose proof (declares_value (exported W0) (a_fieldNames A) false false k (typed "string" []) (inst_of (typed "string" [])) TString eq_refl Hk) as Hd.
  rewrite HA in *. apply (all_cons _ _ _ _ k (typed "string" []) (GDecl "" (exported W0 k) k false (Some TString))); [|done].
  apply Hd. h_base (typed "string" []) "string" TString.
Qed.

Notation media_loaded := (fun path ty schema => load_schema media_files ty true 3 path = Some (Ok schema)).
Lemma media_has w ks schema : load_schema media_files (w_name w) true 3 (w_path w) = Some (Ok schema) ->
  n_items schema = None -> default [] (n_props schema) = map (fun k => (k, typed "string" [])) ks -> n_required schema = [] -> NoDup ks -> Forall field_name ks ->
  NoDup (map (exported W0) ks) -> w_text w = media_text (w_name w) (w_embeds w) ks ->
  has_text (exported W0) (a_structNames media_args) (a_fieldNames media_args) false false false false "pkg" (fun text text' => fmt_same text = Some text') media_loaded w.
Proof.
  intros Hl Hit Hps Hrq Hnd Hf Hn Ht. exists schema, (w_text w). split_and!; [done| |done]. rewrite Ht.
  pose proof (text_nested (exported W0) (a_structNames media_args) (a_fieldNames media_args) false false false false "pkg" (w_name w) (w_embeds w) schema
      (map (fun k => GDecl "" (exported W0 k) k false (Some TString)) ks) [] eq_refl Hit) as H. rewrite app_nil_r in H. apply H.
  - rewrite Hps. rewrite <- list_fmap_compose. cbn. by rewrite list_fmap_id.
  - rewrite Hps. by apply strings_declared.
  - rewrite <- list_fmap_compose. done.
  - done.
Qed.
Lemma base_ok ref path b : b <> "" -> b <> "/" -> sub_name ref = b -> sub_name path = b -> named_by ref path b.
Proof. intros H1 H2 <- H3. split; [done|]. split; apply sub_name_iff; done. Qed.
Lemma media_files_of : files_of (exported W0) (a_structNames media_args) (a_fieldNames media_args) false false false false "pkg"
    (fun ref => if has_prefix "/" ref then in_s ref else f_rel media_files "media.json" ref)
    (fun text text' => fmt_same text = Some text') media_loaded (inst_of media_doc) (in_s "media.json") media_wanted.
Proof.
  pose (w k := nth k media_wanted (Wanted "" "" "" [] "")).
  assert (Hh : forall k ks, let x := w k in let schema := loaded_or (load_schema media_files (w_name x) true 3 (w_path x)) in
    load_schema media_files (w_name x) true 3 (w_path x) = Some (Ok schema) ->
    n_items schema = None -> default [] (n_props schema) = map (fun k => (k, typed "string" [])) ks -> n_required schema = [] -> NoDup ks -> Forall field_name ks ->
    NoDup (map (exported W0) ks) -> w_text x = media_text (w_name x) (w_embeds x) ks ->
    has_text (exported W0) (a_structNames media_args) (a_fieldNames media_args) false false false false "pkg" (fun text text' => fmt_same text = Some text') media_loaded x).
  { intros k ks x schema Hl. eapply media_has, Hl. }
  assert (H0 := Hh 0 ["id"]). assert (H1 := Hh 1 ["title"; "id"]). assert (H2 := Hh 2 ["src"]). assert (H3 := Hh 3 ["length"]). clear Hh. cbn zeta in *.
  change media_wanted with ([w 0; w 1] ++ [w 2; w 3]).
  apply files_own; [left; by vm_compute|..].
  - change (map n_ref (n_allOf (inst_of media_doc)) ++ [in_s "media.json"]) with ["base.json"; "/s/media.json"].
    constructor; [|constructor; [|constructor]]; (split_and!; [by vm_compute|by apply base_ok; vm_compute|by vm_compute|by vm_compute|]).
    + apply H0; try (by vm_compute); [nodup|repeat (apply Forall_cons; split; [fname|]); by apply Forall_nil|nodup].
    + apply H1; try (by vm_compute); [nodup|repeat (apply Forall_cons; split; [fname|]); by apply Forall_nil|nodup].
  - change (map n_ref (n_oneOf (inst_of media_doc))) with ["image.json"; "sub/clip.json"].
    constructor; [|constructor; [|constructor]]; (split_and!; [by vm_compute|by apply base_ok; vm_compute|by vm_compute|by vm_compute|]).
    + apply H2; try (by vm_compute); [nodup|repeat (apply Forall_cons; split; [fname|]); by apply Forall_nil|nodup].
    + apply H3; try (by vm_compute); [nodup|repeat (apply Forall_cons; split; [fname|]); by apply Forall_nil|nodup].
Qed.

(** ** refutations *)
(** two members with the same name in different directories *)
Definition same_doc : tree := TObj [("oneOf", TArr [ref_to "a/item.json" []; ref_to "b/item.json" []])].
Definition same_files : files := files_in [("/s/same.json", same_doc); ("/s/a/item.json", text_field "x"); ("/s/b/item.json", text_field "y")].
(** a member that is not a reference *)
Definition inline_doc : tree := TObj [("properties", TObj [("a", typed "string" [])]); ("allOf", TArr [text_field "b"])].
(** a member without properties of its own *)
Definition empty_doc : tree := TObj [("properties", TObj [("a", typed "string" [])]); ("oneOf", TArr [ref_to "none.json" []])].
Definition empty_files : files := files_in [("/s/empty.json", empty_doc); ("/s/none.json", typed "object" [])].

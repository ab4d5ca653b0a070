(** Schemas for the examples and refutations of PropsWhole. *)
From stdpp Require Import strings list gmap.
From Coq Require Import Ascii ZArith.
From Verif Require Import GoStr Val Conv Schema Inst Load FlatL SpecPath SpecLoad SpecGen SpecNamed SpecFiles WalkL Gen GenP World Cases CaseGen CaseLoad Files CaseFiles Gql Avro GoSrc Mapper.
From Verif Require Import CaseMapper CaseGo SpecAvro SpecGo SpecEmbed SpecWhole WholeL Whole.

(** a schema with one allOf and two oneOf members *)
Definition shelf_doc : tree := TObj [("allOf", TArr [ref_to "base.json" []]); ("oneOf", TArr [ref_to "image.json" []; ref_to "sub/clip.json" []])].
Definition shelf_files : files :=
  files_in [("/s/shelf.json", shelf_doc); ("/s/base.json", text_field "id"); ("/s/image.json", text_field "src"); ("/s/sub/clip.json", text_field "length")].
Definition shelf_wanted : list wanted :=
  [Wanted "/s/base.json" "base" "Base" [] (media_text "Base" [] ["id"]);
   Wanted "/s/image.json" "image" "image" ["Base"] (media_text "image" ["Base"] ["src"]);
   Wanted "/s/sub/clip.json" "clip" "Video" ["Base"] (media_text "Video" ["Base"] ["length"])].
Definition opt_string : texpr := EStar (EIdent "UnionNullString").
(** the structs that gogen-avro makes *)
Definition shelf_avro : string -> option texpr :=
  pkg_of [("Media", meta ++ [fd "Id" opt_string; fd "Title" opt_string]); ("Base", meta ++ [fd "Id" opt_string]); ("Image", meta ++ [fd "Id" opt_string; fd "Src" opt_string]);
          ("Video", meta ++ [fd "Id" opt_string; fd "Length" opt_string]); ("Item", meta ++ [fd "X" opt_string]); ("ITEM", meta ++ [fd "Y" opt_string]); ("Core", meta ++ [fd "Id" opt_string]); union "UnionNullString" "String" str].
Definition gogen (p t : string) : option dir := Some [(p +:+ ".go", t)].
Definition msgp (_ : dir) : option (option (string * string * string)) := Some (Some ("pkg", "package pkg", "package pkg")).
Definition whole_args (A : args) (graphql avro msgp : bool) : run_args := RunArgs (GArgs A no_names "x/y" false false) graphql avro msgp.
Notation run_with F A := (run W0 F in_s fmt_same id id id no_unquote (fun _ => "") id gogen (fun _ => shelf_avro) (join "/") msgp A "pkg" order_same keys_same 3 20 same_order as_is).
Definition nothing : disk := Disk [] [] [].
(** the names of the files, those for GraphQL, the Avro packages, the outcome *)
Definition brief (x : option (disk * res unit)) : option (list string * list string * list string * res unit) :=
  (fun p : disk * res unit => ((d_out p.1).*1, (d_gql p.1).*1, (d_avro p.1).*1, p.2)) <$> x.
Definition file_in (f : string) (x : option (disk * res unit)) : string := default "" (p ← x; assocd f (d_out p.1)).
Definition outcome (x : option (disk * res unit)) : option (res unit) := snd <$> x.

Notation shelf_loaded := (fun path ty schema => load_schema shelf_files ty true 3 path = Some (Ok schema)).
Definition texts (ks : list string) : list gdecl := map (fun k => GDecl "" (exported W0 k) k false (Some TString)) ks.
Definition shelf_fields (w : wanted) : list gdecl := texts (if decide (w_base w = "base") then ["id"] else if decide (w_base w = "image") then ["src"] else ["length"]).
Lemma shelf_made w : w ∈ shelf_wanted ->
  made_as (exported W0) (a_structNames media_args) (a_fieldNames media_args) false false false w_embeds shelf_fields "pkg" (fun text text' => fmt_same text = Some text') shelf_loaded w.
Proof.
  pose (ks := fun w => if decide (w_base w = "base") then ["id"] else if decide (w_base w = "image") then ["src"] else ["length"]).
  intros Hw. assert (H : exists schema, load_schema shelf_files (w_name w) true 3 (w_path w) = Some (Ok schema) /\ n_items schema = None /\
    default [] (n_props schema) = map (fun k => (k, typed "string" [])) (ks w) /\ n_required schema = [] /\ Forall field_name (ks w) /\ w_text w = media_text (w_name w) (w_embeds w) (ks w)).
  { unfold shelf_wanted in Hw. repeat (apply elem_of_cons in Hw as [->|Hw]; [eexists; split_and!; [vm_compute; reflexivity|vm_compute; reflexivity|vm_compute; reflexivity|vm_compute; reflexivity|
      lazymatch goal with |- Forall _ ?l => let l' := eval vm_compute in l in change (Forall field_name l') end; repeat (apply Forall_cons; split; [fname|]); by apply Forall_nil|vm_compute; reflexivity]|]). by apply elem_of_nil in Hw. }
  destruct H as (schema & Hl & Hi & Hp & Hr & Hf & Ht). assert (Hn : exists k, ks w = [k]) by (unfold ks; repeat case_decide; eauto). destruct Hn as [k Hk].
  exists schema. split_and!; [done| |by rewrite Ht]. rewrite Hk in *. split_and!.
  - done.
  - rewrite Hp. cbn. constructor; [apply not_elem_of_nil|constructor].
  - rewrite Hp. change (shelf_fields w) with (texts (ks w)). rewrite Hk. by apply strings_declared.
  - change (shelf_fields w) with (texts (ks w)). rewrite Hk. cbn. constructor; [apply not_elem_of_nil|constructor].
  - exists []. by rewrite app_nil_r.
Qed.
Lemma made_has w : made_as (exported W0) (a_structNames media_args) (a_fieldNames media_args) false false false w_embeds shelf_fields "pkg" (fun text text' => fmt_same text = Some text') shelf_loaded w ->
  has_text (exported W0) (a_structNames media_args) (a_fieldNames media_args) false false false false "pkg" (fun text text' => fmt_same text = Some text') shelf_loaded w.
Proof.
  intros (schema & Hl & (H1 & H2 & H3 & H4 & es & H5 & H6) & Hf). rewrite H6 in Hf at 1. eexists schema, _. split_and!; [done| |exact Hf]. by eapply text_nested.
Qed.
Lemma shelf_files_of : files_of (exported W0) (a_structNames media_args) (a_fieldNames media_args) false false false false "pkg"
    (fun ref => if has_prefix "/" ref then in_s ref else f_rel shelf_files "shelf.json" ref)
    (fun text text' => fmt_same text = Some text') shelf_loaded (inst_of shelf_doc) (in_s "shelf.json") shelf_wanted.
Proof.
  pose proof (fun w Hw => made_has w (shelf_made w Hw)) as Hm. pose (w k := nth k shelf_wanted (Wanted "" "" "" [] "")).
  change shelf_wanted with ([w 0] ++ [w 1; w 2]). apply files_none.
  - intros [H|[H _]]; [by apply H|by vm_compute in H].
  - change (map n_ref (n_allOf (inst_of shelf_doc))) with ["base.json"].
    constructor; [|constructor]; (split_and!; [by vm_compute|by apply base_ok; vm_compute|by vm_compute|by vm_compute|apply Hm; left]).
  - change (map n_ref (n_oneOf (inst_of shelf_doc))) with ["image.json"; "sub/clip.json"].
    constructor; [|constructor; [|constructor]]; (split_and!; [by vm_compute|by apply base_ok; vm_compute|by vm_compute|by vm_compute|apply Hm]); [right; left|right; right; left].
Qed.
Definition text_doc (ns : list string) (k : string) : doc := field_doc ns k "" (or_null (DStr "string")) false.
Lemma image_avro : avro_struct false (structs_in (exported W0) (go_lower W0) false w_embeds shelf_fields [nth 0 shelf_wanted (Wanted "" "" "" [] "")]) [] []
    ["Base"] (by_name (texts ["src"])) [text_doc ["Base"] "id"; text_doc [] "src"] ["Base"].
Proof.
  eapply (struct_embeds _ _ [] [] "Base" [] _ [] (texts ["id"]) [_] [_] [] []); [vm_compute; reflexivity| |done|].
  - apply struct_own; [|intros g; vm_compute; intros [= <-]; intros [[=]|[]%elem_of_nil]%elem_of_cons].
    change (avro_fields false [] ["Base"] [GDecl "" "Id" "id" false (Some TString)] [text_doc ["Base"] "id"]).
    apply (avro_field false [] ["Base"] "" "Id" "id" false TString (DStr "string")); [apply avro_string|apply avro_nil].
  - apply struct_own; [|intros g _; apply not_elem_of_nil].
    change (avro_fields false [] [] [GDecl "" "Src" "src" false (Some TString)] [text_doc [] "src"]).
    apply (avro_field false [] [] "" "Src" "src" false TString (DStr "string")); [apply avro_string|apply avro_nil].
Qed.

(** ** refutations *)
(** a file in a directory below; references are relative to the directory of the file *)
Definition below_files : files := Files (fun p => assocd p [("/s/sub/item.json", text_field "x")]) (fun _ => None) (fun _ => true) (fun p r => in_s (if has_prefix "sub/" p then "sub/" +:+ r else r)).
(** a member that is missing *)
Definition broken_files : files := files_in [("/s/shelf.json", shelf_doc); ("/s/base.json", text_field "id"); ("/s/image.json", text_field "src")].
(** members whose names differ in letters only *)
Definition letters_files : files := files_in [("/s/two.json", TObj [("oneOf", TArr [ref_to "item.json" []; ref_to "ITEM.json" []])]); ("/s/item.json", text_field "x"); ("/s/ITEM.json", text_field "y")].
(** a renamed member of allOf *)
Definition core_args : args := Args false false false false (fun k => if decide (k = "base") then Some "Core" else None) no_names.

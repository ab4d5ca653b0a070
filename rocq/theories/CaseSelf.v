From stdpp Require Import strings list gmap.
From Verif Require Import GoStr Val Schema Inst Load SpecRef SpecSelf SelfL Cases CaseLoad.
From Verif Require Den.

(** a tree has a forest, which has trees *)
Definition tree_doc : list (string * tree) :=
  [("type", jstr "object"); ("properties", TObj [("root", ref_to "#/definitions/tree" [])]);
   ("definitions", TObj
     [("tree", TObj [("type", jstr "object"); ("properties", TObj [("name", typed "string" []); ("children", ref_to "#/definitions/forest" [])])]);
      ("forest", TObj [("type", jstr "array"); ("items", ref_to "#/definitions/tree" [("description", jstr "a child")])])])].
Definition tree_file : files := Files (fun p => if decide (p = "/s/tree.json") then Some (TObj tree_doc) else None) (fun _ => None) (fun _ => true) (fun _ r => "/s/" +:+ r).
Lemma tree_endless : endless_references tree_file "/s/tree.json" (TObj tree_doc).
Proof.
  exists (fun r τ => (r = "#/definitions/tree" /\ τ = ["definitions"; "tree"]) \/ (r = "#/definitions/forest" /\ τ = ["definitions"; "forest"])).
  exists (fun k => k = "properties" \/ k = "items"). split; [by intros [|]|]. split; [do 2 eexists; by left|].
  intros r τ [[-> ->]|[-> ->]]; (split; [split; [split; [done|repeat constructor; by vm_compute]|by left]|]).
  - eexists ["properties"; "children"], _, _, [("$ref", jstr "#/definitions/forest")]. split; [right; split; reflexivity|].
    split; [do 4 (eapply reach_member; [reflexivity|]); constructor|]. split; [done|]. split; [by left|]. by intros k [->| ->].
  - eexists ["items"], _, _, [("$ref", jstr "#/definitions/tree"); ("description", jstr "a child")]. split; [left; split; reflexivity|].
    split; [do 3 (eapply reach_member; [reflexivity|]); constructor|]. split; [done|]. split; [by right|]. by intros k [->| ->].
Qed.
Lemma tree_distinct : Den.distinct_keys (TObj tree_doc).
Proof. apply distinctb_ok. by vm_compute. Qed.
Lemma tree_alone ty fl n q i : load_schema tree_file ty fl n q <> Some (Ok i).
Proof.
  revert q i. induction n as [|n IH]; intros q i Hl; [done|]. destruct (decide (q = "/s/tree.json")) as [->|N].
  - cbn [load_schema] in Hl. change (f_file tree_file "/s/tree.json") with (Some (TObj tree_doc)) in Hl. cbn [negb f_valid tree_file] in Hl.
    destruct (dereference tree_file (load_schema tree_file ty fl n) "/s/tree.json" (S n) (TObj tree_doc)) as [[d| |]|] eqn:E; try done.
    eapply (endless_never tree_file _ "/s/tree.json" tree_doc); [exact tree_distinct| |exact tree_endless|exact E].
    split; [intros q i' H; by apply IH in H|done].
  - cbn [load_schema f_file tree_file] in Hl. by rewrite decide_False in Hl.
Qed.
Lemma tree_sound ty fl n : sound_sources tree_file (load_schema tree_file ty fl n).
Proof. split; [intros q i H; by apply tree_alone in H|done]. Qed.

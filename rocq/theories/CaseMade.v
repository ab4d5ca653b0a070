(** Schemas made of others, for the examples of PropsMade. *)
From stdpp Require Import strings list gmap.
From Coq Require Import Ascii ZArith.
From Verif Require Import GoStr Val Conv Schema Inst Load SpecPath SpecLoad SpecConv SpecGen SpecNamed SpecGql SpecDoc SpecMade WalkL Gen Gql GenP World Cases CaseGen CaseNamed CaseGql.

Definition site_base : instance := from_file "./base.json" [("id", typed "string" []); ("home", home_schema)] ["id"].
Definition site_extra : instance := from_file "./extra.json" [("place", home_schema)] [].
Definition site_page : instance := from_file "./page.json" [("body", typed "string" [])] ["body"].
Definition site : instance := made_of [site_base] [site_page].
Definition wide : instance := made_of [site_base; site_extra] [site_page].
Notation cs_of s := (common_parts title0 no_names no_names true (trim_space no_text) lower0 no_names s).
Notation os_of s := (member_parts title0 no_names no_names true (trim_space no_text) lower0 no_names s).
Notation own_of s := (own_part title0 no_names no_names true (trim_space no_text) lower0 no_names "site" s).
Lemma site_declared : doc_parts title0 lower0 no_names no_names no_names true (trim_space no_text) "site" site (cs_of site) (os_of site) (own_of site).
Proof. apply doc_found. vm_compute. reflexivity. Qed.
Lemma wide_declared : doc_parts title0 lower0 no_names no_names no_names true (trim_space no_text) "site" wide (cs_of wide) (os_of wide) (own_of wide).
Proof. apply doc_found. vm_compute. reflexivity. Qed.

Definition go_base : made := ([GDecl "" "Id" "id" true (Some TString); GDecl "" "Home" "home" false (Some (TPtr (TNamed "BaseHome")))], [("BaseHome", [street])]).
Definition go_extra : made := ([GDecl "" "Place" "place" false (Some (TPtr (TNamed "ExtraPlace")))], [("ExtraPlace", [street])]).
Definition go_page : made := ([GDecl "" "Body" "body" true (Some TString)], []).
Notation makes m g := (ndeclares_all title0 no_names true (title0 (go_struct title0 no_names (file_of m))) (n_required m) (default [] (n_props m)) g.1 g.2).
Ltac text_value := n_value (typed "string" []) TString (@nil (string * list gdecl)); n_base (typed "string" []) "string" TString.
Ltac home_value P := n_value home_schema (TPtr (TNamed P)) [(P, [street])];
  n_object home_schema [("street", typed "string" [])] street (@nil gdecl) (@nil (string * list gdecl));
  refine (nall_cons _ _ _ _ _ "street" (typed "string" []) _ _ _ [] [] _ _); [text_value|constructor].
Lemma base_made : makes site_base go_base.
Proof.
  refine (nall_cons _ _ _ _ _ "id" (typed "string" []) _ _ _ [] _ _ _); [text_value|].
  refine (nall_cons _ _ _ _ _ "home" home_schema _ _ _ [("BaseHome", [street])] [] _ _); [home_value "BaseHome"|constructor].
Qed.
Lemma extra_made : makes site_extra go_extra.
Proof. refine (nall_cons _ _ _ _ _ "place" home_schema _ _ _ [("ExtraPlace", [street])] [] _ _); [home_value "ExtraPlace"|constructor]. Qed.
Lemma page_made : makes site_page go_page.
Proof. refine (nall_cons _ _ _ _ _ "body" (typed "string" []) _ _ _ [] [] _ _); [text_value|constructor]. Qed.

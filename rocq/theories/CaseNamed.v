(** Schemas for the examples and refutations of PropsNamed. *)
From stdpp Require Import strings list gmap.
From Coq Require Import Ascii ZArith.
From Verif Require Import GoStr Val Conv Schema Inst Load SpecPath SpecLoad SpecConv SpecGen SpecNamed WalkL Gen GenP World Cases CaseGen.

Ltac n_value r ty Ss := refine (ndeclares_value _ _ _ _ _ _ r (inst_of r) ty Ss _ _ _); [vm_compute; reflexivity|fname|].
Ltac n_array r x ty Ss := refine (ndeclares_array _ _ _ _ _ _ r (inst_of r) x ty Ss _ _ _ _ _); [vm_compute; reflexivity|onet|fname|vm_compute; reflexivity|].
Ltac n_base r t b := refine (nholds_base _ _ _ _ _ _ _ r (inst_of r) t b _ _ _); [vm_compute; reflexivity|onet|vm_compute; reflexivity].
Ltac n_time r := refine (nholds_time _ _ _ _ _ _ _ r (inst_of r) _ _ _); [vm_compute; reflexivity|onet|vm_compute; reflexivity].
Ltac n_object r ps d ds Ss := refine (nholds_object _ _ _ _ _ _ _ r (inst_of r) ps d ds Ss _ _ _ _ _ _); [vm_compute; reflexivity|onet|vm_compute; reflexivity| |nodup|nodup].

(** with pointers and without nesting *)
Definition named_args : args := Args false true true false no_names (fun k => if decide (k = "name") then Some "FullName" else None).
Definition home_schema : tree := obj_of [("street", typed "string" [])] [].
Definition pet : list (string * tree) := [("id", typed "integer" []); ("home", home_schema)].
Definition pet_schema : tree := obj_of pet ["id"].
Definition named_props : list (string * tree) :=
  [("name", typed "string" [("description", jstr "The name")]);
   ("born", typed "string" [("format", jstr "date-time")]);
   ("pets", arr_schema pet_schema []);
   ("more", obj_of [] []);
   ("query", typed "graphql-hydration" [])].
Definition named_req : list string := ["name"; "pets"; "more"].
Definition street : gdecl := GDecl "" "Street" "street" false (Some TString).
Definition pet_id : gdecl := GDecl "" "Id" "id" true (Some TInt).
Definition pet_home : gdecl := GDecl "" "Home" "home" false (Some (TPtr (TNamed "RootPetsHome"))).
Definition named_decls : list gdecl :=
  [GDecl "The name" "FullName" "name" true (Some TString);
   GDecl "" "Born" "born" false (Some (TPtr TTime));
   GDecl "" "Pets" "pets" true (Some (TSlice (TNamed "RootPets")));
   GDecl "" "More" "more" true (Some TMap)].
Definition named_structs : gstructs :=
  [("RootPets", [pet_home; pet_id]); ("RootPetsHome", [street]); ("RootMore", [])].
Notation nall P := (ndeclares_all (exported W0) (a_fieldNames named_args) (a_pointers named_args) P).
Lemma named_declared : nall (exported W0 "root") named_req named_props named_decls named_structs.
Proof.
  set (r1 := typed "string" [("description", jstr "The name")]). set (r2 := typed "string" [("format", jstr "date-time")]).
  refine (nall_cons _ _ _ _ _ "name" r1 _ _ _ [] _ _ _). { n_value r1 TString (@nil (string * list gdecl)). n_base r1 "string" TString. }
  refine (nall_cons _ _ _ _ _ "born" r2 _ _ _ [] _ _ _). { n_value r2 (TPtr TTime) (@nil (string * list gdecl)). n_time r2. }
  set (r3 := arr_schema pet_schema []).
  refine (nall_cons _ _ _ _ _ "pets" r3 _ _ _ [("RootPets", [pet_home; pet_id]); ("RootPetsHome", [street])] [("RootMore", [])] _ _).
  { n_array r3 pet_schema (TNamed "RootPets") [("RootPets", [pet_home; pet_id]); ("RootPetsHome", [street])].
    n_object pet_schema pet pet_id [pet_home] [("RootPetsHome", [street])].
    refine (nall_cons _ _ _ _ _ "id" (typed "integer" []) _ _ _ [] _ _ _). { n_value (typed "integer" []) TInt (@nil (string * list gdecl)). n_base (typed "integer" []) "integer" TInt. }
    refine (nall_cons _ _ _ _ _ "home" home_schema _ _ _ [("RootPetsHome", [street])] [] _ _); [|constructor].
    n_value home_schema (TPtr (TNamed "RootPetsHome")) [("RootPetsHome", [street])].
    n_object home_schema [("street", typed "string" [])] street (@nil gdecl) (@nil (string * list gdecl)).
    refine (nall_cons _ _ _ _ _ "street" (typed "string" []) _ _ _ [] [] _ _); [|constructor]. n_value (typed "string" []) TString (@nil (string * list gdecl)). n_base (typed "string" []) "string" TString. }
  set (r4 := obj_of [] []).
  refine (nall_cons _ _ _ _ _ "more" r4 _ _ _ [("RootMore", [])] [] _ _).
  { n_value r4 TMap [("RootMore", @nil gdecl)].
    refine (nholds_map _ _ _ _ _ true false r4 (inst_of r4) [] [] _ _ _ _ _ _); [vm_compute; reflexivity|onet|vm_compute; reflexivity|constructor|constructor|vm_compute; reflexivity]. }
  set (r5 := typed "graphql-hydration" []).
  refine (nall_hydrated _ _ _ _ _ "query" r5 (inst_of r5) [] [] [] _ _ _ _); [vm_compute; reflexivity| |fname|constructor].
  split_and!; [refine (bool_decide_eq_true_1 _ _)|refine (bool_decide_eq_false_1 _ _)..]; vm_compute; reflexivity.
Qed.

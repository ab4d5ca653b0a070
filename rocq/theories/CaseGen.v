(** Schemas for the examples and refutations of PropsGen. *)
From stdpp Require Import strings list gmap.
From Coq Require Import Ascii ZArith.
From Verif Require Import GoStr Val Conv Schema Inst Load SpecPath SpecLoad SpecGen WalkL Gen GenP World Cases.

Definition no_names (_ : string) : option string := None.
Definition plain_args : args := Args false false false false no_names no_names.
Definition flat_args : args := Args false true false false no_names no_names.
Definition types_schema (tys : list string) (more : list (string * tree)) : tree := TObj (("type", TArr (map jstr tys)) :: more).
Definition obj_of (ps : list (string * tree)) (req : list string) : tree :=
  typed "object" [("properties", TObj ps); ("required", TArr (map jstr req))].
Definition schema_of (ps : list (string * tree)) (req : list string) : instance :=
  Inst true [] [] "" None false "" "" [] None [] (Some ps) "" req "" "" (Some ["object"]).

(** a schema with most kinds of properties *)
Definition gen_props : list (string * tree) :=
  [("name", typed "string" [("description", jstr "The name")]);
   ("born", types_schema ["string"; "null"] [("format", jstr "date-time")]);
   ("pets", arr_schema (obj_of [("id", typed "integer" []); ("age", typed "number" [])] ["id"]) []);
   ("more", obj_of [] []);
   ("query", typed "graphql-hydration" [])].
Definition gen_decls : list gdecl :=
  [GDecl "The name" "FullName" "name" true (Some TString);
   GDecl "" "Born" "born" false (Some (TPtr TTime));
   GDecl "" "Pets" "pets" false (Some (TSlice (TStruct [GDecl "" "Age" "age" false (Some TFloat); GDecl "" "Id" "id" true (Some TInt)])));
   GDecl "" "More" "more" false (Some TMap)].
Definition gen_args : args := Args false false false false no_names (fun k => if decide (k = "name") then Some "FullName" else None).
Lemma fname k : bool_decide (str_in "." k = false) && bool_decide (str_in "[" k = false) && bool_decide (k <> "") && bool_decide (k <> "$") = true -> field_name k.
Proof. rewrite !andb_true_iff, !bool_decide_eq_true. intros [[[H1 H2] H3] H4]. by split. Qed.
Ltac fname := apply fname; vm_compute; reflexivity.
Ltac onet := split; [vm_compute; reflexivity|done].
Ltac d_value r ty := refine (declares_value _ _ _ _ _ r (inst_of r) ty _ _ _); [vm_compute; reflexivity|fname|].
Ltac d_array r x ty := refine (declares_array _ _ _ _ _ r (inst_of r) x ty _ _ _ _ _); [vm_compute; reflexivity|onet|fname|vm_compute; reflexivity|].
Ltac h_base r t b := refine (holds_base _ _ _ _ _ r (inst_of r) t b _ _ _); [vm_compute; reflexivity|onet|vm_compute; reflexivity].
Ltac h_time r := refine (holds_time _ _ _ _ _ r (inst_of r) _ _ _); [vm_compute; reflexivity|onet|vm_compute; reflexivity].
Ltac nodup := refine (bool_decide_eq_true_1 (NoDup _) _); vm_compute; reflexivity.
Ltac named_ok := split; [nodup|repeat (apply Forall_cons_2; [done|]); apply Forall_nil_2].
Ltac h_object r ps ds := refine (holds_object _ _ _ _ _ r (inst_of r) ps ds _ _ _ _ _ _); [vm_compute; reflexivity|onet|vm_compute; reflexivity| |nodup|nodup].
Definition pet_props : list (string * tree) := [("id", typed "integer" []); ("age", typed "number" [])].
Lemma pet_declared : declares_all (exported W0) (a_fieldNames gen_args) false ["id"] pet_props [GDecl "" "Id" "id" true (Some TInt); GDecl "" "Age" "age" false (Some TFloat)].
Proof.
  apply (all_cons _ _ _ _ "id" (typed "integer" []) (GDecl "" "Id" "id" true (Some TInt))).
  { d_value (typed "integer" []) TInt. h_base (typed "integer" []) "integer" TInt. }
  apply (all_cons _ _ _ _ "age" (typed "number" []) (GDecl "" "Age" "age" false (Some TFloat))); [|constructor].
  d_value (typed "number" []) TFloat. h_base (typed "number" []) "number" TFloat.
Qed.
Lemma gen_declared : declares_all (exported W0) (a_fieldNames gen_args) false ["name"] gen_props gen_decls.
Proof.
  set (r1 := typed "string" [("description", jstr "The name")]). set (r2 := types_schema ["string"; "null"] [("format", jstr "date-time")]).
  apply (all_cons _ _ _ _ "name" r1 (GDecl "The name" "FullName" "name" true (Some TString))).
  { d_value r1 TString. h_base r1 "string" TString. }
  apply (all_cons _ _ _ _ "born" r2 (GDecl "" "Born" "born" false (Some (TPtr TTime)))).
  { d_value r2 (TPtr TTime). h_time r2. }
  set (o := obj_of pet_props ["id"]). set (r3 := arr_schema o []).
  apply (all_cons _ _ _ _ "pets" r3 (GDecl "" "Pets" "pets" false (Some (TSlice (TStruct [GDecl "" "Age" "age" false (Some TFloat); GDecl "" "Id" "id" true (Some TInt)]))))).
  { d_array r3 o (TStruct [GDecl "" "Age" "age" false (Some TFloat); GDecl "" "Id" "id" true (Some TInt)]).
    h_object o pet_props [GDecl "" "Id" "id" true (Some TInt); GDecl "" "Age" "age" false (Some TFloat)]. apply pet_declared. }
  set (r4 := obj_of [] []).
  apply (all_cons _ _ _ _ "more" r4 (GDecl "" "More" "more" false (Some TMap))).
  { d_value r4 TMap. refine (holds_object _ _ _ false false r4 (inst_of r4) [] [] _ _ _ _ _ _); [vm_compute; reflexivity|onet|vm_compute; reflexivity|constructor..]. }
  set (r5 := typed "graphql-hydration" []).
  refine (all_hydrated _ _ _ _ "query" r5 (inst_of r5) [] [] _ _ _ _); [vm_compute; reflexivity| |fname|constructor].
  split_and!; [refine (bool_decide_eq_true_1 _ _)|refine (bool_decide_eq_false_1 _ _)..]; vm_compute; reflexivity.
Qed.
Definition same_order (_ : string) (l : list string) : list string := l.
Definition other_order (_ : string) (l : list string) : list string := List.rev l.
Definition as_is (_ : list string) (l : list string) : list string := l.
Definition backwards (_ : list string) (l : list string) : list string := List.rev l.
Lemma as_is_order : key_order as_is. Proof. intros loc ks. reflexivity. Qed.
Lemma same_map_order : map_order same_order. Proof. intros p l. reflexivity. Qed.
Lemma other_map_order : map_order other_order. Proof. intros p l. unfold other_order. by rewrite <- Permutation_rev. Qed.
Lemma backwards_order : key_order backwards. Proof. intros loc ks. unfold backwards. by rewrite <- Permutation_rev. Qed.
(** the text of the file, or "" *)
Definition text_of (A : args) (ord : string -> list string -> list string) (ord' : list string -> list string -> list string) (schema : instance) : string :=
  match new_file W0 A ord schema "root" [] with Ok g => file_text W0 A ord' "pkg" g | _ => "" end.

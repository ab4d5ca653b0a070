(** C61: exactly when the interface that types implement is declared. Vocabulary: SpecDoc.v. *)
From stdpp Require Import strings list gmap.
From Coq Require Import Ascii ZArith.
From Verif Require Import GoStr Val Conv Schema Inst Load SpecGen SpecNamed SpecGql Gen Gql GqlE World Cases CaseGen CaseNamed CaseGql SpecDoc FaceL.

(** C61. If no member of oneOf has a oneOf itself, a type that is said to implement an interface has an interface of that name, whose fields it
    has with types that fit, exactly if the schema and the package give the same type name. *)
Theorem C61_exactly W A name pkg file schema cs os own kind impl J :
  Forall (fun m => n_oneOf m = []) (n_oneOf schema) ->
  (kind, impl, J) ∈ doc_types (exported W) (go_lower W) (a_structNames (ga A)) (ga_types A) name pkg file schema cs os own -> impl <> "" ->
  (exists i I, ("interface", i, I) ∈ doc_types (exported W) (go_lower W) (a_structNames (ga A)) (ga_types A) name pkg file schema cs os own /\
    qs_name I = impl /\ conforms J I) <->
  default (exported W name) (ga_types A name) = default (exported W pkg) (ga_types A pkg).
Proof. exact (interface_there W A name pkg file schema cs os own kind impl J). Qed.
Print Assumptions C61_exactly.
Example C61_exactly_case : Forall (fun m => n_oneOf m = []) (n_oneOf item_schema) /\
  exists J, ("type", "Item", J) ∈ doc_types (exported W0) (go_lower W0) no_names no_names "item" "content" "item" item_schema item_cs item_os item_own.
Proof.
  split; [repeat constructor|]. set (l := doc_types _ _ _ _ _ _ _ _ _ _ _). vm_compute in l. eexists. unfold l. do 3 right. left.
Qed.

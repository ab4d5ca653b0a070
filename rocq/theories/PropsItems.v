(** C19: arrays anywhere in a schema. *)
From stdpp Require Import strings list gmap.
From Verif Require Import GoStr Val Conv Instr Heap Schema Build Api SpecPath Den Param Top SpecSchema SpecProj SpecRun SpecTrans World Cases SpecItems ItemsL.

(** C19. For a schema whose arrays, wherever they are, have items that use relative paths only, there are functions from items to results such that each
    array of the result is made of the results of its items, in order, without those that are null; it is absent if there are none. *)
Theorem C19_nested_arrays_partial W (HW : jpath_parametric W) E (HE : unmarshals E) tid props items sc :
  shaped W tid props items sc -> relative_items sc ->
  exists f, by_items sc f /\ forall i s perm raw doc,
  state W E FJson tid props items i s -> orders perm -> e_json E raw = Some doc -> small doc ->
  outcome W (f doc (Some doc)) (transform_no_validation W E perm FJson i raw s).2.
Proof. exact (all_items W HW E HE tid props items sc). Qed.
Print Assumptions C19_nested_arrays_partial.
Definition line_item : tree := obj_schema [("n", typed "string" [])] [].
Definition order_item : tree := obj_schema [("id", typed "string" [from_paths "first" ["@.key"]]); ("lines", arr_schema line_item [])] [].
Definition order_props : list (string * tree) := [("orders", arr_schema order_item []); ("shop", typed "string" [from_paths "first" ["$.where"]])].
Definition line_sch : sch := Rec [("n", Leaf "string" (TS SNil) None)].
Definition order_sch : sch := Rec [("id", Leaf "string" (TS SNil) (Some (MFirst, "", [(Rel [Nm "key"], [])]))); ("lines", Lst line_sch)].
Definition shop_sch : sch := Rec [("orders", Lst order_sch); ("shop", Leaf "string" (TS SNil) (Some (MFirst, "", [(Abs [Nm "where"], [])])))].
Definition order_doc : tree :=
  TObj [("where", jstr "here"); ("orders", TArr [TObj [("key", jstr "1"); ("lines", TArr [TObj []; TObj [("n", jstr "a")]])]; TObj []; TObj [("key", jstr "2"); ("lines", TArr [])]])].
Example C19_nested_arrays_case : shaped W0 "t" (Some order_props) None shop_sch /\ relative_items shop_sch /\
  session W0 (env_of [("in", order_doc)] [] true) id_perm FJson (Some order_props) None ["in"] =
    [Ok (canon (TObj [("orders", TArr [TObj [("id", jstr "1"); ("lines", TArr [TObj [("n", jstr "a")]])]; TObj [("id", jstr "2")]]); ("shop", jstr "here")]))].
Proof.
  split_and!; [| |vm_compute; reflexivity].
  - split_and!; [refine (bool_decide_eq_true_1 (NoDup _) _); by vm_compute|by repeat constructor|]. constructor; [|constructor; [|constructor]].
    + eapply (shape_lst W0 "t" _ false); try done. eapply (shape_rec W0 "t" _ false); try done; [refine (bool_decide_eq_true_1 (NoDup _) _); by vm_compute|by repeat constructor|].
      constructor; [|constructor; [|constructor]].
      * apply (shape_leaf W0 "t" (typed "string" [from_paths "first" ["@.key"]]) "string" false "string" (Some (MFirst, "", [(Rel [Nm "key"], [])]))); try done.
        eexists _, [Instr "@.key" "" []]. split_and!; [reflexivity|done|vm_compute; reflexivity| |done]. constructor; [|constructor]. split_and!; [done..|]. by repeat constructor.
      * eapply (shape_lst W0 "t" _ false); try done. eapply (shape_rec W0 "t" _ false); try done; [refine (bool_decide_eq_true_1 (NoDup _) _); by vm_compute|by repeat constructor|].
        constructor; [|constructor]. apply (shape_leaf W0 "t" (typed "string" []) "string" false "string" None); done.
    + apply (shape_leaf W0 "t" (typed "string" [from_paths "first" ["$.where"]]) "string" false "string" (Some (MFirst, "", [(Abs [Nm "where"], [])]))); try done.
      eexists _, [Instr "$.where" "" []]. split_and!; [reflexivity|done|vm_compute; reflexivity| |done]. constructor; [|constructor]. split_and!; [done..|]. by repeat constructor.
  - cbn. split_and!; try done. repeat constructor. by eexists.
Qed.

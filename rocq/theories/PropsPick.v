(** C21: what an array field iterates over, for every value its transform selects. Vocabulary: SpecPick.v. *)
From stdpp Require Import strings list gmap.
From Coq Require Import ZArith.
From Verif Require Import GoStr Val Conv Instr Heap Build Api World SpecPick PickL Index Cases.

(** C21. For every value [v] that an array's transform (one entry without operations) selects, the items iterated over are those that [v]
    delivers; if it delivers nothing, the array is evaluated as if it had no transform. *)
Theorem C21_delivered W path dflt t input m s ins v k r : ti_meth t = MFirst -> froms s !! ti_id t = Some [ins] -> i_ops ins = [] ->
  jget W (view (hp s)) (apply_mod m (i_jpath ins)) input = Some (GV v) -> delivers (hp s) k v r -> k < o_stack W ->
  match r with
  | Some l => exists s' sl, Heap.base_json W FJson path dflt (Some t) input m s = (s', Ok (sl, true)) /\ take sl.2 (harr (hp s') sl.1) = l
  | None => Heap.base_json W FJson path dflt (Some t) input m s = Heap.base_json W FJson path dflt None input m s
  end.
Proof. exact (array_delivers W path dflt t input m s ins v k r). Qed.
Print Assumptions C21_delivered.
(** Every value that denotes a document delivers something. *)
Theorem C21_delivered_total f h v t : reify f h v = Some t -> exists k r, delivers h k v r /\ k < f.
Proof. exact (delivers_exists f h v t). Qed.
Print Assumptions C21_delivered_total.
(** So the items of the selected array are delivered exactly if it has at least two, or a single one that is neither null nor an array
    (for a field without default, and documents that are not nested deeper than the stack allows). *)
Theorem C21_exact W path t input m s ins v f tr : ti_meth t = MFirst -> froms s !! ti_id t = Some [ins] -> i_ops ins = [] ->
  jget W (view (hp s)) (apply_mod m (i_jpath ins)) input = Some (GV v) -> is_array v -> reify f (hp s) v = Some tr -> f <= o_stack W ->
  (exists s' sl, Heap.base_json W FJson path None (Some t) input m s = (s', Ok (sl, true)) /\ take sl.2 (harr (hp s') sl.1) = items_of (hp s) v) <->
  2 <= length (items_of (hp s) v) \/ exists x, items_of (hp s) v = [x] /\ x <> VS SNil /\ ~ is_array x.
Proof. exact (array_exact W path t input m s ins v f tr). Qed.
Print Assumptions C21_exact.
(** The array [[[1, 2], 3]] has the single item [[1, 2], 3], whose first item [1, 2] delivers 1 and 2. *)
Definition nest : heap := {[0 := CMap {["a" := VArr (Some 1) 1]}; 1 := CArr [VArr (Some 2) 2]; 2 := CArr [VArr (Some 3) 2; VS (SStr "3")];
  3 := CArr [VS (SStr "1"); VS (SStr "2")]]}.
Definition nest_st : st := St nest 4 {[0 := [Instr "$.a" "" []]]} 0.
Example C21_delivered_case :
  jget W0 (view (hp nest_st)) (apply_mod [] "$.a") (VMap 0) = Some (GV (VArr (Some 1) 1)) /\
  delivers nest 1 (VArr (Some 1) 1) (Some [VS (SStr "1"); VS (SStr "2")]) /\ 1 < o_stack W0 /\ is_Some (reify 4 nest (VArr (Some 1) 1)) /\ 4 <= o_stack W0 /\
  session W0 (env_of [("in", TObj [("src", TArr [TArr [TArr [jnum 1; jnum 2]; jnum 3]])])] [] true) id_perm FJson
    (Some [("a", arr_schema (typed "number" []) [from_paths "first" ["$.src"]])]) None ["in"] = [Ok (TObj [("a", TArr [jnum 1; jnum 2])])].
Proof.
  split; [vm_compute; reflexivity|]. split.
  { eapply delivers_first; [by do 2 eexists|vm_compute; reflexivity|by do 2 eexists|vm_compute; reflexivity|].
    apply (delivers_many nest (VArr (Some 3) 2)); [by do 2 eexists|]. vm_compute. lia. }
  split; [vm_compute; lia|]. split; [vm_compute; eauto|]. split; [vm_compute; lia|]. vm_compute. reflexivity.
Qed.

(** The properties of transformers: C06, C07, C13 to C26, C55. *)
From stdpp Require Import strings list gmap.
From Coq Require Import ZArith.
From Verif Require Import GoStr Val Conv Instr Heap Schema Build Api World SpecPath Den Param Top SpecSchema SpecProj SpecRun SpecTrans SpecSave SpecOut Index Cases.
From Verif Require Import ProjL OutL RunL TransL InstL ItemL SaveL AcceptL IndexL.

(** C06. Evaluating a scalar instance, in any state: if its transform fails so does the instance, ... *)
Theorem C06_transform_error W perm f q jt d ts input m s s1 :
  (run_opt_tis W f ts input jt m s = (s1, Err) -> exec W perm f (IScal q jt d ts) input m s = (s1, Err)) /\
  (run_opt_tis W f ts input jt m s = (s1, Panic) -> exec W perm f (IScal q jt d ts) input m s = (s1, Panic)).
Proof. exact (scal_fail W perm f q jt d ts input m s s1). Qed.
Print Assumptions C06_transform_error.
(** ... a non-null value of the transform is the value, for JSON and XML, ... *)
Theorem C06_transform_wins W perm f q jt d ts input m s s1 v :
  run_opt_tis W f ts input jt m s = (s1, Ok v) -> v <> VS SNil ->
  exec W perm f (IScal q jt d ts) input m s = (s1, Ok v).
Proof. exact (scal_transformed W perm f q jt d ts input m s s1 v). Qed.
Print Assumptions C06_transform_wins.
(** ... else, for JSON, the converted value at the own path, or the default if that is null, ... *)
Theorem C06_own_value W perm q jt d ts input m s s1 g nv e :
  run_opt_tis W FJson ts input jt m s = (s1, Ok (VS SNil)) ->
  jget W (view (hp s1)) (apply_mod m q) input = Some g -> convert W (view (hp s1)) jt g = Some (nv, e) ->
  exec W perm FJson (IScal q jt d ts) input m s =
    if is_nil (view (hp s1)) nv then (s1, Ok d) else if e then (s1, Err) else inject nv s1.
Proof. exact (scal_json_present W perm q jt d ts input m s s1 g nv e). Qed.
Print Assumptions C06_own_value.
(** ... or the default if there is nothing at the own path; ... *)
Theorem C06_default_json W perm q jt d ts input m s s1 :
  run_opt_tis W FJson ts input jt m s = (s1, Ok (VS SNil)) ->
  jget W (view (hp s1)) (apply_mod m q) input = None ->
  exec W perm FJson (IScal q jt d ts) input m s = (s1, Ok d).
Proof. exact (scal_json_absent W perm q jt d ts input m s s1). Qed.
Print Assumptions C06_default_json.
(** ... for XML the default follows directly. *)
Theorem C06_default_xml W perm q jt d ts input m s s1 :
  run_opt_tis W FXml ts input jt m s = (s1, Ok (VS SNil)) ->
  exec W perm FXml (IScal q jt d ts) input m s = (s1, Ok d).
Proof. exact (scal_xml_default W perm q jt d ts input m s s1). Qed.
Print Assumptions C06_default_xml.
(** a schema whose property x has a transform, an own value and a default: all stages *)
Definition staged : list (string * tree) :=
  [("x", typed "string" [from_paths "first" ["@.t"]; ("default", jstr "d")])].
Example C06_case :
  session W0 (env_of [("1", TObj [("t", jstr "T"); ("x", jstr "X")]); ("2", TObj [("x", jstr "X")]); ("3", TObj [])] [] true)
    id_perm FJson (Some staged) None ["1"; "2"; "3"]
  = [Ok (TObj [("x", jstr "T")]); Ok (TObj [("x", jstr "X")]); Ok (TObj [("x", jstr "d")])].
Proof. vm_compute. reflexivity. Qed.

(** C07. If the own value cannot be converted the instance gets its default, except that a boolean
    instance fails if the value is an unparsable string (convert then returns false with the error). *)
Theorem C07_failed_conversion_partial W perm q jt d ts input m s s1 g nv :
  run_opt_tis W FJson ts input jt m s = (s1, Ok (VS SNil)) ->
  jget W (view (hp s1)) (apply_mod m q) input = Some g -> convert W (view (hp s1)) jt g = Some (nv, true) ->
  exec W perm FJson (IScal q jt d ts) input m s = (s1, Ok d) \/
  (jt = "boolean" /\ nv = GS (SBool false) /\ exec W perm FJson (IScal q jt d ts) input m s = (s1, Err)).
Proof. exact (scal_conversion_failed W perm q jt d ts input m s s1 g nv). Qed.
Print Assumptions C07_failed_conversion_partial.
Example C07_case :
  session W0 (env_of [("1", TObj [("x", jstr "many")])] [] true) id_perm FJson
    (Some [("x", typed "number" [("default", jnum 7)])]) None ["1"]
  = [Ok (TObj [("x", jnum 7)])].
Proof. vm_compute. reflexivity. Qed.
(** A boolean property with default true and the input value "maybe": Transform fails. *)
Theorem C07_failed_conversion_refuted : exists props doc,
  session W0 (env_of [("in", doc)] [] true) id_perm FJson (Some props) None ["in"] = [Err] /\
  props = [("x", typed "boolean" [("default", TS (SBool true))])] /\ doc = TObj [("x", jstr "maybe")].
Proof. eexists _, _. split; [|split; reflexivity]. vm_compute. reflexivity. Qed.
Print Assumptions C07_failed_conversion_refuted.

(** C13. In the transformer built for a schema, the instructions of an instance are the entries of its
    transform section, with a leading `@` replaced by the path the instance is anchored at. *)
Theorem C13_relative_paths_anchored W tid props items s i σ r k a me delim is : well_named props items ->
  new_transformer W tid props items st0 = (s, Ok i) ->
  sinst (default [] props) items σ r -> kind_of r k -> anchor k σ a -> transform_section W tid r me delim is ->
  exists n t is', node_at i σ = Some n /\ node_ts n = Some t /\ ti_meth t = me /\ ti_delim t = delim /\
    froms s !! ti_id t = Some is' /\ Forall2 (anchored_entry (path_of a)) is is'.
Proof. exact (fun Hw Hn => built_section W tid props items Hw s i Hn σ r k a me delim is). Qed.
Print Assumptions C13_relative_paths_anchored.
(** members are anchored at their object, scalar items at themselves *)
Example C13_case : exists s i,
  new_transformer W0 "t" (Some [("a", arr_schema (typed "string" [from_paths "first" ["@.x"]]) []);
                                ("b", obj_schema [("c", typed "string" [from_paths "first" ["@[0]"; "$.y"]])] [])]) None st0 = (s, Ok i) /\
  read_paths s i [Nm "a"; Star] = ["$.a[*].x"] /\ read_paths s i [Nm "b"; Nm "c"] = ["$.b[0]"; "$.y"].
Proof. do 2 eexists. split; [vm_compute; reflexivity|]. split; vm_compute; reflexivity. Qed.
(** The items of a root array of objects have no anchor: `@.x` becomes `.x`, which selects nothing. *)
Theorem C13_root_array_object_items_refuted : exists s i,
  new_transformer W0 "t" None (Some (obj_schema [("c", typed "string" [])] [from_paths "first" ["@.x"]])) st0 = (s, Ok i) /\
  read_paths s i [Star] = [".x"].
Proof. do 2 eexists. split; [vm_compute; reflexivity|]. vm_compute. reflexivity. Qed.
Print Assumptions C13_root_array_object_items_refuted.

(** C14. If, with modifier [m], the instance at schema location [σ] is being produced for the input
    location [ρ], then every path below the instance's path is read at [ρ]; ... *)
Theorem C14_paths_of_nested_items m σ ρ τ : nested m σ ρ -> apply_mod m (path_of σ +:+ τ) = path_of ρ +:+ τ.
Proof. exact (nested_paths m σ ρ τ). Qed.
Print Assumptions C14_paths_of_nested_items.
(** ... and an array of the input evaluates its item instance once per item, for item [i] with the
    modifier of the nested location. *)
Theorem C14_items_of_arrays W perm q c input m s l n :
  jget W (view (hp s)) (apply_mod m q) input = Some (GV (VArr l n)) ->
  exec W perm FJson (IArr q None None (Some c)) input m s =
  Heap.mbind (items n 0 (fun i => exec W perm FJson c input (item_mod m q i))) (new_array n) s.
Proof. exact (arr_json_items W perm q c input m s l n). Qed.
Print Assumptions C14_items_of_arrays.
Example C14_case : exists m, nested m [Nm "a"; Star; Star; Nm "b"; Star] [Nm "a"; Ix 3; Ix 0; Nm "b"; Ix 12] /\
  apply_mod m "$.a[*][*].b[*].c" = "$.a[3][0].b[12].c".
Proof.
  eexists. split.
  - eapply (nested_item _ [Nm "a"; Star; Star; Nm "b"] [Nm "a"; Ix 3; Ix 0; Nm "b"] 12).
    eapply (nested_member _ [Nm "a"; Star; Star] [Nm "a"; Ix 3; Ix 0] "b").
    eapply (nested_item _ [Nm "a"; Star] [Nm "a"; Ix 3] 0). eapply (nested_item _ [Nm "a"] [Nm "a"] 3).
    eapply (nested_member _ [] [] "a"). apply nested_root.
  - vm_compute. reflexivity.
Qed.
Example C14_matrix : 
  session W0 (env_of [("in", TObj [("a", TArr [TArr [TObj [("x", jnum 1)]; TObj [("x", jnum 2)]]; TArr [TObj [("x", jnum 3)]]])])] [] true)
    id_perm FJson (Some [("a", arr_schema (arr_schema (obj_schema [("v", typed "number" [from_paths "first" ["@.x"]])] []) []) [])]) None ["in"]
  = [Ok (TObj [("a", TArr [TArr [TObj [("v", jnum 1)]; TObj [("v", jnum 2)]]; TArr [TObj [("v", jnum 3)]]])])].
Proof. vm_compute. reflexivity. Qed.

(** C15. Saving a non-null value at a path of member names: either a value that is neither null nor a map
    is in the way, then saving fails and changes nothing; or afterwards the path reads back as the value,
    nothing but members on the path changed and missing maps were created. *)
Theorem C15_save_at_names_partial W ks v s l : ks <> [] -> Forall plain_name ks -> Forall (fun k => k <> "$") (tail ks) ->
  v <> VS SNil -> tree_like s l ks ->
  let r := save_in_tree W l (path_of (Nm <$> ks)) v s in
  (blocked (hp s) l ks -> r.2 = Err /\ hp r.1 = hp s) /\
  (~ blocked (hp s) l ks -> r.2 = Ok tt /\ at_names (hp r.1) l ks = Some v /\ changed_along (hp s) (hp r.1) l ks).
Proof. exact (save_names_thm W ks v s l). Qed.
Print Assumptions C15_save_at_names_partial.
(** Saving at an index of an array member (or of a missing member): the array is extended with nulls if it
    is too short, the item is set and no other item, member or map changes. (A map saved over a map is
    merged with it; that case is excluded here.) *)
Theorem C15_save_at_index_partial W l k i v s m old : ok_st s -> hp s !! l = Some (CMap m) -> plain_name k ->
  items_at (hp s) l k = Some old -> (Z.of_nat i < 2 ^ 63)%Z -> v <> VS SNil ->
  (forall l1, v = VMap l1 -> forall l2, old !! i <> Some (VMap l2)) ->
  let r := save_in_tree W l (path_of [Nm k; Ix i]) v s in
  r.2 = Ok tt /\
  items_at (hp r.1) l k = Some (<[i := v]> (old ++ replicate (S i - length old) (VS SNil))) /\
  (forall k', k' <> k -> hmap (hp r.1) l !! k' = m !! k') /\
  (forall l0 c, hp s !! l0 = Some c -> l0 <> l -> Some l0 <> backing (hp s) l k -> hp r.1 !! l0 = Some c).
Proof. exact (save_item_thm W l k i v s m old). Qed.
Print Assumptions C15_save_at_index_partial.
Definition heap1 : st := St {[0%nat := CMap {["a" := VMap 1]}; 1%nat := CMap {["b" := VS (SStr "old")]}]} 2 ∅ 0.
Example C15_case : tree_like heap1 0 ["a"; "c"; "d"] /\ ~ blocked (hp heap1) 0 ["a"; "c"; "d"] /\
  blocked (hp heap1) 0 ["a"; "b"; "d"].
Proof.
  split_and!.
  - split_and!.
    + refine (bool_decide_eq_true_1 (NoDup _) _). vm_compute. done.
    + intros l0 Hl0. assert (visited (hp heap1) 0 ["a"; "c"; "d"] = [0; 1]) as E by (vm_compute; reflexivity). rewrite E in Hl0.
      apply elem_of_cons in Hl0 as [->|Hl0]; [by eexists|]. apply elem_of_list_singleton in Hl0 as ->. by eexists.
    + intros l0 [c Hc]. cbn. destruct l0 as [|[|l0]]; [lia|lia|]. cbn in Hc.
      rewrite lookup_insert_ne in Hc by done. rewrite lookup_singleton_ne in Hc by done. done.
  - intros (js & k & rest & l0 & w & He & Hr & Ha & Hw & H1 & H2).
    destruct js as [|j1 js]; cbn in He; injection He as <- He.
    { subst. vm_compute in Ha. injection Ha as <-. vm_compute in Hw. injection Hw as <-. by eapply H2. }
    destruct js as [|j2 js]; cbn in He; injection He as <- He.
    { subst. vm_compute in Ha. injection Ha as <-. vm_compute in Hw. done. }
    destruct js as [|j3 js]; cbn in He; injection He as <- He; [by subst|]. by destruct js.
  - exists ["a"], "b", ["d"], 1%nat, (VS (SStr "old")). done.
Qed.
Example C15_index_case : items_at (hp heap1) 0 "z" = Some [] /\
  items_at (hp (save_in_tree W0 0 "$.z[1]" (VS (SStr "v")) heap1).1) 0 "z" = Some [VS SNil; VS (SStr "v")].
Proof. split; vm_compute; reflexivity. Qed.
(** Saving at an index of a member that holds null, or an object, crashes, ... *)
Theorem C15_save_never_crashes_refuted : exists s l,
  hp s !! l = Some (CMap {["a" := VS SNil]}) /\ (save_in_tree W0 l "$.a[0]" (VS (SStr "v")) s).2 = Panic.
Proof. exists (St {[0%nat := CMap {["a" := VS SNil]}]} 1 ∅ 0), 0. split; [done|]. vm_compute. reflexivity. Qed.
Print Assumptions C15_save_never_crashes_refuted.
(** ... and so does the Transform of {"a": {}} for an array of objects with an array member that has a default. *)
Definition crashing : list (string * tree) :=
  [("a", arr_schema (obj_schema [("b", arr_schema (typed "string" []) [("default", TArr [jstr "d"])])] []) [])].
Theorem C23_save_crash_refuted :
  session W0 (env_of [("in", TObj [("a", TObj [])])] [] true) id_perm FJson (Some crashing) None ["in"] = [Panic].
Proof. vm_compute. reflexivity. Qed.
Print Assumptions C23_save_crash_refuted.

(** C16. The output for a schema whose objects and arrays have neither transforms nor defaults is its
    projection of the input document, whatever was transformed before and in whatever order maps are
    iterated; ... *)
Theorem C16_projection W (HW : jpath_parametric W) E (HE : unmarshals E) tid props items sc i s perm raw doc :
  shaped W tid props items sc -> state W E FJson tid props items i s -> orders perm ->
  e_json E raw = Some doc -> small doc ->
  outcome W (project W doc sc (Some doc) (Some doc)) (transform_no_validation W E perm FJson i raw s).2.
Proof. exact (shaped_transform W HW E HE tid props items sc i s perm raw doc). Qed.
Print Assumptions C16_projection.
(** ... without any transforms and defaults, and if the document's values have the schema's types, it is
    exactly the part of the document that the schema mentions. *)
Theorem C16_selection W (HW : jpath_parametric W) E (HE : unmarshals E) tid props items sc i s perm raw doc :
  depth doc <= o_stack W -> shaped W tid props items sc -> untransformed sc ->
  state W E FJson tid props items i s -> orders perm ->
  e_json E raw = Some doc -> small doc -> SpecOut.writable doc -> SpecProj.fits sc doc ->
  (transform_no_validation W E perm FJson i raw s).2 = Ok (canon (pick sc doc)).
Proof. intros H1 H2 H3 H4 H5 H6 H7 H8. exact (shaped_pick W HW E HE tid props items sc i s perm raw doc H1 H2 H3 H4 H5 H6 H7 (proj2 (OutL.tree_ok_iff doc) H8)). Qed.
Print Assumptions C16_selection.
Example C16_case : shaped W0 "t" (Some sample_props) None sample_sch /\ unmarshals sample_env /\
  (exists i s, state W0 sample_env FJson "t" (Some sample_props) None i s) /\
  project W0 sample_doc sample_sch (Some sample_doc) (Some sample_doc)
  = Some (TObj [("name", jstr "Ada"); ("tags", TArr [jstr "x"; jstr "y"]); ("age", jnum 36)]).
Proof. split; [apply sample_shaped|]. split; [apply sample_unmarshals|]. split; [apply sample_state|]. vm_compute. reflexivity. Qed.
Example C16_selection_case : shaped W0 "t" (Some plain_props) None plain_sch /\ untransformed plain_sch /\
  SpecProj.fits plain_sch sample_doc /\ pick plain_sch sample_doc = TObj [("name", jstr "Ada"); ("tags", TArr [jstr "x"; jstr "y"])].
Proof. split; [apply plain_shaped|]. split; [done|]. split; [|vm_compute; reflexivity]. vm_compute. tauto. Qed.

(** C17 and C18. For tame schemas two transformers built for the same schema, whatever the order of its
    properties, the calls they served before and the orders in which they iterate over maps, give the same
    answer to the same call. *)
Theorem C17_C18_same_answer_partial W (HW : jpath_parametric W) E (HE : unmarshals E) f tid props props' items i i' s s' perm perm' c :
  well_named props items -> tame W tid f props items -> option_Forall2 (≡ₚ) props props' ->
  well_named props' items -> tame W tid f props' items ->
  state W E f tid props items i s -> state W E f tid props' items i' s' -> orders perm -> orders perm' ->
  same (serve W E perm f i c s).2 (serve W E perm' f i' c s').2.
Proof. exact (same_results W HW E HE f tid props props' items i i' s s' perm perm' c). Qed.
Print Assumptions C17_C18_same_answer_partial.
Example C17_case : well_named (Some sample_props) None /\ tame W0 "t" FJson (Some sample_props) None.
Proof. exact (shaped_ok W0 "t" _ _ _ sample_shaped). Qed.
(** The property a has an array transform, which is saved into the input; the property b reads `$.a[0]`. *)
Definition entangled : list (string * tree) :=
  [("a", arr_schema (typed "string" []) [from_paths "first" ["$.src"]]); ("b", typed "string" [from_paths "first" ["$.a[0]"]])].
Theorem C17_deterministic_refuted : exists r1 r2,
  session W0 (env_of [("in", TObj [("src", TArr [jstr "x"; jstr "y"])])] [] true) id_perm FJson (Some entangled) None ["in"] = [Ok r1] /\
  session W0 (env_of [("in", TObj [("src", TArr [jstr "x"; jstr "y"])])] [] true) rev_perm FJson (Some entangled) None ["in"] = [Ok r2] /\
  r1 <> r2.
Proof. eexists _, _. split; [vm_compute; reflexivity|]. split; [vm_compute; reflexivity|]. discriminate. Qed.
Print Assumptions C17_deterministic_refuted.
(** The method `last` reverses its entries on every call. *)
Theorem C18_history_refuted : exists r1 r2,
  session W0 (env_of [("in", TObj [("p", jstr "1"); ("q", jstr "2")])] [] true) id_perm FJson
    (Some [("x", typed "string" [from_paths "last" ["@.p"; "@.q"]])]) None ["in"; "in"] = [Ok r1; Ok r2] /\ r1 <> r2.
Proof. eexists _, _. split; [vm_compute; reflexivity|]. discriminate. Qed.
Print Assumptions C18_history_refuted.

(** C19 and C20. For a root array whose item schema uses relative paths only, there is a function from
    items to results such that every input array gives the non-null results of its items, in order; null
    if there are none; and fails exactly if an item fails. *)
Theorem C19_C20_items_independent_partial W (HW : jpath_parametric W) E (HE : unmarshals E) tid it c :
  shaped W tid None (Some it) (Lst c) -> relative_only c ->
  exists out : tree -> option tree, forall i s perm raw l,
  state W E FJson tid None (Some it) i s -> orders perm -> e_json E raw = Some (TArr l) -> small (TArr l) ->
  outcome W (arr_of <$> all_of (out <$> l)) (transform_no_validation W E perm FJson i raw s).2.
Proof. exact (root_items W HW E HE tid it c). Qed.
Print Assumptions C19_C20_items_independent_partial.
Definition record_item : tree := obj_schema [("n", typed "string" [])] [].
Example C19_case : shaped W0 "t" None (Some record_item) (Lst (Rec [("n", Leaf "string" (TS SNil) None)])) /\
  session W0 (env_of [("in", TArr [TObj [("n", jstr "a")]; TObj []; TObj [("n", jstr "b")]])] [] true) id_perm FJson None (Some record_item) ["in"]
  = [Ok (TArr [TObj [("n", jstr "a")]; TObj [("n", jstr "b")]])].
Proof.
  split; [|vm_compute; reflexivity]. cbn. eapply (shape_rec W0 "t" _ false [("n", typed "string" [])]); try done.
  - refine (bool_decide_eq_true_1 (NoDup _) _). vm_compute. done.
  - by repeat constructor.
  - constructor; [|constructor]. apply (shape_leaf W0 "t" (typed "string" []) "string" false "string" None); done.
Qed.
(** The default of an object instance is one map that all items fill in: the second item of [{"n":"a"},{}]
    is {"n":"a"}, while the item {} alone gives no value. *)
Theorem C19_items_independent_refuted :
  let it := obj_schema [("n", typed "string" [])] [("default", TObj [])] in
  let E := env_of [("both", TArr [TObj [("n", jstr "a")]; TObj []]); ("alone", TArr [TObj []])] [] true in
  session W0 E id_perm FJson None (Some it) ["both"] = [Ok (TArr [TObj [("n", jstr "a")]; TObj [("n", jstr "a")]])] /\
  session W0 E id_perm FJson None (Some it) ["alone"] = [Ok (TS SNil)].
Proof. split; vm_compute; reflexivity. Qed.
Print Assumptions C19_items_independent_refuted.

(** C20. Any array instance without transform and default, in any state, on an input array of n items:
    it succeeds exactly if its n items, evaluated in order, do; the value is an array of the non-null ones
    in order, null if there are none; ... *)
Theorem C20_array_result W perm q c input m s l n s' v :
  jget W (view (hp s)) (apply_mod m q) input = Some (GV (VArr l n)) ->
  exec W perm FJson (IArr q None None (Some c)) input m s = (s', Ok v) ->
  exists vs s1, length vs = n /\ item_runs (fun i => exec W perm FJson c input (item_mod m q i)) 0 vs s s1 /\
    let out := filter (fun v => vnil v = false) vs in
    (out = [] /\ v = VS SNil \/
     out <> [] /\ exists a, v = VArr (Some a) (length out) /\ take (length out) (harr (hp s') (Some a)) = out).
Proof. exact (arr_json_ok W perm q c input m s l n s' v). Qed.
Print Assumptions C20_array_result.
Theorem C20_array_succeeds W perm q c input m s l n vs s1 :
  jget W (view (hp s)) (apply_mod m q) input = Some (GV (VArr l n)) -> length vs = n ->
  item_runs (fun i => exec W perm FJson c input (item_mod m q i)) 0 vs s s1 ->
  exists s' v, exec W perm FJson (IArr q None None (Some c)) input m s = (s', Ok v).
Proof. exact (arr_json_all_ok W perm q c input m s l n vs s1). Qed.
Print Assumptions C20_array_succeeds.
(** ... and it fails exactly if one of the items fails after those before it succeeded. *)
Theorem C20_array_fails W perm q c input m s l n s' :
  jget W (view (hp s)) (apply_mod m q) input = Some (GV (VArr l n)) ->
  exec W perm FJson (IArr q None None (Some c)) input m s = (s', Err) <->
  exists vs s1, length vs < n /\ item_runs (fun i => exec W perm FJson c input (item_mod m q i)) 0 vs s s1 /\
    exec W perm FJson c input (item_mod m q (length vs)) s1 = (s', Err).
Proof. exact (arr_json_err W perm q c input m s l n s'). Qed.
Print Assumptions C20_array_fails.
Definition heap2 : st := St {[0%nat := CMap {["a" := VArr (Some 1) 2]}; 1%nat := CArr [VS (SStr "x"); VS SNil]]} 2 ∅ 0.
Example C20_case : jget W0 (view (hp heap2)) (apply_mod [] "$.a") (VMap 0) = Some (GV (VArr (Some 1) 2)) /\
  (exec W0 id_perm FJson (IArr "$.a" None None (Some (IScal "$.a[*]" "string" (VS SNil) None))) (VMap 0) [] heap2).2 = Ok (VArr (Some 2) 1).
Proof. split; vm_compute; reflexivity. Qed.

(** C21. If an array instance's transform (one entry without operations) selects an array with at least
    two items, or with one item that is neither null nor an array, the items iterated over are its items. *)
Theorem C21_selected_array_partial W path dflt t input m s ins a n l : ti_meth t = MFirst -> froms s !! ti_id t = Some [ins] -> i_ops ins = [] ->
  0 < o_stack W -> jget W (view (hp s)) (apply_mod m (i_jpath ins)) input = Some (GV (VArr a n)) ->
  l = take n (harr (hp s) a) -> (2 <= length l \/ exists x, l = [x] /\ x <> VS SNil /\ forall a' n', x <> VArr a' n') ->
  exists s' sl, Heap.base_json W FJson path dflt (Some t) input m s = (s', Ok (sl, true)) /\ take sl.2 (harr (hp s') sl.1) = l.
Proof. exact (array_selected W path dflt t input m s ins a n l). Qed.
Print Assumptions C21_selected_array_partial.
Definition matrix : list (string * tree) :=
  [("a", arr_schema (arr_schema (typed "number" []) []) [from_paths "first" ["$.src"]])].
Example C21_case :
  session W0 (env_of [("in", TObj [("src", TArr [TArr [jnum 1; jnum 2]; TArr [jnum 3]])])] [] true) id_perm FJson (Some matrix) None ["in"]
  = [Ok (TObj [("a", TArr [TArr [jnum 1; jnum 2]; TArr [jnum 3]])])].
Proof. vm_compute. reflexivity. Qed.
(** The selected array [[1,2]] is taken for its first item's first item, 1, in which the inner array then
    finds nothing: the output is null. *)
Theorem C21_selected_array_refuted :
  session W0 (env_of [("in", TObj [("src", TArr [TArr [jnum 1; jnum 2]])])] [] true) id_perm FJson (Some matrix) None ["in"]
  = [Ok (TS SNil)].
Proof. vm_compute. reflexivity. Qed.
Print Assumptions C21_selected_array_refuted.

(** C22. Transform returns a document exactly if TransformNoValidation does and the validator accepts that
    document without errors; otherwise it returns no document. *)
Theorem C22_validated W E perm f i raw s doc :
  (transform W E perm f i raw s).2 = Ok doc <->
  (transform_no_validation W E perm f i raw s).2 = Ok doc /\ e_valid E doc = Some ([], true).
Proof. exact (transform_validated W E perm f i raw s doc). Qed.
Print Assumptions C22_validated.
Example C22_case : exists i s, new_transformer W0 "t" (Some sample_props) None st0 = (s, Ok i) /\
  (exists doc, (transform W0 sample_env id_perm FJson i "ada" s).2 = Ok doc) /\
  (transform W0 (env_of [("ada", sample_doc)] [] false) id_perm FJson i "ada" s).2 = Err.
Proof. do 2 eexists. split; [vm_compute; reflexivity|]. split; [eexists|]; vm_compute; reflexivity. Qed.

(** C23. For tame schemas without the operation `max`, Transform and TransformNoValidation do not crash on
    documents from which paths select nothing deeper than the stack. *)
Theorem C23_no_crash_partial W (HW : jpath_parametric W) E (HE : unmarshals E) tid props items i s perm c :
  well_named props items -> tame W tid FJson props items -> no_max W tid props items ->
  state W E FJson tid props items i s -> orders perm ->
  (forall doc, e_json E (raw_of c) = Some doc -> roomy W doc) ->
  (serve W E perm FJson i c s).2 <> Panic.
Proof. exact (serve_calm W HW E HE tid props items i s perm c). Qed.
Print Assumptions C23_no_crash_partial.
(** the last hypothesis holds for documents that are themselves less deep than the stack, if the JSONPath
    library selects nothing deeper *)
Theorem C23_shallow_documents W doc : depth doc <= o_stack W ->
  (forall path g, o_jpath W tree tview path doc = Some g -> depth (gtree g) <= o_stack W) -> roomy W doc.
Proof. exact (roomy_shallow W doc). Qed.
Print Assumptions C23_shallow_documents.
Example C23_case : well_named (Some sample_props) None /\ tame W0 "t" FJson (Some sample_props) None /\
  (forall doc, e_json sample_env (raw_of (Validated "ada")) = Some doc -> roomy W0 doc).
Proof.
  destruct (shaped_ok W0 "t" _ _ _ sample_shaped). split; [done|]. split; [done|].
  intros doc [= <-]. apply C23_shallow_documents; [|done]. apply (bool_decide_eq_true_1 (_ <= _)). vm_compute. reflexivity.
Qed.
(** `max` crashes on an empty array, such as what `split` makes of the empty string or the inner array of
    [[]] in a transform of an array *)
Definition max_section (path : string) (ops : list tree) : string * tree :=
  ("transform", TObj [("t", TObj [("from", TArr [TObj [("jsonPath", jstr path);
     ("operations", TArr (ops ++ [TObj [("type", jstr "max"); ("args", TObj [("by", jstr "@.n"); ("return", jstr "@.v")])]]))]])])]).
Definition splitting : tree := TObj [("type", jstr "split"); ("args", TObj [("on", jstr ",")])].
Theorem C23_no_crash_refuted :
  session W0 (env_of [("in", TObj [("l", jstr "")])] [] true) id_perm FJson
    (Some [("x", typed "string" [max_section "$.l" [splitting]])]) None ["in"] = [Panic] /\
  session W0 (env_of [("in", TObj [("l", TArr [TArr []])])] [] true) id_perm FJson
    (Some [("x", arr_schema (typed "string" []) [max_section "$.l" []])]) None ["in"] = [Panic].
Proof. split; vm_compute; reflexivity. Qed.
Print Assumptions C23_no_crash_refuted.

(** C24. A schema is accepted exactly if it has either properties or items and all its instances are
    buildable; this does not mention the order of properties. *)
Theorem C24_accepted W tid props items : well_named props items ->
  (exists s i, new_transformer W tid props items st0 = (s, Ok i)) <->
  (is_Some props /\ items = None \/ props = None /\ is_Some items) /\
  forall σ r, sinst (default [] props) items σ r -> buildable W tid r.
Proof. exact (accepted W tid props items). Qed.
Print Assumptions C24_accepted.
(** The transformer then has a node at every instance's location, with its path and of its kind, and at
    every location of a node (but the root) there is an instance. *)
Theorem C24_mirrors_schema W tid props items s i : well_named props items ->
  new_transformer W tid props items st0 = (s, Ok i) ->
  (forall σ r, sinst (default [] props) items σ r ->
     exists n, node_at i σ = Some n /\ it_path n = path_of σ /\ (forall k, kind_of r k <-> k = node_kind n)) /\
  (forall σ n, node_at i σ = Some n -> σ <> [] -> exists r, sinst (default [] props) items σ r).
Proof. exact (fun Hw Hn => built_nodes W tid props items Hw s i Hn). Qed.
Print Assumptions C24_mirrors_schema.
(** there is only one instance at a location *)
Theorem C24_one_instance_per_location props items σ r r' : well_named props items ->
  sinst (default [] props) items σ r -> sinst (default [] props) items σ r' -> r' = r.
Proof. exact (sinst_fun props items σ r r'). Qed.
Print Assumptions C24_one_instance_per_location.
(** schemas with neither or both are always rejected *)
Theorem C24_rejected W tid ps it s :
  (new_transformer W tid None None s).2 = Err /\ ((new_transformer W tid (Some ps) (Some it) s).2 = Err \/ (new_transformer W tid (Some ps) (Some it) s).2 = Panic).
Proof. exact (conj (neither_rejected W tid s) (both_rejected W tid ps it s)). Qed.
Print Assumptions C24_rejected.
Example C24_case : well_named (Some sample_props) None /\
  (exists s i, new_transformer W0 "t" (Some sample_props) None st0 = (s, Ok i)) /\
  (new_transformer W0 "t" (Some [("x", typed "array" [])]) None st0).2 = Err.
Proof.
  split; [apply (shaped_ok W0 "t" _ _ _ sample_shaped)|]. split; [|vm_compute; reflexivity].
  do 2 eexists. vm_compute. reflexivity.
Qed.

(** C25. An XML object whose transform has one entry without operations: if it selects no node the object
    is its default, or null, and nothing is evaluated; ... *)
Theorem C25_nothing_selected W perm q d cs m s n t ins : ti_meth t = MFirst -> froms s !! ti_id t = Some [ins] ->
  o_xfind W n (apply_mod m (i_xpath ins)) = Some [] ->
  exec W perm FXml (IObj q d (Some t) cs) (VNode n) m s = (s, Ok (match d with Some l => VMap l | None => VS SNil end)).
Proof. exact (xobj_none W perm q d cs m s n t ins). Qed.
Print Assumptions C25_nothing_selected.
(** ... if it selects nodes, unless it is a single element without child elements, the object is evaluated
    as one without transform relative to the first node; ... *)
Theorem C25_relative_partial W perm q d cs m s n t ins n0 ns wc nc : ti_meth t = MFirst -> froms s !! ti_id t = Some [ins] -> i_ops ins = [] ->
  o_xfind W n (apply_mod m (i_xpath ins)) = Some (n0 :: ns) ->
  o_xfind W n (apply_mod m (i_xpath ins) +:+ "[*]") = Some wc ->
  o_xfind W n (apply_mod m (i_xpath ins) +:+ "[not(*)]") = Some nc -> ~ (wc = [] /\ length nc = 1) ->
  exec W perm FXml (IObj q d (Some t) cs) (VNode n) m s = exec W perm FXml (IObj q d None cs) (VNode n0) m s.
Proof. exact (fun Hm Hf Ho => xobj_nodes W perm q d cs m s n t ins Hm Hf Ho n0 ns wc nc). Qed.
Print Assumptions C25_relative_partial.
(** ... and a single element without child elements is null if its text is empty, else an error. *)
Theorem C25_single_leaf W perm q d cs m s n t ins n0 ns n1 : ti_meth t = MFirst -> froms s !! ti_id t = Some [ins] -> i_ops ins = [] ->
  0 < o_stack W -> o_xfind W n (apply_mod m (i_xpath ins)) = Some (n0 :: ns) ->
  o_xfind W n (apply_mod m (i_xpath ins) +:+ "[*]") = Some [] ->
  o_xfind W n (apply_mod m (i_xpath ins) +:+ "[not(*)]") = Some [n1] ->
  exec W perm FXml (IObj q d (Some t) cs) (VNode n) m s = (s, if decide (o_text W n0 = "") then Ok (VS SNil) else Err).
Proof. exact (fun Hm Hf Ho => xobj_leaf W perm q d cs m s n t ins Hm Hf Ho n0 ns n1). Qed.
Print Assumptions C25_single_leaf.
Definition tagged : list (string * tree) :=
  [("o", obj_schema [("c", typed "string" [("default", jstr "present")])] [from_xpaths ["//tag"]]);
   ("p", obj_schema [("c", typed "string" [("default", jstr "present")])] [from_xpaths ["//none"]])].
Example C25_case :
  session W0 sample_env id_perm FXml (Some tagged) None ["xml"] = [Ok (TObj [("o", TObj [("c", jstr "present")])])].
Proof. vm_compute. reflexivity. Qed.
(** In W0 the path //name selects one element without child elements. *)
Theorem C25_relative_refuted :
  session W0 sample_env id_perm FXml
    (Some [("o", obj_schema [("c", typed "string" [("default", jstr "present")])] [from_xpaths ["//name"]])]) None ["xml"] = [Err].
Proof. vm_compute. reflexivity. Qed.
Print Assumptions C25_relative_refuted.

(** C26. If an XML path selects several nodes (not a single element without child elements), a string field
    gets their texts joined with single spaces, in order, and objects and arrays get the nodes; ... *)
Theorem C26_texts_joined W {V} (view : V -> vw V) ins input ft m n n0 ns wc nc :
  view input = WNode n -> o_xfind W n (apply_mod m (i_xpath ins)) = Some (n0 :: ns) ->
  o_xfind W n (apply_mod m (i_xpath ins) +:+ "[*]") = Some wc ->
  o_xfind W n (apply_mod m (i_xpath ins) +:+ "[not(*)]") = Some nc -> ~ (wc = [] /\ length nc = 1) ->
  (ft = "string" ->
     xml_instr W view ins input ft m = ops_run W view (i_ops ins) (GS (SStr (join " " (o_text W <$> n0 :: ns))))) /\
  (ft = "array" \/ ft = "object" -> xml_instr W view ins input ft m = ops_run W view (i_ops ins) (GN (n0 :: ns))).
Proof. exact (xml_several W view ins input ft m n n0 ns wc nc). Qed.
Print Assumptions C26_texts_joined.
(** ... the other types use the first node's text; if it does not convert, the nodes themselves. *)
Theorem C26_first_node W {V} (view : V -> vw V) ins input ft m n n0 ns wc nc v e :
  view input = WNode n -> o_xfind W n (apply_mod m (i_xpath ins)) = Some (n0 :: ns) ->
  o_xfind W n (apply_mod m (i_xpath ins) +:+ "[*]") = Some wc ->
  o_xfind W n (apply_mod m (i_xpath ins) +:+ "[not(*)]") = Some nc ->
  ~ (wc = [] /\ length nc = 1) -> ft <> "string" -> ft <> "array" -> ft <> "object" ->
  convert W view ft (GS (SStr (o_text W n0))) = Some (v, e) ->
  xml_instr W view ins input ft m =
    if e then ops_run W view (i_ops ins) (GN (n0 :: ns))
    else if is_nil view v then Ok (GS SNil) else ops_run W view (i_ops ins) v.
Proof. exact (xml_other W view ins input ft m n n0 ns wc nc v e). Qed.
Print Assumptions C26_first_node.
Example C26_case :
  session W0 sample_env id_perm FXml (Some [("x", typed "string" [from_xpaths ["//tag"]])]) None ["xml"] = [Ok (TObj [("x", jstr "one two")])].
Proof. vm_compute. reflexivity. Qed.

(** C55. Index normalisation undoes the substitution of indices into instance paths, ... *)
Theorem C55_undoes_substitution m σ ρ : Forall seg_ok σ -> Forall (fun x => forall i, x <> Ix i) σ -> nested m σ ρ ->
  replace_index (apply_mod m (path_of σ)) = path_of σ.
Proof. exact (index_undoes m σ ρ). Qed.
Print Assumptions C55_undoes_substitution.
(** ... is idempotent on all strings, ... *)
Theorem C55_idempotent s : replace_index (replace_index s) = replace_index s.
Proof. exact (replace_idem s). Qed.
Print Assumptions C55_idempotent.
(** ... replaces each `[digits]` and leaves the strings without one alone. *)
Theorem C55_replaces a d b : str_all is_digit d = true -> d <> "" ->
  replace_index (a +:+ "[" +:+ d +:+ "]" +:+ b) = replace_index a +:+ "[*]" +:+ replace_index b.
Proof. exact (replace_hit a d b). Qed.
Print Assumptions C55_replaces.
Theorem C55_keeps s : (forall a d b, str_all is_digit d = true -> d <> "" -> s <> a +:+ "[" +:+ d +:+ "]" +:+ b) -> replace_index s = s.
Proof. exact (replace_miss s). Qed.
Print Assumptions C55_keeps.
Example C55_case : replace_index "$.a[0].b.c[23][7].d[x]" = "$.a[*].b.c[*][*].d[x]".
Proof. vm_compute. reflexivity. Qed.

(** Properties of loading schemas: C30 to C34 and C37. *)
From stdpp Require Import strings list gmap.
From Coq Require Import Ascii ZArith.
From Verif Require Import GoStr GoStrL Val Schema Inst Load SpecLoad SpecRef SpecExp World Cases.
From Verif Require Den.
From Verif Require Import FlatL ExpT LoadL CaseLoad.

(** C30. Flattening merges the allOf members and the oneOf members whose file name is the requested type
    into the schema, in this order; everything else is kept; ... *)
Theorem C30_flattened ty i ones : ty <> "" -> ty <> "/" ->
  picks (fun m => file_name (n_fromRef m) ty) (n_oneOf i) ones ->
  absorbed i (n_allOf i ++ ones) (flatten true ty i) /\ same_rest i (flatten true ty i).
Proof. exact (flatten_absorbs ty i ones). Qed.
Print Assumptions C30_flattened.
(** ... without a requested type the oneOf members written in place are merged. *)
Theorem C30_no_type i ones :
  picks (fun m => n_fromRef m = "" \/ file_name (n_fromRef m) "") (n_oneOf i) ones ->
  absorbed i (n_allOf i ++ ones) (flatten true "" i) /\ same_rest i (flatten true "" i).
Proof. exact (flatten_untyped i ones). Qed.
Print Assumptions C30_no_type.
Definition member_of (ref : string) (ps : list (string * tree)) (req : list string) : instance :=
  Inst false [] [] "" None false "" ref [] None [] (Some ps) "" req "" "" None.
Definition merged_case : instance :=
  Inst true [member_of "x.json" [("a", typed "number" []); ("b", typed "string" [])] ["b"]] [] "top" None false "" "" [] None
       [member_of "dir/one.json" [("b", typed "number" []); ("c", typed "string" [])] ["c"]; member_of "dir/two.json" [("d", typed "string" [])] []]
       (Some [("a", typed "string" [])]) "" ["a"] "" "" None.
Example C30_case :
  picks (fun m => file_name (n_fromRef m) "one") (n_oneOf merged_case) [member_of "dir/one.json" [("b", typed "number" []); ("c", typed "string" [])] ["c"]] /\
  props_of (flatten true "one" merged_case) = [("a", typed "string" []); ("b", typed "string" []); ("c", typed "string" [])] /\
  n_required (flatten true "one" merged_case) = ["a"; "b"; "c"].
Proof.
  split; [|vm_compute; done]. apply picks_take; [|apply picks_skip; [|constructor]]; cbn [n_fromRef member_of].
  - apply sub_name_iff; [done|done|]. vm_compute. done.
  - intros H. apply sub_name_iff in H; [|done|done]. vm_compute in H. done.
Qed.

(** C31. Without flattening a schema with own properties only gets those of the selected oneOf members; ... *)
Theorem C31_own_properties ty i ones : ty <> "" -> ty <> "/" -> is_Some (n_props i) ->
  picks (fun m => file_name (n_fromRef m) ty) (n_oneOf i) ones ->
  absorbed i ones (flatten false ty i) /\ same_rest i (flatten false ty i).
Proof. exact (noflatten_own ty i ones). Qed.
Print Assumptions C31_own_properties.
(** ... one without own properties gets the properties of its first allOf member, ... *)
Theorem C31_first_member_partial ty i m l ones : ty <> "" -> ty <> "/" -> n_props i = None -> n_allOf i = m :: l ->
  picks (fun m => file_name (n_fromRef m) ty) (n_oneOf i) ones ->
  absorbed i (m :: ones) (flatten false ty i) /\ same_rest i (flatten false ty i).
Proof. exact (noflatten_first ty i m l ones). Qed.
Print Assumptions C31_first_member_partial.
(** ... but not those of the other allOf members. *)
Theorem C31_all_members_refuted : exists i m k, n_props i = None /\ m ∈ n_allOf i /\ is_Some (assoc k (props_of m)) /\
  assoc k (props_of (flatten false "t" i)) = None.
Proof.
  exists all_two, (with_props [("b", typed "string" [])]), "b". split; [done|]. split; [right; left|]. split; [by eexists|].
  vm_compute. done.
Qed.
Print Assumptions C31_all_members_refuted.
Example C31_case : props_of (flatten false "t" all_two) = [("a", typed "string" [])] /\
  props_of (flatten false "one" merged_case) = [("a", typed "string" []); ("b", typed "number" []); ("c", typed "string" [])].
Proof. vm_compute. done. Qed.

(** C32. No reference is left in a dereferenced document, nor in a loaded schema; ... *)
Theorem C32_no_reference F lf path n data d : dereference F lf path n data = Some (Ok d) -> forall π r, ~ ref_at d π r.
Proof. exact (deref_noref F lf path n data d). Qed.
Print Assumptions C32_no_reference.
Theorem C32_loaded_schema F ty fl n path i : load_schema F ty fl n path = Some (Ok i) -> forall π r, ~ ref_at (m_inst i) π r.
Proof. exact (load_noref F ty fl n path i). Qed.
Print Assumptions C32_loaded_schema.
(** ... but references in arrays of arrays, which the search does not reach, are left. *)
Theorem C32_nested_arrays_refuted : exists data d r, dereference no_files (fun _ => None) "/s/x.json" 1 data = Some (Ok d) /\
  pget ["p"; "[0]"; "[0]"; "$ref"] d = Some (TS (SStr r)).
Proof. exists deep_doc, deep_doc, "#/a". vm_compute. done. Qed.
Print Assumptions C32_nested_arrays_refuted.
Example C32_case : exists i, load_schema two_files "" true 4 "/s/top.json" = Some (Ok i) /\
  pget ["properties"; "p"; "properties"; "q"; "type"] (m_inst i) = Some (jstr "string").
Proof. eexists. split; [vm_compute; reflexivity|]. vm_compute. done. Qed.

(** C33. Replacing a reference below the top of a document, whose string members are written without
    escapes, leaves there the referenced object (with a fromRef member, see [refers]) with the members written
    beside $ref, and changes nothing elsewhere; ... *)
Theorem C33_replaced_partial F lf path data π o r T :
  Den.distinct_keys data -> reach data π o -> π <> [] -> assoc "$ref" o = Some (TS (SStr r)) -> plain (TObj o) -> refers F lf path data r T ->
  exists data' o', expand_ref F lf path (π ++ ["$ref"]) data = Some (Ok data') /\ pget π data' = Some (TObj o') /\
    (forall k, k <> "$ref" -> assoc k o' = over (assoc k o) (assoc k T)) /\
    assoc "$ref" o' = assoc "$ref" T /\
    (forall q, ~ (exists ρ, q = π ++ ρ) -> ~ (exists ρ, π = q ++ ρ) -> pget q data' = pget q data).
Proof. exact (replaced F lf path data π o r T). Qed.
Print Assumptions C33_replaced_partial.
(** ... so dereferencing a document without reference cycles, with strings written without escapes and no
    reference at the top, gives the document that [found] describes: at every path the value reached from the
    original by following references; ... *)
Theorem C33_meaning_partial F lf path rk K o0 n x :
  Den.distinct_keys (TObj o0) -> ranked F lf path (TObj o0) rk K -> plain (TObj o0) -> (forall r, ~ ref_at (TObj o0) [] r) ->
  (forall r T, K r -> refers F lf path (TObj o0) r T -> plain (TObj T)) ->
  dereference F lf path n (TObj o0) = Some x ->
  exists o, x = Ok (TObj o) /\ forall π h, found (refers F lf path (TObj o0)) o0 π h <-> found no_target o π h.
Proof. exact (deref_means F lf path rk K o0 n x). Qed.
Print Assumptions C33_meaning_partial.
(** ... a string beside $ref that needs escapes is changed, ... *)
Theorem C33_escapes_refuted : exists data k s s' d,
  reach data ["p"] [("$ref", jstr "#/a"); (k, TS (SStr s))] /\
  dereference no_files (fun _ => None) "/s/x.json" 2 data = Some (Ok d) /\
  pget ["p"; k] d = Some (TS (SStr s')) /\ s' <> s.
Proof.
  exists escape_doc, "description", quoted, (raw_text quoted). eexists. split; [|split; [vm_compute; reflexivity|split; [vm_compute; reflexivity|vm_compute; done]]].
  eapply reach_member; [vm_compute; reflexivity|constructor].
Qed.
Print Assumptions C33_escapes_refuted.
(** ... and a reference at the top is dropped. *)
Theorem C33_top_refuted : exists o T d, refers no_files (fun _ => None) "/s/x.json" (TObj o) "#/definitions/a" T /\
  assoc "$ref" o = Some (TS (SStr "#/definitions/a")) /\ assoc "type" o = None /\ assoc "type" T = Some (jstr "string") /\
  dereference no_files (fun _ => None) "/s/x.json" 2 (TObj o) = Some (Ok (TObj d)) /\ assoc "type" d = None.
Proof.
  exists root_doc, [("type", jstr "string"); ("fromRef", jstr "#/definitions/a")], [("definitions", TObj [("a", typed "string" [])])].
  split; [|vm_compute; done]. exists (TObj root_doc), ["definitions"; "a"], [("type", jstr "string")].
  split; [left; split; [|done]; split; [by apply simple_ok|by left]|]. vm_compute. done.
Qed.
Print Assumptions C33_top_refuted.
Example C33_case : Den.distinct_keys (TObj top_doc) /\ plain (TObj top_doc) /\ (forall r, ~ ref_at (TObj top_doc) [] r) /\
  ranked two_files (fun q => Ok <$> others !! q) "/s/top.json" (TObj top_doc) ref_rank known_refs /\
  (forall r T, known_refs r -> refers two_files (fun q => Ok <$> others !! q) "/s/top.json" (TObj top_doc) r T -> plain (TObj T)) /\
  (exists d, dereference two_files (fun q => Ok <$> others !! q) "/s/top.json" 3 (TObj top_doc) = Some (Ok d) /\
     pget ["properties"; "p"; "description"] d = Some (jstr "beside") /\
     pget ["properties"; "p"; "properties"; "q"; "fromRef"] d = Some (jstr "#/definitions/b") /\
     pget ["properties"; "l"; "items"; "type"] d = Some (jstr "number")).
Proof.
  split; [by apply distinctb_ok|]. split; [by apply plainb_ok|]. split; [intros r H%TermL.ref_obj_here; by vm_compute in H|]. split; [exact top_ranked|]. split.
  - intros r T Hr HT. apply refers_resolve in HT. unfold known_refs in Hr. rewrite !elem_of_cons, elem_of_nil in Hr.
    destruct Hr as [->|[->|[->|[]]]]; vm_compute in HT; injection HT as <-; by apply plainb_ok.
  - eexists. split; [vm_compute; reflexivity|]. vm_compute. done.
Qed.

(** C34. Dereferencing a document whose references form no cycle ends; ... *)
Theorem C34_document_partial F lf path rk K o0 : Den.distinct_keys (TObj o0) -> ranked F lf path (TObj o0) rk K ->
  exists n0 o, forall n, n0 <= n -> dereference F lf path n (TObj o0) = Some (Ok (TObj o)).
Proof. intros Hd Hr. destruct (deref_total F lf path rk K o0 Hd Hr) as (n0 & o & H & _). by exists n0, o. Qed.
Print Assumptions C34_document_partial.
(** ... so does loading a file whose references form no cycle and are to files that load; ... *)
Theorem C34_files_partial F ty fl (loaded : gmap string instance) path o rk K :
  (forall q j, loaded !! q = Some j -> exists n, load_schema F ty fl n q = Some (Ok j)) ->
  f_file F path = Some (TObj o) -> f_valid F path = true -> Den.distinct_keys (TObj o) ->
  ranked F (fun q => Ok <$> loaded !! q) path (TObj o) rk K ->
  exists n0 d, (forall π r, ~ ref_at d π r) /\
    forall n, n0 <= n -> load_schema F ty fl n path = Some (rbind (d_inst true d) (fun i => Ok (flatten fl ty i))).
Proof. exact (file_loads F ty fl loaded path o rk K). Qed.
Print Assumptions C34_files_partial.
(** ... a reference to itself is followed forever. *)
Theorem C34_terminates_refuted : exists data, forall F lf path n, dereference F lf path n data = None.
Proof. exists self_doc. exact self_never. Qed.
Print Assumptions C34_terminates_refuted.
Theorem C34_files_refuted : exists F path, forall ty fl n, load_schema F ty fl n path = None.
Proof. exists ring, "/s/a.json". intros ty fl n. exact (proj1 (ring_never ty fl n)). Qed.
Print Assumptions C34_files_refuted.
Example C34_case : (forall q j, others !! q = Some j -> exists n, load_schema two_files "" true n q = Some (Ok j)) /\
  f_file two_files "/s/top.json" = Some (TObj top_doc) /\
  ranked two_files (fun q => Ok <$> others !! q) "/s/top.json" (TObj top_doc) ref_rank known_refs.
Proof. split; [exact other_loads|]. split; [done|exact top_ranked]. Qed.

(** C37. Requests differing in file, type or flattening have different cache keys if the types contain no
    vertical bar, ... *)
Theorem C37_keys_partial p t f p' t' f' : free_of "|" t = true -> free_of "|" t' = true ->
  schema_key p t f = schema_key p' t' f' -> p = p' /\ t = t' /\ f = f'.
Proof. exact (key_inj p t f p' t' f'). Qed.
Print Assumptions C37_keys_partial.
(** ... but not in general. *)
Theorem C37_keys_refuted : exists p t p' t' f, schema_key p t f = schema_key p' t' f /\ p <> p' /\ t <> t'.
Proof. exists "/s/a|b", "c", "/s/a", "b|c", true. vm_compute. done. Qed.
Print Assumptions C37_keys_refuted.
Example C37_case : schema_key "/s/a|b.json" "image" true <> schema_key "/s/a" "b.json" false /\ free_of "|" "image" = true.
Proof. vm_compute. done. Qed.

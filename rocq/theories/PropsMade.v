(** C63 for schemas made of others. *)
From stdpp Require Import strings list gmap.
From Coq Require Import Ascii.
From Verif Require Import GoStr Val Conv Schema Inst Load SpecPath SpecLoad SpecGen SpecNamed SpecGql SpecDoc SpecMade Gen Gql World Cases CaseGen CaseNamed CaseGql CaseMade.
From Verif Require Import GqlG.

(** C63 for schemas with allOf and oneOf, if allOf has at most one member: each type of the document, interfaces aside, is for a struct
    that the Go generator makes, which has a field with the names and the type of each field that is stored. The structs for members
    of oneOf have the fields of the structs for members of allOf, which they embed. *)
Theorem C63_members_partial W o_trim A file name pkg schema cs os own gas gos t
    (makes := fun m (g : list gdecl * gstructs) => ndeclares_all (exported W) (a_fieldNames (ga A)) (a_pointers (ga A))
       (exported W (go_struct (exported W) (a_structNames (ga A)) (file_of m))) (n_required m) (default [] (n_props m)) g.1 g.2) :
  doc_parts (exported W) (go_lower W) (a_structNames (ga A)) (a_fieldNames (ga A)) (ga_types A) (a_pointers (ga A)) (trim_space o_trim) file schema cs os own ->
  length (n_allOf schema) <= 1 -> n_allOf schema <> [] \/ n_oneOf schema <> [] ->
  Forall2 makes (n_allOf schema) gas -> Forall2 makes (n_oneOf schema) gos ->
  t ∈ doc_types (exported W) (go_lower W) (a_structNames (ga A)) (ga_types A) name pkg file schema cs os own -> t.1.1 = "type" ->
  exists fs, (qs_key t.2, fs) ∈ made_structs (exported W) (a_structNames (ga A)) schema gas gos /\
    go_fields (is_total (exported W) (a_fieldNames (ga A)) (trim_space o_trim))
      (fun n => exists m, m ∈ n_allOf schema ++ n_oneOf schema /\ target_in (default [] (n_props m)) n) (all_S cs ++ all_S os) (qs_fields t.2) fs.
Proof. exact (members_go W o_trim A file name pkg schema cs os own gas gos t). Qed.
Print Assumptions C63_members_partial.
Example C63_members_case :
  doc_parts title0 lower0 no_names no_names no_names true (trim_space no_text) "site" site (cs_of site) (os_of site) (own_of site) /\
  Forall2 (fun m g => makes m g) (n_allOf site) [go_base] /\ Forall2 (fun m g => makes m g) (n_oneOf site) [go_page] /\
  map (fun t => (t.1.1, qs_key t.2)) (doc_types title0 lower0 no_names no_names "site" "site" "site" site (cs_of site) (os_of site) (own_of site)) =
    [("interface", "Site"); ("type", "BaseHome"); ("type", "Page")] /\
  (made_structs title0 no_names site [go_base] [go_page]).*1 = ["Base"; "BaseHome"; "Page"].
Proof.
  split_and!; [exact site_declared|constructor; [exact base_made|constructor]|constructor; [exact page_made|constructor]|vm_compute; reflexivity..].
Qed.
(** With two members of allOf it is false: the types for objects of the second are for structs named after the first, which are not made. *)
Theorem C63_members_refuted : exists schema cs os own gas gos t,
  doc_parts title0 lower0 no_names no_names no_names true (trim_space no_text) "site" schema cs os own /\
  Forall2 (fun m g => makes m g) (n_allOf schema) gas /\ Forall2 (fun m g => makes m g) (n_oneOf schema) gos /\
  t ∈ doc_types title0 lower0 no_names no_names "site" "site" "site" schema cs os own /\ t.1.1 = "type" /\
  qs_key t.2 = "BasePlace" /\ (made_structs title0 no_names schema gas gos).*1 = ["Base"; "BaseHome"; "Extra"; "ExtraPlace"; "Page"].
Proof.
  exists wide, (cs_of wide), (os_of wide), (own_of wide), [go_base; go_extra], [go_page].
  eexists. split; [exact wide_declared|]. split; [constructor; [exact base_made|constructor; [exact extra_made|constructor]]|].
  split; [constructor; [exact page_made|constructor]|]. split; [vm_compute; right; right; left|]. split_and!; vm_compute; reflexivity.
Qed.
Print Assumptions C63_members_refuted.

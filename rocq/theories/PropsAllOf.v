(** C31: exactly when a schema without own properties gets those of all its allOf members. Vocabulary: SpecLoad.v. *)
From stdpp Require Import strings list gmap.
From Verif Require Import GoStr Val Schema Inst SpecPath SpecSchema SpecWalk Load SpecLoad World Cases FlatL CaseLoad AllOfL.

(** C31. Without flattening a schema without own properties gets the properties of all its allOf members exactly if each property of the later
    members has the name of one of the first member or of a selected oneOf member. *)
Theorem C31_exactly ty i m l ones : ty <> "" -> ty <> "/" -> n_props i = None -> n_allOf i = m :: l ->
  picks (fun m => file_name (n_fromRef m) ty) (n_oneOf i) ones ->
  (forall a k, a ∈ n_allOf i -> is_Some (assoc k (props_of a)) -> is_Some (assoc k (props_of (flatten false ty i)))) <->
  (forall a k, a ∈ l -> is_Some (assoc k (props_of a)) -> exists b, b ∈ m :: ones /\ is_Some (assoc k (props_of b))).
Proof. exact (all_members ty i m l ones). Qed.
Print Assumptions C31_exactly.
(** two members, the second of which has a property of its own: it is lost *)
Example C31_exactly_case : exists m a, n_props all_two = None /\ n_allOf all_two = [m; a] /\
  picks (fun m => file_name (n_fromRef m) "t") (n_oneOf all_two) [] /\
  is_Some (assoc "b" (props_of a)) /\ assoc "b" (props_of m) = None.
Proof. do 2 eexists. split; [done|]. split; [reflexivity|]. split; [constructor|]. split; [by eexists|done]. Qed.

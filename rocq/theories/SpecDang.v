(** References to things that are not there. *)
From stdpp Require Import strings list gmap.
From Coq Require Import Ascii ZArith.
From Verif Require Import GoStr GoStrL Val Schema Inst Load SpecRef.
From Verif Require Den.

(** the value [v] is at [τ] in [t] *)
Inductive located : tree -> list string -> tree -> Prop :=
| located_here v : located v [] v
| located_member kvs k x τ v : assoc k kvs = Some x -> located x τ v -> located (TObj kvs) (k :: τ) v
| located_item l i x τ v : l !! i = Some x -> located x τ v -> located (TArr l) (item_key i :: τ) v.
(** there is no object at [τ] in [t] *)
Definition no_object (t : tree) (τ : list string) : Prop := forall o, ~ located t τ (TObj o).

(** [r] names the value at [τ] of the file or URL [u] (the whole document if [τ] is empty): u#/a/b *)
Definition names (r u : string) (τ : list string) : Prop :=
  u <> "" /\ free_of "#" u = true /\ (τ = [] \/ simple_path τ) /\ r = file_ref u τ.

Section broken.
Context (F : files) (ty : string) (fl : bool).
(** The schema at [path] is broken: there is no such file, or it is no schema, or it has a reference to
    nothing: *)
Inductive broken : string -> Prop :=
| broken_missing path : f_file F path = None -> broken path
| broken_invalid path : f_valid F path = false -> broken path
| broken_ref path doc π r : f_file F path = Some doc -> Den.distinct_keys doc -> ref_at doc π r ->
    dangling path doc r -> broken path
(** a place of the document itself where there is no object, a URL that cannot be fetched or whose document
    has no object at the place, or another file that is broken itself or has no object at the place *)
with dangling : string -> tree -> string -> Prop :=
| dangling_own path doc r τ : own_ref F path r τ -> no_object doc τ -> not_below_ref doc τ -> dangling path doc r
| dangling_url path doc r u τ : names r u τ -> has_prefix "http" u = true ->
    (forall d, f_http F u = Some d -> no_object d τ) -> dangling path doc r
| dangling_file path doc r f τ : names r f τ -> has_prefix "http" f = false -> f_rel F path f <> path ->
    broken (f_rel F path f) -> dangling path doc r
| dangling_place path doc r f τ : names r f τ -> has_prefix "http" f = false -> f_rel F path f <> path ->
    (forall n i, load_schema F ty fl n (f_rel F path f) = Some (Ok i) -> no_object (m_inst i) τ) -> dangling path doc r.
End broken.

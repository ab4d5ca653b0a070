(** The Go declarations a schema stands for when structs are not nested: each object is a struct of its own, named after the way to it. *)
From stdpp Require Import strings list gmap.
From Coq Require Import Ascii.
From Verif Require Import GoStr Val Conv Schema Inst Load SpecPath SpecWalk SpecLoad SpecGen.

(** a name that starts with a capital letter *)
Definition capital (s : string) : Prop := exists c s', s = String c s' /\ (65 <= N_of_ascii c <= 90)%N.
(** the structs of a file, besides the first *)
Definition gstructs : Type := list (string * list gdecl).
Fixpoint insert_struct (x : string * list gdecl) (l : gstructs) : gstructs :=
  match l with
  | [] => [x]
  | y :: l' => if str_le x.1 y.1 then x :: l else y :: insert_struct x l'
  end.
Definition structs_by_name (l : gstructs) : gstructs := foldr insert_struct [] l.

Section spec.
Context (title : string -> string) (rename : string -> option string) (pointers : bool).
(** [nholds P k req null r ty Ss]: a field for the property [k] of the struct [P], holding a value of the schema [r], which is not an
    array, has type [ty]; for the objects in [r] there are the structs [Ss]; [null]: the property may be null *)
Inductive nholds : string -> string -> bool -> bool -> tree -> gtype -> gstructs -> Prop :=
| nholds_base P k req null r i t b : d_inst false r = Ok i -> one_type i t -> base_type t (bool_decide (n_format i = "date-time")) = Some b ->
    nholds P k req null r (ptr null b) []
| nholds_time P k req null r i : d_inst false r = Ok i -> one_type i "string" -> n_format i = "date-time" ->
    nholds P k req null r (ptr ((pointers && negb req) || null) TTime) []
(** an object with fields is a struct, whose name is that of the struct it is in followed by that of the property *)
| nholds_object P k req null r i ps d ds Ss : d_inst false r = Ok i -> one_type i "object" -> n_props i = Some ps ->
    ndeclares_all (P +:+ title k) (n_required i) ps (d :: ds) Ss -> NoDup (map d_go (d :: ds)) -> NoDup ps.*1 ->
    nholds P k req null r (ptr ((pointers && negb req) || nullable i) (TNamed (P +:+ title k))) ((P +:+ title k, by_name (d :: ds)) :: Ss)
(** one without is a map, if it is not to be a pointer *)
| nholds_map P k req null r i ps Ss : d_inst false r = Ok i -> one_type i "object" -> n_props i = Some ps ->
    ndeclares_all (P +:+ title k) (n_required i) ps [] Ss -> NoDup ps.*1 -> (pointers && negb req) || nullable i = false ->
    nholds P k req null r (ptr null TMap) ((P +:+ title k, []) :: Ss)
with ndeclares : string -> bool -> string -> tree -> gdecl -> gstructs -> Prop :=
| ndeclares_value P req k r i ty Ss : d_inst false r = Ok i -> field_name k ->
    nholds P k req (nullable i) r ty Ss -> ndeclares P req k r (declare title rename i k req (Some ty)) Ss
| ndeclares_array P req k r i x ty Ss : d_inst false r = Ok i -> one_type i "array" -> field_name k -> n_items i = Some x ->
    nholds P k req (nullable i) x ty Ss -> ndeclares P req k r (declare title rename i k req (Some (TSlice ty))) Ss
| ndeclares_none P req k r i x j : d_inst false r = Ok i -> one_type i "array" -> field_name k ->
    n_items i = Some x -> d_inst false x = Ok j -> hydrated_leaf j ->
    ndeclares P req k r (declare title rename i k req None) []
(** the properties [ps] of the struct [P], of which those named in [reqs] are required, declare the fields [ds] and further structs *)
with ndeclares_all : string -> list string -> list (string * tree) -> list gdecl -> gstructs -> Prop :=
| nall_nil P reqs : ndeclares_all P reqs [] [] []
| nall_hydrated P reqs k r i ps ds Ss : d_inst false r = Ok i -> hydrated_leaf i -> field_name k -> ndeclares_all P reqs ps ds Ss ->
    ndeclares_all P reqs ((k, r) :: ps) ds Ss
| nall_cons P reqs k r d ps ds Ss Ss' : ndeclares P (bool_decide (k ∈ reqs)) k r d Ss -> ndeclares_all P reqs ps ds Ss' ->
    ndeclares_all P reqs ((k, r) :: ps) (d :: ds) (Ss ++ Ss').

(** the name of the struct for the object at [σ] below the struct [P], and the objects in a list of properties *)
Fixpoint type_name (P : string) (σ : list seg) : string :=
  match σ with
  | [] => P
  | Nm k :: σ' => type_name (P +:+ title k) σ'
  | _ :: σ' => type_name P σ'
  end.
Definition object_in (props : list (string * tree)) (σ : list seg) : Prop := exists r, swinst props None σ r /\ "object" ∈ type_names r.
(** the struct types a type or a field refers to *)
Fixpoint refers (t : gtype) (Q : string) : Prop :=
  match t with TNamed n => n = Q | TPtr t | TSlice t => refers t Q | _ => False end.
Definition field_refers (d : gdecl) (Q : string) : Prop := let 'GDecl _ _ _ _ oty := d in match oty with Some t => refers t Q | None => False end.

(** a file with several structs, of which those without fields are left out *)
Definition show_structs (desc_tag : bool) (pkg name : string) (embeds : list string) (ds : list gdecl) (Ss : gstructs) : string :=
  "package " +:+ pkg +:+ newline +:+ newline +:+
  "// Code generated by github.com/GannettDigital/jstransform; DO NOT EDIT." +:+ newline +:+ newline +:+
  (if existsb uses_time ds || existsb (fun s => existsb uses_time s.2) Ss then "import " +:+ in_quotes "time" +:+ newline else "") +:+
  (if decide (length ds = 0) then "" else newline +:+ newline +:+ show_struct desc_tag (title name) embeds ds) +:+
  join "" (map (fun s : string * list gdecl =>
    if decide (length s.2 = 0) then "" else newline +:+ newline +:+ show_struct desc_tag (title s.1) [] s.2) Ss).
End spec.

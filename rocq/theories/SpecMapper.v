(** Specification for the code which turns a generated struct into an Avro record: the types of the Go code, which
    Avro types fit which Go types, and what a converted value is. Independent of how the code is made. *)
From stdpp Require Import strings list.
From Coq Require Import ZArith.
From Verif Require Import GoStr Val Conv Avro AvroRun Mapper MapRun.

Definition gotime : texpr := ESel "time" "Time".
Definition basics : list string := ["string"; "bool"; "float64"; "int64"].

(** ** Fields of struct types *)
(** the named fields, and the types embedded by their names *)
Definition owns (fs : list afield) : list (string * texpr) := fs ≫= (fun f => map (fun n => (n, af_type f)) (af_names f)).
Definition embs (fs : list afield) : list string :=
  omap (fun f => match af_names f, af_type f with [], EIdent e => Some e | _, _ => None end) fs.

Section spec.
(** the struct types of the generated package, and of the Avro package *)
Context (types avro : string -> option texpr).

(** the types of the fields [n] at a depth of embedding *)
Definition with_name (n : string) (l : list (string * texpr)) : list texpr :=
  omap (fun '(k, t) => if decide (k = n) then Some t else None) l.
Fixpoint types_at (d : nat) (n : string) (fs : list afield) : list texpr :=
  match d with
  | O => with_name n (owns fs) ++ with_name n (map (fun e => (e, EIdent e)) (embs fs))
  | S d => embs fs ≫= (fun e => match types e with Some (EStruct fs') => types_at d n fs' | _ => [] end)
  end.
(** The Go specification, Selectors: the one field at the shallowest depth *)
Definition selects (fs : list afield) (n : string) (T : texpr) : Prop :=
  exists d, types_at d n fs = [T] /\ forall d', d' < d -> types_at d' n fs = [].

(** a struct type, literal or by its name; and the struct a selector looks into, also through a pointer *)
Definition struct_type (T : texpr) (fs : list afield) : Prop :=
  T = EStruct fs \/ exists s, T = EIdent s /\ s ∉ basics /\ types s = Some (EStruct fs).
Definition looks_into (T : texpr) (fs : list afield) : Prop :=
  struct_type T fs \/ exists T', T = EStar T' /\ struct_type T' fs.
(** the type of z.a.b.c, for z of type [Z] *)
Inductive path_type : texpr -> list string -> texpr -> Prop :=
| pt_nil Z : path_type Z [] Z
| pt_cons Z fs n T p T' : looks_into Z fs -> selects fs n T -> path_type T p T' -> path_type Z (n :: p) T'.

(** a field of a struct type of the Avro package *)
Definition avro_field (r n : string) (T : texpr) : Prop :=
  exists fs f, avro r = Some (EStruct fs) /\ f ∈ fs /\ n ∈ af_names f /\ af_type f = T.
(** types which are the same in both packages *)
Definition basic (T : texpr) : Prop := exists p, p ∈ basics /\ (T = EIdent p \/ T = EArray (EIdent p)).
(** what the four functions take and return *)
Definition takes (f : timefn) : texpr :=
  match f with FTime => gotime | FTimes => EArray gotime | FOptTime => EStar gotime | FOptTimes => EArray (EStar gotime) end.
Definition gives (f : timefn) : texpr :=
  match f with FTime | FOptTime => EIdent "int64" | FTimes | FOptTimes => EArray (EIdent "int64") end.
Definition is_literal (x : gexpr) : Prop := match x with XRec _ _ | XUnion _ _ _ => True | _ => False end.

(** ** The type of an expression in the Avro package, for z of type [Z], with the functions [fns] defined *)
Inductive typed (fns : list fndef) (Z : texpr) : gexpr -> texpr -> Prop :=
| t_sel p T : path_type Z p T -> basic T -> typed fns Z (XSel p) T
| t_time f p : path_type Z p (takes f) -> typed fns Z (XTime f p) (gives f)
| t_slice d p : d ∈ fns -> path_type Z p (EArray (fn_elem d)) -> typed fns Z (XSlice (fn_name d) p) (EArray (EStar (EIdent (fn_rec d))))
| t_rec r l : NoDup l.*1 -> (forall n x, (n, x) ∈ l -> exists T, avro_field r n T /\ typed fns Z x T) -> typed fns Z (XRec r l) (EIdent r)
| t_union r b x T : avro_field r b T -> avro_field r "UnionType" (EIdent (r +:+ "TypeEnum")) -> typed fns Z x T -> typed fns Z (XUnion r b x) (EIdent r)
| t_addr x T : is_literal x -> typed fns Z x T -> typed fns Z (XAddr x) (EStar T)
| t_guard ty p x T : path_type Z p (EStar T) -> typed fns Z x (EStar (EIdent ty)) -> typed fns Z (XGuard ty p x) (EStar (EIdent ty)).
(** the functions an expression calls *)
Fixpoint calls (x : gexpr) : list string :=
  match x with
  | XSel _ | XTime _ _ => []
  | XSlice f _ => [f]
  | XRec _ fs => fs ≫= (fun '(_, y) => calls y)
  | XUnion _ _ y | XAddr y | XGuard _ _ y => calls y
  end.
Definition calls_fields (fs : list (string * gexpr)) : list string := fs ≫= (fun '(_, y) => calls y).
(** The Go compiler accepts the functions and the record of type [r] built for z of type [Z]: each function has a new
    name, its body has the right type with the functions before it, and it is used. *)
Definition compiles (r : string) (Z : texpr) (c : mfields) : Prop :=
  NoDup (map fn_name (mf_pre c)) /\
  (forall i d, mf_pre c !! i = Some d ->
     typed (take i (mf_pre c)) (fn_elem d) (XRec (fn_rec d) (fn_fields d)) (EIdent (fn_rec d)) /\
     (fn_name d ∈ calls_fields (mf_fields c) \/ exists d', d' ∈ drop (S i) (mf_pre c) /\ fn_name d ∈ calls_fields (fn_fields d'))) /\
  typed (mf_pre c) Z (XRec r (mf_fields c)) (EIdent r).

(** ** Go values of a type. The items of a slice are not nil, unless they are pointers to times. *)
Inductive has_ty : texpr -> gv -> Prop :=
| ty_string s : has_ty (EIdent "string") (GStr s)
| ty_bool b : has_ty (EIdent "bool") (GBool b)
| ty_int z : has_ty (EIdent "int64") (GInt z)
| ty_float f : has_ty (EIdent "float64") (GFloat f)
| ty_time t : has_ty gotime (GTm t)
| ty_named s t v : s ∉ basics -> types s = Some t -> has_ty t v -> has_ty (EIdent s) v
| ty_nil T : has_ty (EStar T) GNil
| ty_ptr T v : has_ty T v -> has_ty (EStar T) (GPtr v)
| ty_slice T l : (forall v, v ∈ l -> has_ty T v) -> (forall v, v ∈ l -> v = GNil -> T = EStar gotime) -> has_ty (EArray T) (GSlice l)
| ty_struct fs own emb :
    Forall2 (fun a b => b.1 = a.1 /\ has_ty a.2 b.2) (owns fs) own ->
    Forall2 (fun e b => b.1 = e /\ has_ty (EIdent e) b.2) (embs fs) emb ->
    has_ty (EStruct fs) (GRec own emb)
| ty_map k v : has_ty (EMap k v) GOther
| ty_other s : has_ty (EOther s) GOther.

(** ** Which Avro types fit which generated types *)
(** the unions of null and a simple type: name, branch and type *)
Definition unions : list (string * string * string) :=
  [("UnionNullString", "String", "string"); ("UnionNullLong", "Long", "int64"); ("UnionNullDouble", "Double", "float64")].
(** the Avro package declares the union [r] with a branch [b] of type [T] *)
Definition union_declared (r b : string) (T : texpr) : Prop :=
  avro_field r b T /\ avro_field r "UnionType" (EIdent (r +:+ "TypeEnum")).
Definition metadata_name (n : string) : Prop := has_prefix "Avro" n = true.
(** what the mapper can print of an anonymous struct: simple fields, times, nested structs, and slices of identifiers
    and of structs *)
Inductive printable : texpr -> Prop :=
| pr_ident s : printable (EIdent s)
| pr_time : printable gotime
| pr_idents s : printable (EArray (EIdent s))
| pr_struct fs : (forall f, f ∈ fs -> exists n, af_names f = [n]) -> (forall f, f ∈ fs -> printable (af_type f)) -> printable (EStruct fs)
| pr_structs fs : printable (EStruct fs) -> printable (EArray (EStruct fs)).

(** A struct type with embedded structs, which are found in their own files: names are used once in each struct. *)
Inductive closed (file : string -> option texpr) : list afield -> Prop :=
| closed_intro fs :
    NoDup ((owns fs).*1 ++ embs fs) ->
    (forall f, f ∈ fs -> (exists n, af_names f = [n] /\ has_prefix "Field_" n = false) \/ (af_names f = [] /\ exists e, af_type f = EIdent e)) ->
    (forall e, e ∈ embs fs -> e ∉ basics /\ exists fs', types e = Some (EStruct fs') /\ file e = Some (EStruct fs')) ->
    (forall e fs', e ∈ embs fs -> types e = Some (EStruct fs') -> closed file fs') ->
    closed file fs.
(** The fields that are seen when embedded structs are taken as part of the struct, unless a field of the struct
    itself has the same name *)
Inductive visible : list afield -> string -> texpr -> Prop :=
| vis_own fs n T : (n, T) ∈ owns fs -> visible fs n T
| vis_emb fs n T e fs' : e ∈ embs fs -> types e = Some (EStruct fs') -> n ∉ (owns fs).*1 -> visible fs' n T -> visible fs n T.
Definition field (fs : list afield) (n : string) (T : texpr) : Prop := selects fs n T /\ visible fs n T.

(** names for records: not those of simple types and unions *)
Definition record_name (r : string) : Prop := r ∉ basics /\ has_prefix "UnionNull" r = false /\ r ∉ unions.*1.*2.
(** simple values and slices are read with the name in the struct, others with the name in the Avro record *)
Definition direct (A : texpr) : Prop := match A with EStar _ => False | _ => True end.

Inductive fit : texpr -> texpr -> Prop :=
| fit_same p : p ∈ basics -> fit (EIdent p) (EIdent p)
| fit_time : fit (EIdent "int64") gotime
| fit_slice p : p ∈ basics -> fit (EArray (EIdent p)) (EArray (EIdent p))
| fit_times : fit (EArray (EIdent "int64")) (EArray gotime)
| fit_opt_times : fit (EArray (EIdent "int64")) (EArray (EStar gotime))
| fit_union r b p G : (r, b, p) ∈ unions -> union_declared r b (EIdent p) -> G = EIdent p \/ (p = "int64" /\ G = gotime) -> fit (EStar (EIdent r)) G
| fit_union_time : union_declared "UnionNullLong" "Long" (EIdent "int64") -> fit (EStar (EIdent "UnionNullLong")) (EStar gotime)
| fit_struct r G : fit_rec r G -> fit (EStar (EIdent r)) G
| fit_union_struct r G : union_declared ("UnionNull" +:+ r) r (EStar (EIdent r)) -> fit_rec r G -> fit (EStar (EIdent ("UnionNull" +:+ r))) G
| fit_union_ptr r G : union_declared ("UnionNull" +:+ r) r (EStar (EIdent r)) -> fit_rec r G -> fit (EStar (EIdent ("UnionNull" +:+ r))) (EStar G)
| fit_structs r G : fit_rec r G -> printable G -> fit (EArray (EStar (EIdent r))) (EArray G)
| fit_ptrs r G : fit_rec r G -> printable G -> fit (EArray (EStar (EIdent r))) (EArray (EStar G))
(** the Avro record [r] fits the struct type [G], which embeds nothing *)
with fit_rec : string -> texpr -> Prop :=
| fit_rec_intro r G afs gfs :
    record_name r -> avro r = Some (EStruct afs) -> NoDup (omap (fun f => head (af_names f)) afs) ->
    struct_type G gfs -> closed (fun _ => None) gfs -> embs gfs = [] ->
    fit_fields gfs afs -> fit_rec r G
(** the fields of an Avro record, for those of a struct *)
with fit_fields : list afield -> list afield -> Prop :=
| fit_nil gfs : fit_fields gfs []
| fit_meta gfs f a l afs : af_names f = a :: l -> metadata_name a -> fit_fields gfs afs -> fit_fields gfs (f :: afs)
| fit_cons gfs f a l n G afs :
    af_names f = a :: l -> ~ metadata_name a -> a = field_key n -> field gfs n G -> a = n \/ direct (af_type f) ->
    fit (af_type f) G -> fit_fields gfs afs -> fit_fields gfs (f :: afs).

(** ** Converted values *)
Inductive conv : texpr -> texpr -> gv -> gv -> Prop :=
| c_same p v : p ∈ basics -> conv (EIdent p) (EIdent p) v v
| c_time t : conv (EIdent "int64") gotime (GTm t) (GInt (avro_time t))
| c_slice p v : p ∈ basics -> conv (EArray (EIdent p)) (EArray (EIdent p)) v v
| c_times ts : conv (EArray (EIdent "int64")) (EArray gotime) (GSlice (map GTm ts)) (GSlice (map (fun t => GInt (avro_time t)) ts))
(** nil items are left out *)
| c_opt_times os :
    conv (EArray (EIdent "int64")) (EArray (EStar gotime))
      (GSlice (map (fun o => match o with Some t => GPtr (GTm t) | None => GNil end) os)) (GSlice (map (fun t => GInt (avro_time t)) (omap id os)))
| c_union r b p G v w : (r, b, p) ∈ unions -> conv (EIdent p) G v w -> conv (EStar (EIdent r)) G v (GPtr (union_rec r b w))
| c_struct r G v l gfs afs :
    record_name r -> avro r = Some (EStruct afs) -> struct_type G gfs -> conv_fields gfs afs v l -> conv (EStar (EIdent r)) G v (GPtr (GRec l []))
| c_union_struct r G v w : record_name r -> conv (EStar (EIdent r)) G v w -> conv (EStar (EIdent ("UnionNull" +:+ r))) G v (GPtr (union_rec ("UnionNull" +:+ r) r w))
(** a nil pointer gives the null of the union *)
| c_nil r G : conv (EStar (EIdent r)) (EStar G) GNil GNil
| c_ptr r G v w : conv (EStar (EIdent r)) G v w -> conv (EStar (EIdent r)) (EStar G) (GPtr v) w
| c_structs r G vs ws : Forall2 (conv (EStar (EIdent r)) G) vs ws -> conv (EArray (EStar (EIdent r))) (EArray G) (GSlice vs) (GSlice ws)
(** each field of the Avro record, besides the metadata, has the value of the field with its name *)
with conv_fields : list afield -> list afield -> gv -> list (string * gv) -> Prop :=
| cf_nil gfs v : conv_fields gfs [] v []
| cf_meta gfs f a l afs v r : af_names f = a :: l -> metadata_name a -> conv_fields gfs afs v r -> conv_fields gfs (f :: afs) v r
| cf_cons gfs f a l n G afs v x w r :
    af_names f = a :: l -> ~ metadata_name a -> a = field_key n -> selects gfs n G -> select n v = Ran x ->
    conv (af_type f) G x w -> conv_fields gfs afs v r -> conv_fields gfs (f :: afs) v ((a, w) :: r).

(** ** The whole struct: [gfs] its fields, [r] its name and that of the Avro record. Embedded structs are found in
    their files; a name has the same type wherever it is seen. *)
Definition fits (file : string -> option texpr) (r : string) (gfs afs : list afield) : Prop :=
  avro r = Some (EStruct afs) /\ NoDup (omap (fun f => head (af_names f)) afs) /\
  closed file gfs /\ (forall n T T', visible gfs n T -> visible gfs n T' -> T = T') /\ fit_fields gfs afs.
End spec.

(** the struct [e], read from the file with its name in the package [E] (avro_helpers.go 605-609 gives the file name) *)
Definition own_file (W : oracles) (E : sources) (e : string) : option texpr :=
  match struct_to_filename W e with Some file => src_file E file e | None => None end.

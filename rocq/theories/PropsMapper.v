(** C64, C65: the code which turns a generated struct into an Avro record. *)
From stdpp Require Import strings list gmap.
From Coq Require Import ZArith.
From Verif Require Import GoStr Val Conv Avro AvroRun Mapper MapRun SpecMapper MapperL MapperP CaseMapper MapperC World.

(** ** C64: the Avro record has the value of every field *)
(** For a struct and an Avro package whose types fit, the generator makes code; unless two slices share a function,
    this code gives for every value a record in which each field, besides those for metadata, has the converted value
    of the field with its name. *)
Theorem C64_fields_partial W E below avro name gfs afs : fits (src_dir E) avro (own_file W E) name gfs afs ->
  exists n0 c, (forall n, n0 <= n -> generate_mapping W E below avro n name (EStruct gfs) = Some (Some c)) /\
    (NoDup (map fn_name (mf_pre c)) -> forall z, has_ty (src_dir E) (EStruct gfs) z ->
      exists l, run_mapping c (GPtr z) = Ran (GRec l []) /\ conv_fields (src_dir E) avro gfs afs z l).
Proof. exact (fields_ok W E below avro name gfs afs). Qed.
Print Assumptions C64_fields_partial.
Example C64_case :
  fits (src_dir E1) avro1 (own_file W0 E1) "Item" item_g item_a /\ has_ty (src_dir E1) (EStruct item_g) item1 /\
  generate_mapping W0 E1 nowhere avro1 20 "Item" (EStruct item_g) = Some (Some item_code) /\ NoDup (map fn_name (mf_pre item_code)) /\
  run_mapping item_code (GPtr item1) = Ran (GRec
    [("Id", GStr "1"); ("Title", GPtr (union_rec "UnionNullString" "String" (GStr "t"))); ("Seen", GPtr (union_rec "UnionNullLong" "Long" (GInt 1005)));
     ("Tags", GSlice [GStr "x"]); ("Parts", GSlice [GPtr (GRec [("Name", GStr "p"); ("At", GInt 1005)] [])]); ("Site", GNil); ("Field_Schema", GStr "s")] []).
Proof.
  split; [exact item_fits|]. split; [exact item1_ty|]. split; [vm_compute; reflexivity|]. split; [test|]. vm_compute. reflexivity.
Qed.

(** A field whose own name starts with Avro is taken for metadata: its value is lost. *)
Theorem C64_avro_names_refuted : exists W E below avro name gfs afs z l,
  fits (src_dir E) avro (own_file W E) name gfs afs /\ "AvroId" ∉ ["AvroWriteTime"; "AvroDeleted"] /\
  (exists f g, f ∈ afs /\ g ∈ gfs /\ af_names f = ["AvroId"] /\ af_names g = ["AvroId"]) /\ has_ty (src_dir E) (EStruct gfs) z /\
  exists n c, generate_mapping W E below avro n name (EStruct gfs) = Some (Some c) /\ run_mapping c (GPtr z) = Ran (GRec l []) /\ "AvroId" ∉ l.*1.
Proof. exact avro_names. Qed.
Print Assumptions C64_avro_names_refuted.
(** A nil item in a slice of pointers to structs makes the code panic. *)
Theorem C64_nil_item_refuted : exists W E below avro name gfs afs z, fits (src_dir E) avro (own_file W E) name gfs afs /\
  exists own, z = GRec own [] /\ Forall2 (fun f b => af_names f = [b.1]) gfs own /\ own = [("Sites", GSlice [GNil])] /\
  exists n c, generate_mapping W E below avro n name (EStruct gfs) = Some (Some c) /\ run_mapping c (GPtr z) = NilPanic.
Proof. exact nil_item. Qed.
Print Assumptions C64_nil_item_refuted.

(** ** C65: the code is made, and the Go compiler accepts it *)
Theorem C65_compiles_partial W E below avro name gfs afs : fits (src_dir E) avro (own_file W E) name gfs afs ->
  exists n0 c, (forall n, n0 <= n -> generate_mapping W E below avro n name (EStruct gfs) = Some (Some c)) /\
    (NoDup (map fn_name (mf_pre c)) -> compiles (src_dir E) avro name (EStar (EStruct gfs)) c).
Proof. exact (compiles_ok W E below avro name gfs afs). Qed.
Print Assumptions C65_compiles_partial.
Example C65_case : fits (src_dir E1) avro1 (own_file W0 E1) "Item" item_g item_a /\ NoDup (map fn_name (mf_pre item_code)) /\ length (mf_pre item_code) = 1.
Proof. split; [exact item_fits|]. split; [test|reflexivity]. Qed.

(** A string that may be null: the code gives a pointer where a string is expected. *)
Theorem C65_nullable_refuted : exists W E below avro name gfs n c, In (fd "Name" (EStar (EIdent "string"))) gfs /\
  (forall f, In f gfs -> exists k, af_names f = [k] /\ avro_field avro name k (EIdent "string")) /\
  generate_mapping W E below avro n name (EStruct gfs) = Some (Some c) /\ ~ compiles (src_dir E) avro name (EStar (EStruct gfs)) c.
Proof. exact nullable_string. Qed.
Print Assumptions C65_nullable_refuted.
(** An optional field with a name the Avro package keeps for itself: the code reads a field which the struct does not
    have. *)
Theorem C65_reserved_refuted : exists W E below avro name gfs n c, In (fd "Schema" (EIdent "string")) gfs /\
  generate_mapping W E below avro n name (EStruct gfs) = Some (Some c) /\ ~ compiles (src_dir E) avro name (EStar (EStruct gfs)) c /\
  avro_field avro name "Field_Schema" (EStar (EIdent "UnionNullString")) /\ union_declared avro "UnionNullString" "String" (EIdent "string").
Proof. exact reserved_name. Qed.
Print Assumptions C65_reserved_refuted.
(** Two arrays of objects with the same name at different places: one function is defined twice. *)
Theorem C65_same_name_refuted : exists W E below avro name gfs afs n c, fits (src_dir E) avro (own_file W E) name gfs afs /\
  generate_mapping W E below avro n name (EStruct gfs) = Some (Some c) /\ ~ compiles (src_dir E) avro name (EStar (EStruct gfs)) c.
Proof. exact same_name. Qed.
Print Assumptions C65_same_name_refuted.
(** An array of objects with a time that may be null, or with an array of times: the type of the function does not have
    this field. *)
Theorem C65_unprinted_refuted : forall t, t = EStar gotime \/ t = EArray gotime ->
  exists W E below avro name gfs n c, gfs = [fd "Parts" (EArray (EStruct [fd "At" t]))] /\
  generate_mapping W E below avro n name (EStruct gfs) = Some (Some c) /\ ~ compiles (src_dir E) avro name (EStar (EStruct gfs)) c /\
  exists A, avro_field avro "Parts_record" "At" A /\ fit (src_dir E) avro A t.
Proof. exact unprinted. Qed.
Print Assumptions C65_unprinted_refuted.
(** An object which is required and may be null: the closure has a type without a name. *)
Theorem C65_required_null_refuted : exists W E below avro name gfs n c, gfs = [fd "Site" (EStar (EIdent "Site"))] /\
  generate_mapping W E below avro n name (EStruct gfs) = Some (Some c) /\ ~ compiles (src_dir E) avro name (EStar (EStruct gfs)) c /\
  avro_field avro name "Site" (EStar (EIdent "Site_record")) /\ fit_rec (src_dir E) avro "Site_record" (EIdent "Site").
Proof. exact required_null. Qed.
Print Assumptions C65_required_null_refuted.
(** A struct inside the struct embeds another: no code is made, for every depth of the search. *)
Theorem C65_embedded_refuted : exists W E avro name gfs, gfs = [fd "Site" (EIdent "Site")] /\ src_dir E "Site" = Some (EStruct [em "Base"]) /\
  own_file W E "Base" = Some (EStruct [fd "Id" (EIdent "string")]) /\ avro_field avro name "Site" (EStar (EIdent "Site_record")) /\
  avro "Site_record" = Some (EStruct [fd "Id" (EIdent "string")]) /\
  forall n, 10 <= n -> generate_mapping W E (fun _ _ => None) avro n name (EStruct gfs) = Some None.
Proof. exact embedded_below. Qed.
Print Assumptions C65_embedded_refuted.

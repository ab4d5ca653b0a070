(** Where the code made by the mapper loses a field, panics or does not compile. *)
From stdpp Require Import strings list gmap.
From Coq Require Import ZArith Lia.
From Verif Require Import GoStr Val Conv Avro AvroRun Mapper MapRun SpecMapper MapperL CaseMapper World.

Lemma looks_ptr types gfs fs : looks_into types (EStar (EStruct gfs)) fs -> fs = gfs.
Proof.
  intros [[H|(s & H & _)]|(T & H & [HT|(s & HT & _)])]; [discriminate H|discriminate H| |]; injection H as <-; [injection HT as <-; reflexivity|discriminate HT].
Qed.
Lemma path_ptr types gfs n T : path_type types (EStar (EStruct gfs)) [n] T -> selects types gfs n T.
Proof.
  intros H. inversion H as [|Z fs k T1 p T2 Hl Hs Hp]; subst. inversion Hp; subst. apply looks_ptr in Hl as ->. exact Hs.
Qed.
Lemma avro_field_type avro r n T fs : avro_field avro r n T -> avro r = Some (EStruct fs) -> exists f, f ∈ fs /\ n ∈ af_names f /\ af_type f = T.
Proof. intros (fs' & f & Ha & Hf & Hn & HT) Hr. rewrite Ha in Hr. injection Hr as <-. eauto. Qed.
Lemma rec_field types avro fns Z r l n x : typed types avro fns Z (XRec r l) (EIdent r) -> (n, x) ∈ l -> exists T, avro_field avro r n T /\ typed types avro fns Z x T.
Proof. intros H Hin. inversion H; subst. eauto. Qed.

Ltac declared H fs := destruct (avro_field_type _ _ _ _ fs H ltac:(vm_compute; reflexivity)) as (?f & ?Hf & ?Hn & ?HT);
  repeat (match goal with Hf : ?f ∈ _ :: _ |- _ => apply elem_of_cons in Hf as [->|Hf]; [cbn in *; try (match goal with Hn : _ ∈ [_] |- _ => apply elem_of_list_singleton in Hn; discriminate Hn end)|] end).

(** a field whose name starts with Avro *)
Definition lost_g : list afield := [fd "AvroId" str].
Definition lost_a : list afield := meta ++ [fd "AvroId" str].
Lemma avro_names : exists W E below avro name gfs afs z l, fits (src_dir E) avro (own_file W E) name gfs afs /\ "AvroId" ∉ ["AvroWriteTime"; "AvroDeleted"] /\
  (exists f g, f ∈ afs /\ g ∈ gfs /\ af_names f = ["AvroId"] /\ af_names g = ["AvroId"]) /\ has_ty (src_dir E) (EStruct gfs) z /\
  exists n c, generate_mapping W E below avro n name (EStruct gfs) = Some (Some c) /\ run_mapping c (GPtr z) = Ran (GRec l []) /\ "AvroId" ∉ l.*1.
Proof.
  exists W0, (package []), nowhere, (pkg_of [("Item", lost_a)]), "Item", lost_g, lost_a, (GRec [("AvroId", GStr "1")] []), [].
  split; [|split; [test|split; [|split]]].
  - split_and!; [reflexivity|test| |apply (one_type _ 0); [reflexivity|test]|unfold lost_a, meta; cbn [app]; fields].
    constructor; [test|intros f Hf; left; each_in Hf|intros e He; apply elem_of_nil in He as []|intros e fs' He; apply elem_of_nil in He as []].
  - exists (fd "AvroId" str), (fd "AvroId" str). split_and!; [right; right; left|left|reflexivity..].
  - repeat constructor.
  - exists 10, (MFields [] []). split_and!; [vm_compute; reflexivity|reflexivity|test].
Qed.

(** a nil item *)
Definition E2 : sources := package [("Site", site_g)].
Definition sites_g : list afield := [fd "Sites" (EArray (EStar (EIdent "Site")))].
Definition sites_a : list afield := meta ++ [fd "Sites" (EArray (EStar (EIdent "Sites_record")))].
Definition avro2 : string -> option texpr := pkg_of [("Item", sites_a); ("Sites_record", [fd "Url" str])].
Lemma nil_item : exists W E below avro name gfs afs z, fits (src_dir E) avro (own_file W E) name gfs afs /\
  exists own, z = GRec own [] /\ Forall2 (fun f b => af_names f = [b.1]) gfs own /\ own = [("Sites", GSlice [GNil])] /\
  exists n c, generate_mapping W E below avro n name (EStruct gfs) = Some (Some c) /\ run_mapping c (GPtr z) = NilPanic.
Proof.
  exists W0, E2, nowhere, avro2, "Item", sites_g, sites_a, (GRec [("Sites", GSlice [GNil])] []). split.
  - split_and!; [reflexivity|test| |apply (one_type _ 0); [reflexivity|test]|unfold sites_a, meta; cbn [app]; fields].
    + constructor; [test|intros f Hf; left; each_in Hf|intros e He; apply elem_of_nil in He as []|intros e fs' He; apply elem_of_nil in He as []].
    + apply fit_ptrs; [|constructor].
      eapply fit_rec_intro; [split_and!; [test|reflexivity|test]|vm_compute; reflexivity|test|right; exists "Site"; split_and!; [reflexivity|test|vm_compute; reflexivity]|flat_closed|reflexivity|].
      fields. apply fit_same. test.
  - eexists. split; [reflexivity|]. split; [repeat constructor|]. split; [reflexivity|]. exists 20. eexists. split; [vm_compute; reflexivity|vm_compute; reflexivity].
Qed.

(** *string *)
Lemma nullable_string : exists W E below avro name gfs n c, In (fd "Name" (EStar (EIdent "string"))) gfs /\
  (forall f, In f gfs -> exists k, af_names f = [k] /\ avro_field avro name k (EIdent "string")) /\
  generate_mapping W E below avro n name (EStruct gfs) = Some (Some c) /\ ~ compiles (src_dir E) avro name (EStar (EStruct gfs)) c.
Proof.
  exists W0, (package []), nowhere, (pkg_of [("Item", meta ++ [fd "Name" str])]), "Item", [fd "Name" (EStar str)], 10. eexists. split; [left; reflexivity|]. split.
  { intros f [<-|[]]. exists "Name". split; [reflexivity|]. eexists _, _. split; [vm_compute; reflexivity|]. split; [right; right; left|]. split; [left|reflexivity]. }
  split; [vm_compute; reflexivity|]. intros (_ & _ & Ht). destruct (rec_field _ _ _ _ _ _ "Name" _ Ht ltac:(left)) as (T & Hd & Hx).
  inversion Hx; subst. match goal with H : basic T |- _ => rename H into Hb end. match goal with H : path_type _ _ _ T |- _ => apply path_ptr in H; apply (selects_first _ _ _ (EStar str)) in H; [|reflexivity] end.
  subst T. destruct Hb as (p & _ & [Hb|Hb]); discriminate Hb.
Qed.
(** a name which Avro reserves, in a union *)
Lemma reserved_name : exists W E below avro name gfs n c, In (fd "Schema" (EIdent "string")) gfs /\
  generate_mapping W E below avro n name (EStruct gfs) = Some (Some c) /\ ~ compiles (src_dir E) avro name (EStar (EStruct gfs)) c /\
  avro_field avro name "Field_Schema" (EStar (EIdent "UnionNullString")) /\ union_declared avro "UnionNullString" "String" (EIdent "string").
Proof.
  exists W0, (package []), nowhere, (pkg_of [("Item", meta ++ [fd "Field_Schema" (EStar (EIdent "UnionNullString"))]); union "UnionNullString" "String" str]), "Item", [fd "Schema" str], 10. eexists.
  split; [left; reflexivity|]. split; [vm_compute; reflexivity|]. split; [|split].
  - intros (_ & _ & Ht). destruct (rec_field _ _ _ _ _ _ "Field_Schema" _ Ht ltac:(left)) as (T & Hd & Hx).
    inversion Hx as [| | | | |x T1 Hl Hy|]; subst. inversion Hy as [| | | |r b y T2 Hb Hu Hz| |]; subst. inversion Hz as [p T3 Hp Hbas| | | | | |]; subst.
    apply path_ptr in Hp. revert Hp. apply selects_none; reflexivity.
  - eexists _, _. split; [vm_compute; reflexivity|]. split; [right; right; left|]. split; [left|reflexivity].
  - split; fit_decl.
Qed.
(** two slices of anonymous structs with the same Avro type *)
Definition same_g : list afield := [fd "Tags" (EArray (EStruct [fd "Name" str])); fd "More" (EStruct [fd "Tags" (EArray (EStruct [fd "Name" str]))])].
Definition same_a : list afield := meta ++ [fd "Tags" (EArray (EStar (EIdent "Tags_record"))); fd "More" (EStar (EIdent "More_record"))].
Definition avro3 : string -> option texpr := pkg_of [("Item", same_a); ("More_record", [fd "Tags" (EArray (EStar (EIdent "Tags_record")))]); ("Tags_record", [fd "Name" str])].
Lemma same_name : exists W E below avro name gfs afs n c, fits (src_dir E) avro (own_file W E) name gfs afs /\
  generate_mapping W E below avro n name (EStruct gfs) = Some (Some c) /\ ~ compiles (src_dir E) avro name (EStar (EStruct gfs)) c.
Proof.
  exists W0, (package []), nowhere, avro3, "Item", same_g, same_a, 20. eexists. split; [|split; [vm_compute; reflexivity|]].
  - assert (Ht : fit_rec (src_dir (package [])) avro3 "Tags_record" (EStruct [fd "Name" str])).
    { eapply fit_rec_intro; [split_and!; [test|reflexivity|test]|vm_compute; reflexivity|test|left; reflexivity|flat_closed|reflexivity|]. fields. apply fit_same. test. }
    assert (Hts : fit (src_dir (package [])) avro3 (EArray (EStar (EIdent "Tags_record"))) (EArray (EStruct [fd "Name" str]))).
    { apply fit_structs; [exact Ht|]. apply pr_struct; intros f Hf; each_in Hf. }
    split_and!; [reflexivity|test| |apply (one_type _ 0); [reflexivity|test]|unfold same_a, meta; cbn [app]; fields].
    + constructor; [test|intros f Hf; left; each_in Hf|intros e He; apply elem_of_nil in He as []|intros e fs' He; apply elem_of_nil in He as []].
    + exact Hts.
    + apply fit_struct. eapply fit_rec_intro; [split_and!; [test|reflexivity|test]|vm_compute; reflexivity|test|left; reflexivity|flat_closed|reflexivity|]. fields. exact Hts.
  - intros (Hd & _). cbn in Hd. apply NoDup_cons in Hd as [Hd _]. apply Hd. left.
Qed.
(** fields that are not printed *)
Lemma unprinted : forall t, t = EStar gotime \/ t = EArray gotime ->
  exists W E below avro name gfs n c, gfs = [fd "Parts" (EArray (EStruct [fd "At" t]))] /\
  generate_mapping W E below avro n name (EStruct gfs) = Some (Some c) /\ ~ compiles (src_dir E) avro name (EStar (EStruct gfs)) c /\
  exists A, avro_field avro "Parts_record" "At" A /\ fit (src_dir E) avro A t.
Proof.
  assert (Hno : forall types avro c T, (forall d, d ∈ mf_pre c -> fn_elem d <> EStruct [fd "At" T]) -> mf_fields c = [("Parts", XSlice "Parts_recordSlice" ["Parts"])] ->
    ~ compiles types avro "Item" (EStar (EStruct [fd "Parts" (EArray (EStruct [fd "At" T]))])) c).
  { intros types avro c T Hall Hf (_ & _ & Ht). rewrite Hf in Ht. destruct (rec_field _ _ _ _ _ _ "Parts" _ Ht ltac:(left)) as (T1 & Hd & Hx). inversion Hx as [| |d p Hin Hp| | | |]; subst.
    apply path_ptr in Hp. apply (selects_first _ _ _ (EArray (EStruct [fd "At" T]))) in Hp; [|reflexivity]. injection Hp as Hp. destruct (Hall _ Hin Hp). }
  intros t [->| ->].
  - exists W0, (package []), nowhere, (pkg_of [("Item", meta ++ [fd "Parts" (EArray (EStar (EIdent "Parts_record")))]); ("Parts_record", [fd "At" (EStar (EIdent "UnionNullLong"))]); union "UnionNullLong" "Long" long]), "Item".
    eexists _, 20, _. split; [reflexivity|]. split; [vm_compute; reflexivity|]. split.
    + apply Hno; [|reflexivity]. intros d Hd. apply elem_of_list_singleton in Hd as ->. discriminate.
    + exists (EStar (EIdent "UnionNullLong")). split; [|apply fit_union_time; split; fit_decl]. eexists _, _. split; [vm_compute; reflexivity|]. split; [left|]. split; [left|reflexivity].
  - exists W0, (package []), nowhere, (pkg_of [("Item", meta ++ [fd "Parts" (EArray (EStar (EIdent "Parts_record")))]); ("Parts_record", [fd "At" (EArray (EIdent "int64"))])]), "Item".
    eexists _, 20, _. split; [reflexivity|]. split; [vm_compute; reflexivity|]. split.
    + apply Hno; [|reflexivity]. intros d Hd. apply elem_of_list_singleton in Hd as ->. discriminate.
    + exists (EArray (EIdent "int64")). split; [|apply fit_times]. eexists _, _. split; [vm_compute; reflexivity|]. split; [left|]. split; [left|reflexivity].
Qed.
(** an object which is required and may be null *)
Lemma required_null : exists W E below avro name gfs n c, gfs = [fd "Site" (EStar (EIdent "Site"))] /\
  generate_mapping W E below avro n name (EStruct gfs) = Some (Some c) /\ ~ compiles (src_dir E) avro name (EStar (EStruct gfs)) c /\
  avro_field avro name "Site" (EStar (EIdent "Site_record")) /\ fit_rec (src_dir E) avro "Site_record" (EIdent "Site").
Proof.
  exists W0, E2, nowhere, (pkg_of [("Item", meta ++ [fd "Site" (EStar (EIdent "Site_record"))]); ("Site_record", [fd "Url" str])]), "Item". eexists _, 20, _.
  split; [reflexivity|]. split; [vm_compute; reflexivity|]. split; [|split].
  - intros (_ & _ & Ht). destruct (rec_field _ _ _ _ _ _ "Site" _ Ht ltac:(left)) as (T & Hd & Hx). inversion Hx as [| | | | | |ty p x T1 Hp Hy]; subst.
    inversion Hy as [| | | | |x T2 Hl Hz|]; subst. inversion Hz.
  - eexists _, _. split; [vm_compute; reflexivity|]. split; [right; right; left|]. split; [left|reflexivity].
  - eapply fit_rec_intro; [split_and!; [test|reflexivity|test]|vm_compute; reflexivity|test|right; exists "Site"; split_and!; [reflexivity|test|vm_compute; reflexivity]|flat_closed|reflexivity|].
    fields. apply fit_same. test.
Qed.
(** a struct in a struct that embeds another *)
Lemma embedded_below : exists W E avro name gfs, gfs = [fd "Site" (EIdent "Site")] /\ src_dir E "Site" = Some (EStruct [em "Base"]) /\
  own_file W E "Base" = Some (EStruct [fd "Id" (EIdent "string")]) /\ avro_field avro name "Site" (EStar (EIdent "Site_record")) /\ avro "Site_record" = Some (EStruct [fd "Id" (EIdent "string")]) /\
  forall n, 10 <= n -> generate_mapping W E (fun _ _ => None) avro n name (EStruct gfs) = Some None.
Proof.
  exists W0, (package [("Base", [fd "Id" str]); ("Site", [em "Base"])]), (pkg_of [("Item", meta ++ [fd "Site" (EStar (EIdent "Site_record"))]); ("Site_record", [fd "Id" str])]), "Item". eexists.
  split; [reflexivity|]. split; [vm_compute; reflexivity|]. split; [vm_compute; reflexivity|]. split; [eexists _, _; split; [vm_compute; reflexivity|split; [right; right; left|split; [left|reflexivity]]]|].
  split; [vm_compute; reflexivity|]. intros n Hn. do 10 (destruct n as [|n]; [lia|]). vm_compute. reflexivity.
Qed.

(** Structs and Avro records for the examples of C64 and C65. *)
From stdpp Require Import strings list gmap.
From Coq Require Import ZArith Lia.
From Verif Require Import GoStr Val Conv Avro AvroRun Mapper MapRun SpecMapper MapperL World.

Definition fd (n : string) (t : texpr) : afield := AField [n] t "" "".
Definition em (e : string) : afield := AField [] (EIdent e) "" "".
Definition pkg_of (l : list (string * list afield)) (n : string) : option texpr := EStruct <$> (list_to_map l : gmap string (list afield)) !! n.
Definition nowhere (_ _ : string) : option texpr := None.
(** a package in which each embedded struct has its own file *)
Definition package (l : list (string * list afield)) : sources :=
  Sources (fun file n => if decide (struct_to_filename W0 n = Some file) then pkg_of l n else None) (pkg_of l).

Definition str : texpr := EIdent "string".
Definition long : texpr := EIdent "int64".
Definition union (r b : string) (t : texpr) : string * list afield := (r, [fd "Null" (EStar (ESel "types" "NullVal")); fd b t; fd "UnionType" (EIdent (r +:+ "TypeEnum"))]).
Definition meta : list afield := [fd "AvroWriteTime" long; fd "AvroDeleted" (EIdent "bool")].

(** type Item struct { Base; Title string; Seen *time.Time; Tags []string; Parts []struct{ Name string; At time.Time };
    Site *Site; Schema string } *)
Definition parts_g : list afield := [fd "Name" str; fd "At" gotime].
Definition item_g : list afield :=
  [em "Base"; fd "Title" str; fd "Seen" (EStar gotime); fd "Tags" (EArray str); fd "Parts" (EArray (EStruct parts_g)); fd "Site" (EStar (EIdent "Site")); fd "Schema" str].
Definition site_g : list afield := [fd "Url" str].
Definition E1 : sources := package [("Base", [fd "Id" str; fd "Title" str]); ("Site", site_g)].
Definition parts_a : list afield := [fd "Name" str; fd "At" long].
Definition item_a : list afield :=
  meta ++ [fd "Id" str; fd "Title" (EStar (EIdent "UnionNullString")); fd "Seen" (EStar (EIdent "UnionNullLong")); fd "Tags" (EArray str);
           fd "Parts" (EArray (EStar (EIdent "Parts_record"))); fd "Site" (EStar (EIdent "UnionNullSite_record")); fd "Field_Schema" str].
Definition avro1 : string -> option texpr :=
  pkg_of [("Item", item_a); ("Parts_record", parts_a); ("Site_record", [fd "Url" str]); union "UnionNullString" "String" str; union "UnionNullLong" "Long" long;
          union "UnionNullSite_record" "Site_record" (EStar (EIdent "Site_record"))].

Ltac test := refine (bool_decide_eq_true_1 _ _); vm_compute; reflexivity.
Ltac here := first [left; done|right; here].
Ltac fit_vis := first [apply vis_own; vm_compute; here|eapply vis_emb; [vm_compute; here|vm_compute; reflexivity|test|fit_vis]].
Ltac fit_field := split; [first [exists 0; split; [vm_compute; reflexivity|intros; lia]|exists 1; split; [vm_compute; reflexivity|intros [|?] ?; [vm_compute; reflexivity|lia]]]|fit_vis].
Ltac fit_decl := unfold avro_field; eexists _, _; split; [vm_compute; reflexivity|];
  first [solve [split; [right; left|split; [left|reflexivity]]]|solve [split; [right; right; left|split; [left|reflexivity]]]].
Lemma closed_flat types fs : embs fs = [] -> NoDup (owns fs).*1 -> (forall f, f ∈ fs -> exists n, af_names f = [n] /\ has_prefix "Field_" n = false) -> closed types (fun _ => None) fs.
Proof.
  intros He Hn Hf. constructor.
  - rewrite He, app_nil_r. exact Hn.
  - intros f H. left. auto.
  - intros e H. rewrite He in H. apply elem_of_nil in H as [].
  - intros e fs' H. rewrite He in H. apply elem_of_nil in H as [].
Qed.
Ltac each_in H := repeat (apply elem_of_cons in H as [->|H]; [first [eexists; split; reflexivity|eexists; reflexivity|constructor]|]); apply elem_of_nil in H as [].
Ltac flat_closed := apply closed_flat; [reflexivity|test|intros f Hf; each_in Hf].
Ltac fields :=
  lazymatch goal with
  | |- fit_fields _ _ _ [] => apply fit_nil
  | |- fit_fields _ _ _ (?f :: _) =>
    let a := eval vm_compute in (hd "" (af_names f)) in
    let n := eval vm_compute in (if has_prefix "Field_" a then drop_str 6 a else a) in
    lazymatch eval vm_compute in (has_prefix "Avro" a) with
    | true => eapply fit_meta; [reflexivity|reflexivity|fields]
    | false => eapply (fit_cons _ _ _ _ _ _ n); [reflexivity|vm_compute; discriminate|vm_compute; reflexivity|fit_field|first [left; reflexivity|right; exact I]| |fields]
    end
  end.

Lemma parts_fit : fit_rec (src_dir E1) avro1 "Parts_record" (EStruct parts_g).
Proof.
  eapply fit_rec_intro; [split_and!; [test|reflexivity|test]|vm_compute; reflexivity|test|left; reflexivity|flat_closed|reflexivity|].
  fields; [apply fit_same; test|apply fit_time].
Qed.


Lemma site_fit : fit_rec (src_dir E1) avro1 "Site_record" (EIdent "Site").
Proof.
  eapply fit_rec_intro; [split_and!; [test|reflexivity|test]|vm_compute; reflexivity|test|right; exists "Site"; split_and!; [reflexivity|test|vm_compute; reflexivity]|flat_closed|reflexivity|].
  fields. apply fit_same. test.
Qed.
Lemma item_fits : fits (src_dir E1) avro1 (own_file W0 E1) "Item" item_g item_a.
Proof.
  split_and!; [reflexivity|test| |apply (one_type _ 1); [vm_compute; reflexivity|test]|].
  - constructor; [test| | |].
    + intros f Hf. apply elem_of_cons in Hf as [->|Hf]; [right; split; [reflexivity|eexists; reflexivity]|left; each_in Hf].
    + intros e He. vm_compute in He. apply elem_of_list_singleton in He as ->. split; [test|eexists; split; vm_compute; reflexivity].
    + intros e fs' He. vm_compute in He. apply elem_of_list_singleton in He as ->. intros Heq. vm_compute in Heq. injection Heq as <-. constructor; [test| | |].
      * intros f Hf. left. each_in Hf.
      * intros e He. apply elem_of_nil in He as [].
      * intros e fs' He. apply elem_of_nil in He as [].
  - unfold item_a, meta. cbn [app]. fields.
    + apply fit_same. test.
    + eapply (fit_union _ _ _ "String" "string"); [vm_compute; here|split; fit_decl|left; reflexivity].
    + apply fit_union_time. split; fit_decl.
    + apply fit_slice. test.
    + apply fit_structs; [exact parts_fit|]. apply pr_struct; intros f Hf; each_in Hf.
    + apply (fit_union_ptr _ _ "Site_record"); [split; fit_decl|exact site_fit].
    + apply fit_same. test.
Qed.
(** the code for Item *)
Definition item_code : mfields := MFields
  [("Id", XSel ["Id"]); ("Title", XAddr (XUnion "UnionNullString" "String" (XSel ["Title"])));
   ("Seen", XGuard "UnionNullLong" ["Seen"] (XAddr (XUnion "UnionNullLong" "Long" (XTime FOptTime ["Seen"])))); ("Tags", XSel ["Tags"]);
   ("Parts", XSlice "Parts_recordSlice" ["Parts"]);
   ("Site", XGuard "UnionNullSite_record" ["Site"] (XAddr (XUnion "UnionNullSite_record" "Site_record" (XAddr (XRec "Site_record" [("Url", XSel ["Site"; "Url"])])))));
   ("Field_Schema", XSel ["Schema"])]
  [FnDef "Parts_recordSlice" (EStruct parts_g) "Parts_record" [("Name", XSel ["Name"]); ("At", XTime FTime ["At"])]].
(** a value: a second after 1970 in one part, no site *)
Definition t1 : gtime := GTime 1 5000000 0.
Definition item1 : gv :=
  GRec [("Title", GStr "t"); ("Seen", GPtr (GTm t1)); ("Tags", GSlice [GStr "x"]); ("Parts", GSlice [GRec [("Name", GStr "p"); ("At", GTm t1)] []]); ("Site", GNil); ("Schema", GStr "s")]
    [("Base", GRec [("Id", GStr "1"); ("Title", GStr "hidden")] [])].
Lemma item1_ty : has_ty (src_dir E1) (EStruct item_g) item1.
Proof.
  apply ty_struct; cbn.
  - repeat constructor; intros v Hv; repeat (apply elem_of_cons in Hv as [->|Hv]; [try discriminate; repeat constructor|]); try (apply elem_of_nil in Hv as []).
  - constructor; [|constructor]. split; [reflexivity|]. eapply ty_named; [test|vm_compute; reflexivity|]. repeat constructor.
Qed.

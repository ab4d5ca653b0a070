(** C46, C47, C54, C59: the Avro schema generated for a Go struct. Vocabulary: SpecAvro.v. *)
From stdpp Require Import strings list gmap.
From Coq Require Import Ascii ZArith.
From Verif Require Import GoStr Val Conv Avro SpecAvro AvroL AvroMapL AvroCases World.

(** C46. The file is the JSON text of the schema the struct stands for, with all its fields in order (no doubled, leading or trailing
    commas). Missing for the full claim: see the refutations below; [fields] excludes them (a field left out is not the last one, an
    embedded struct has a field left, every line declares one field), and structs that are embedded twice. *)
Theorem C46_file_partial W o_quote E name fs ds es :
  plain_text name -> fields (go_lower W) E [] [] (go_names fs) fs ds es -> NoDup es -> ds <> [] ->
  exists s n, text (record_doc [] name (write_time :: deleted :: ds)) s /\
    forall fuel, n <= fuel -> avro_file W o_quote E fuel name (EStruct fs) = Some s.
Proof. exact (avro_file_thm W o_quote E name fs ds es). Qed.
Print Assumptions C46_file_partial.

Definition doc_fields : list afield :=
  [embed_field "Base"; AField ["X"] (EIdent "bool") "x,omitempty" "say ""x"""; AField ["At"] (EStar (ESel "time" "Time")) "at,omitempty" "";
   AField ["Parts"] (EArray (EIdent "Part")) "parts,omitempty" ""; AField ["M"] (EMap (EIdent "string") (EIdent "string")) "m" ""].
Definition doc_docs : list doc :=
  [DObj [("name", DStr "id"); ("namespace", DStr "Base"); ("type", DStr "string")];
   DObj [("name", DStr "x"); ("doc", DStr "say ""x"""); ("type", DStr "boolean"); ("default", DFalse)];
   DObj [("name", DStr "at"); ("type", DArr [DStr "null"; timestamp])];
   DObj [("name", DStr "parts"); ("type", DObj [("type", DStr "array"); ("items",
     DObj [("name", DStr "parts_record"); ("namespace", DStr "parts"); ("type", DStr "record"); ("fields", DArr [
       DObj [("name", DStr "n"); ("namespace", DStr "parts"); ("type", DArr [DStr "null"; DStr "long"])]])])])];
   DObj [("name", DStr "m"); ("type", DObj [("type", DStr "map"); ("values", DStr "string")])]].
Example C46_case : fields (go_lower W0) E0 [] [] (go_names doc_fields) doc_fields doc_docs ["Base"].
Proof.
  apply (fields_embedded _ _ _ _ _ "Base" "" "" [str_field "X" "" ""; str_field "ID" "id" ""] (tl doc_fields) (take 1 doc_docs) (tl doc_docs) [] []).
  - exists "B", ["a"; "s"; "e"]. split; reflexivity.
  - apply fields_left_out; [vm_compute; set_solver|done|].
    eapply own_as; [vm_compute; set_solver|reflexivity|reflexivity|reflexivity|repeat constructor|constructor|vm_compute; reflexivity].
  - done.
  - eapply own_as; [set_solver|reflexivity|reflexivity|reflexivity|repeat constructor| |vm_compute; reflexivity].
    eapply own_as; [set_solver|reflexivity|reflexivity|reflexivity|repeat constructor| |vm_compute; reflexivity].
    eapply own_as; [set_solver|reflexivity|reflexivity|reflexivity| | |vm_compute; reflexivity].
    + apply (stands_array _ _ _ _ _ (DObj _)). eapply stands_named; [unfold go_prims; set_solver|reflexivity|].
      eapply (stands_struct _ _ [] "parts"); [by apply plain_b_ok|by apply plain_b_ok|].
      eapply own_as; [set_solver|reflexivity|reflexivity|reflexivity| |constructor|reflexivity]. constructor. apply prim_long. set_solver.
    + eapply own_as; [set_solver|reflexivity|reflexivity|reflexivity|repeat constructor|constructor|vm_compute; reflexivity].
Qed.
(** It is false in general: if the last field of an embedded struct is left out there is a doubled comma ... *)
Theorem C46_doubled_refuted : exists E fs s, avro_file W0 id E 20 "Doc" (EStruct fs) = Some s /\ forall d, ~ text d s.
Proof.
  exists E0, [embed_field "Base"; str_field "ID" "" ""]. eexists. split; [vm_compute; reflexivity|]. apply not_text. vm_compute. reflexivity.
Qed.
Print Assumptions C46_doubled_refuted.
(** ... and a struct without fields gives a trailing comma ... *)
Theorem C46_trailing_refuted : exists E s, avro_file W0 id E 20 "Doc" (EStruct []) = Some s /\ forall d, ~ text d s.
Proof. exists E0. eexists. split; [vm_compute; reflexivity|]. apply not_text. vm_compute. reflexivity. Qed.
Print Assumptions C46_trailing_refuted.
(** ... and descriptions with control characters are written with escapes that JSON does not have. *)
Theorem C46_escape_refuted : exists E fs s, avro_file W0 id E 20 "Doc" (EStruct fs) = Some s /\ forall d, ~ text d s.
Proof.
  exists E0, [str_field "ID" "" (String "007" "")]. eexists. split; [vm_compute; reflexivity|]. apply bad_escape. vm_compute. reflexivity.
Qed.
Print Assumptions C46_escape_refuted.

(** C47. A type is written as the Avro type it stands for; for a field that may be left out, as a union with null first. Arrays, maps and
    booleans are written without a union. Missing: those three. *)
Theorem C47_type_partial W o_quote E ns name t d es : stands (go_lower W) E ns name t d es -> NoDup es ->
  exists s n, text d s /\ forall fuel, n <= fuel ->
    conv_type W o_quote E fuel ns t name false [] = Some (s, rev es) /\
    exists s', conv_type W o_quote E fuel ns t name true [] = Some (s', rev es) /\
      (may_union t = true -> text (or_null d) s') /\ (is_bool t = true -> s' = s +:+ ",""default"":false") /\
      (may_union t = false -> is_bool t = false -> s' = s).
Proof. exact (avro_type_thm W o_quote E ns name t d es). Qed.
Print Assumptions C47_type_partial.
Example C47_case : stands (go_lower W0) E0 [] "a" (EStar (EIdent "float64")) (DStr "double") [] /\ may_union (EStar (EIdent "float64")) = true /\
  conv_type W0 id E0 5 [] (EStar (EIdent "float64")) "a" true [] = Some ("[""null"",""double""]", []).
Proof. split; [repeat constructor|]. split; reflexivity. Qed.
(** An optional array has the type of an array that is always there. *)
Theorem C47_nullable_refuted : exists t s, conv_type W0 id E0 5 [] t "a" true [] = Some (s, []) /\ conv_type W0 id E0 5 [] t "a" false [] = Some (s, []).
Proof. exists (EArray (EIdent "string")). eexists. split; vm_compute; reflexivity. Qed.
Print Assumptions C47_nullable_refuted.
(** Recursive types never end. *)
Theorem C47_recursive_refuted : exists E, forall fuel, conv_type W0 id E fuel [] (EIdent "Tree") "a" false [] = None.
Proof. exact recursive_type. Qed.
Print Assumptions C47_recursive_refuted.

(** C54. The field that is mapped for a name is the one the struct declares itself, or else the one of the first embedded struct that has it. *)
Theorem C54_fields W E : (forall file n t, src_file E file n = Some t -> exists gs, t = EStruct gs) ->
  forall fuel fs m, map_fields W E fuel fs = Some (Some m) -> forall k f, m !! k = Some f <-> finds (go_lower W) E fs k f.
Proof. exact (map_fields_thm W id E). Qed.
Print Assumptions C54_fields.
(** That is one field. *)
Theorem C54_one W E fs k f g : finds (go_lower W) E fs k f -> finds (go_lower W) E fs k g -> f = g.
Proof. exact (fun F => proj1 (proj1 (finds_unique W id E) fs k f F) g). Qed.
Print Assumptions C54_one.
Example C54_case : (fun m : option (option (gmap string afield)) => match m with Some (Some m) => Some (m !! "X", m !! "ID", m !! "Y", m !! "Field_Get") | _ => None end)
    (map_fields W0 E0 5 [str_field "X" "own" ""; embed_field "Mid"; str_field "Get" "" ""]) =
  Some (Some (str_field "X" "own" ""), Some (str_field "ID" "id" ""), Some (str_field "Y" "" ""), Some (str_field "Get" "" "")) /\
  (forall file n t, src_file E0 file n = Some t -> exists gs, t = EStruct gs).
Proof.
  split; [vm_compute; reflexivity|]. intros file n t. cbn [src_file E0].
  destruct (decide _); [intros [= <-]; eauto|]. destruct (decide _); [intros [= <-]; eauto|done].
Qed.

(** C59. Every field of a struct has one entry in its schema. False: a field of a struct embedded two levels down is written even though the
    outer struct has a field of that name ... *)
Theorem C59_twice_refuted : exists E fs ds es s, fields (go_lower W0) E [] [] (go_names fs) fs ds es /\ NoDup es /\
  avro_file W0 id E 20 "Doc" (EStruct fs) = Some s /\ text (record_doc [] "Doc" (write_time :: deleted :: ds)) s /\
  exists n a b c m1 m2, ds = a ++ DObj (("name", DStr n) :: m1) :: b ++ DObj (("name", DStr n) :: m2) :: c.
Proof. exact twice_written. Qed.
Print Assumptions C59_twice_refuted.
(** ... and a struct that is embedded in two places has its fields in the first one only. *)
Theorem C59_lost_refuted : exists E t f, avro_file W0 id E 20 "Doc" (EStruct [AField ["A"] t "a" ""; AField ["B"] t "b" ""]) = Some f /\
  length (split f """name"":""id""") = 2 /\ length (split f """name"":""z""") = 3.
Proof. exact fields_lost. Qed.
Print Assumptions C59_lost_refuted.

(** C47: types that are declared as arrays. *)
From stdpp Require Import strings list gmap.
From Coq Require Import Ascii.
From Verif Require Import GoStr Val Conv Avro SpecAvro AvroL AvroMapL AvroCases World.

(** C47. A type that is declared as an array of a struct is written as the struct: one record in place of an array of records. *)
Theorem C47_array_lost W o_quote E fuel ns id fs name nullable seen : prim_name id = None -> src_dir E id = Some (EArray (EStruct fs)) ->
  conv_type W o_quote E fuel ns (EIdent id) name nullable seen = conv_type W o_quote E fuel ns (EStruct fs) name nullable seen.
Proof. intros Hp Hs. destruct fuel as [|[|n]]; [done|..]; cbn [conv_type]; rewrite Hp, Hs; reflexivity. Qed.
Print Assumptions C47_array_lost.
(** type Parts []struct{ N int64 } *)
Definition E_parts : sources := {| src_file _ _ := None;
  src_dir n := if decide (n = "Parts") then Some (EArray (EStruct [AField ["N"] (EIdent "int64") "n" ""])) else None |}.
Example C47_array_lost_case : prim_name "Parts" = None /\ src_dir E_parts "Parts" = Some (EArray (EStruct [AField ["N"] (EIdent "int64") "n" ""])) /\
  conv_type W0 id E_parts 9 [] (EIdent "Parts") "parts" false [] =
  Some ("{""name"":""parts_record"",""namespace"":""parts"",""type"":""record"",""fields"":[{""name"":""n"",""namespace"":""parts"",""type"":""long""}]}", []).
Proof. split_and!; vm_compute; reflexivity. Qed.

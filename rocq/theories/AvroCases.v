(** Structs for the examples and refutations about Avro schemas. *)
From stdpp Require Import strings list gmap.
From Coq Require Import Ascii ZArith.
From Verif Require Import GoStr Val Conv Avro SpecAvro AvroL AvroMapL World.

Definition str_field (go json desc : string) : afield := AField [go] (EIdent "string") json desc.
Definition embed_field (e : string) : afield := AField [] (EIdent e) "" "".
(** type Base struct { X string; ID string `json:"id"` }; type Mid struct { Base; Y string }; type Part struct { N int64 `json:"n,omitempty"` } *)
Definition E0 : sources := {|
  src_file f n := if decide (f = "base.go" /\ n = "Base") then Some (EStruct [str_field "X" "" ""; str_field "ID" "id" ""]) else
                  if decide (f = "mid.go" /\ n = "Mid") then Some (EStruct [embed_field "Base"; str_field "Y" "" ""]) else None;
  src_dir n := if decide (n = "Part") then Some (EStruct [AField ["N"] (EIdent "int64") "n,omitempty" ""]) else None |}.
(** type Tree struct { L *Tree } *)
Definition E1 : sources := {| src_file _ _ := None;
  src_dir n := if decide (n = "Tree") then Some (EStruct [AField ["L"] (EStar (EIdent "Tree")) "" ""]) else None |}.
Lemma tree_none fuel : forall ns name, conv_type W0 id E1 fuel ns (EIdent "Tree") name false [] = None.
Proof.
  induction (lt_wf fuel) as [fuel _ IH]. intros ns name. destruct fuel as [|f1]; [done|].
  change (nested W0 id E1 f1 ns (EStruct [AField ["L"] (EStar (EIdent "Tree")) "" ""]) name false [] = None).
  destruct f1 as [|f2]; [done|]. rewrite nested_S. destruct f2 as [|[|f3]]; [done|done|]. rewrite lists_S.
  rewrite fields_S. destruct f3 as [|f4]; [done|]. rewrite field_own. rewrite decide_False by set_solver. cbv zeta.
  destruct f4 as [|f5]; [done|].
  change (conv_type W0 id E1 (S f5) ?ns (EStar ?t) ?n ?b ?s) with (conv_type W0 id E1 f5 ns t n b s).
  change (optional (go_lower W0) (AField ["L"] (EStar (EIdent "Tree")) "" "")) with false. rewrite IH by lia. done.
Qed.
Lemma recursive_type : exists E, forall fuel, conv_type W0 id E fuel [] (EIdent "Tree") "a" false [] = None.
Proof. exists E1. intros fuel. apply tree_none. Qed.

Ltac plains := (apply plain_b_ok; reflexivity).
Lemma own_as ns excl own go ty json desc fs d ds es (f := AField [go] ty json desc) d' : go ∉ excl -> plain_b (avro_name f go) = true -> plain_b desc = true ->
  plain_b (join "." ns) = true -> stands (go_lower W0) E0 ns (avro_name f go) ty d [] -> fields (go_lower W0) E0 ns excl own fs ds es ->
  d' = field_doc ns (avro_name f go) desc (if optional (go_lower W0) f && may_union ty then or_null d else d) (optional (go_lower W0) f && is_bool ty) ->
  fields (go_lower W0) E0 ns excl own (f :: fs) (d' :: ds) es.
Proof. intros ? ?%plain_b_ok ?%plain_b_ok ?%plain_b_ok ? ? ->. by apply (fields_own _ _ _ _ _ go ty json desc fs d ds [] es). Qed.
Lemma own_str ns excl own go json desc fs ds es (f := str_field go json desc) : go ∉ excl -> plain_text (avro_name f go) -> plain_text desc -> plain_text (join "." ns) ->
  fields (go_lower W0) E0 ns excl own fs ds es ->
  fields (go_lower W0) E0 ns excl own (f :: fs) (field_doc ns (avro_name f go) desc (if optional (go_lower W0) f && true then or_null (DStr "string") else DStr "string") (optional (go_lower W0) f && false) :: ds) es.
Proof. intros. apply (fields_own _ _ _ _ _ go (EIdent "string") json desc fs (DStr "string") ds [] es); try done. repeat constructor. Qed.
Lemma twice_written : exists E fs ds es s, fields (go_lower W0) E [] [] (go_names fs) fs ds es /\ NoDup es /\
  avro_file W0 id E 20 "Doc" (EStruct fs) = Some s /\ text (record_doc [] "Doc" (write_time :: deleted :: ds)) s /\
  exists n a b c m1 m2, ds = a ++ DObj (("name", DStr n) :: m1) :: b ++ DObj (("name", DStr n) :: m2) :: c.
Proof.
  set (fs := [embed_field "Mid"; str_field "X" "" ""]).
  assert (F : exists ds, fields (go_lower W0) E0 [] [] (go_names fs) fs ds ["Base"; "Mid"] /\
    exists n a b c m1 m2, ds = a ++ DObj (("name", DStr n) :: m1) :: b ++ DObj (("name", DStr n) :: m2) :: c).
  { eexists. split.
    - change ["Base"; "Mid"] with (["Base"] ++ "Mid" :: []).
      eapply (fields_embedded _ _ _ _ _ "Mid" _ _ [embed_field "Base"; str_field "Y" "" ""]).
      + exists "M", ["i"; "d"]. split; reflexivity.
      + change ["Base"] with ([] ++ "Base" :: []). eapply (fields_embedded _ _ _ _ _ "Base" _ _ [str_field "X" "" ""; str_field "ID" "id" ""]).
        * exists "B", ["a"; "s"; "e"]. split; reflexivity.
        * apply own_str; [vm_compute; set_solver|plains|plains|plains|]. apply own_str; [vm_compute; set_solver|plains|plains|plains|]. constructor.
        * done.
        * apply own_str; [vm_compute; set_solver|plains|plains|plains|]. constructor.
      + done.
      + apply own_str; [set_solver|plains|plains|plains|]. constructor.
    - exists "X". eexists [], [_; _], [], _, _. reflexivity. }
  destruct F as (ds & F & D). exists E0, fs, ds, ["Base"; "Mid"].
  assert (N : NoDup ["Base"; "Mid"]) by (refine (bool_decide_eq_true_1 (NoDup _) _); vm_compute; done).
  destruct (avro_file_thm W0 id E0 "Doc" fs ds _ ltac:(plains) F N) as (s & n & T & H).
  { destruct D as (? & [|? ?] & ? & ? & ? & ? & ->); done. }
  exists s. split; [done|]. split; [done|]. split; [|done].
  assert (K : exists s', avro_file W0 id E0 20 "Doc" (EStruct fs) = Some s' /\ avro_file W0 id E0 (20 + n) "Doc" (EStruct fs) = Some s').
  { eexists. split; [vm_compute; reflexivity|]. vm_compute. reflexivity. }
  destruct K as (s' & K1 & K2). rewrite H in K2 by lia. congruence.
Qed.
Lemma fields_lost : exists E t f, avro_file W0 id E 20 "Doc" (EStruct [AField ["A"] t "a" ""; AField ["B"] t "b" ""]) = Some f /\
    length (split f """name"":""id""") = 2 /\ length (split f """name"":""z""") = 3.
Proof.
  exists E0, (EStruct [embed_field "Base"; str_field "Z" "z" ""]). eexists. split; [vm_compute; reflexivity|]. split; vm_compute; reflexivity.
Qed.

(** Fields that are lost from an Avro schema when two calls fail. *)
From stdpp Require Import strings list gmap.
From Coq Require Import Ascii Lia.
From Verif Require Import GoStr GoStrL Val Conv Schema Inst Load SpecFiles SpecWhole Gen GenL Files FilesL Gql Avro GoSrc Mapper Template Whole WholeL Crash CrashL Fault SpecFault FaultL FaultP.
Set Default Proof Using "Type".

Section lost.
Context (W : oracles) (o_quote : string -> string) (E : sources).
(** the text of a plain field *)
Definition plain_text (f : afield) : string :=
  let go := hd "" (af_names f) in
  let name := if decide (tag_name f = "") then go else tag_name f in
  field_text o_quote [] name (af_desc f)
    match af_type f with EIdent id => match prim_name id with Some p => prim_text o_quote p (tag_omit W f) | None => "" end | _ => time_text (tag_omit W f) end.
Fixpoint commas (l : list string) : list string := match l with [] => [] | p :: l' => match l' with [] => [p] | _ => p :: "," :: commas l' end end.
Lemma plain_piece n own f seen : plain f -> field_pieces W o_quote E (S (S n)) [] [] own f seen = Some (Some [plain_text f], seen).
Proof.
  intros (go & Hn & H). rewrite field_pieces_S. unfold plain_text. rewrite Hn. cbn [hd]. destruct (decide (go ∈ [])) as [K|_]; [by apply elem_of_nil in K|]. cbn zeta.
  destruct H as [(id & p & -> & Hp)|(pk & ->)]; cbn [conv_type]; [by rewrite Hp|]. by destruct (decide ("Time" = "Time")).
Qed.
Lemma plain_pieces own fs : Forall plain fs -> forall n i len seen, length fs < n -> i + length fs = len -> 
  fields_pieces W o_quote E (S n) [] [] own len i fs seen = Some (commas (map plain_text fs), seen).
Proof.
  induction 1 as [|f fs Hf Hfs IH]; intros n i len seen Hn Hl; [done|]. rewrite fields_pieces_S. cbn [length] in *. destruct n as [|[|n]]; [lia| |].
  { destruct fs; cbn in Hn; lia. }
  rewrite (plain_piece _ _ _ _ Hf). cbn [obind]. rewrite (IH (S n) (S i) len seen); [|lia..]. cbn [obind]. f_equal. f_equal.
  destruct fs as [|g fs]; cbn [length] in *; destruct (decide (S i = len)); try lia; done.
Qed.
Lemma plain_number fs : Forall plain fs -> num_fields fs = length fs.
Proof. induction 1 as [|f fs (go & Hn & _) _ IH]; [done|]. change (num_fields (f :: fs)) with (match af_names f with [] => 1 | l => length l end + num_fields fs). rewrite Hn, IH. done. Qed.
Lemma plain_list fs n : Forall plain fs -> length fs < n -> list_pieces W o_quote E (S (S n)) [] [] [fs] [] = Some (commas (map plain_text fs), []).
Proof.
  intros H Hn. rewrite list_pieces_S, (plain_pieces _ fs H); [|lia|by rewrite plain_number]. cbn [obind]. rewrite list_pieces_S. cbn. by rewrite app_nil_r.
Qed.
Lemma commas_middle a p q b : exists l, commas (a ++ p :: q :: b) = l ++ p :: "," :: commas (q :: b) /\ commas (a ++ q :: b) = l ++ commas (q :: b) /\ length l = 2 * length a.
Proof.
  induction a as [|x a (l & H1 & H2 & H3)]; [by exists []|]. exists (x :: "," :: l). split_and!; [..|cbn; lia].
  - transitivity (x :: "," :: commas (a ++ p :: q :: b)); [by destruct a|by rewrite H1].
  - transitivity (x :: "," :: commas (a ++ q :: b)); [by destruct a|by rewrite H2].
Qed.
(** the calls number [m] and [m+1] fail *)
Definition two (m : nat) (i : nat) : option nat := if decide (i = m \/ i = S m) then Some 0 else None.
Lemma pieces_before m f ps : forall t s, io_calls s + length ps <= m ->
  put_pieces (two m) f ps t s = (t +:+ glue ps, Io (io_calls s + length ps) (io_failed s) (io_disk s)).
Proof.
  induction ps as [|p ps IH]; intros t s H; cbn [put_pieces length] in *; [rewrite sapp_nil_r, Nat.add_0_r; by destruct s|].
  unfold Fault.ask, two. destruct (decide _) as [K|_]; [lia|]. change (fun i => if decide (i = m \/ i = S m) then Some 0 else None) with (two m).
  rewrite IH; [|cbn; lia]. cbn [io_calls io_failed io_disk]. rewrite Nat.add_succ_r. cbn [Nat.add glue foldr]. change (foldr String.append "" ps) with (glue ps). by rewrite app_assoc_s.
Qed.
Lemma pieces_after m f ps : forall t s, S m < io_calls s ->
  put_pieces (two m) f ps t s = (t +:+ glue ps, Io (io_calls s + length ps) (io_failed s) (io_disk s)).
Proof.
  induction ps as [|p ps IH]; intros t s H; cbn [put_pieces length] in *; [rewrite sapp_nil_r, Nat.add_0_r; by destruct s|].
  unfold Fault.ask, two. destruct (decide _) as [K|_]; [lia|]. change (fun i => if decide (i = m \/ i = S m) then Some 0 else None) with (two m).
  rewrite IH; [|cbn; lia]. cbn [io_calls io_failed io_disk]. rewrite Nat.add_succ_r. cbn [Nat.add glue foldr]. change (foldr String.append "" ps) with (glue ps). by rewrite app_assoc_s.
Qed.
Lemma pieces_app flt f a b t s : put_pieces flt f (a ++ b) t s = (let (t', s') := put_pieces flt f a t s in put_pieces flt f b t' s').
Proof. revert t s. induction a as [|p a IH]; intros t s; [done|]. cbn [app put_pieces]. destruct (Fault.ask flt (AvscPiece f) s) as [[k|] s1]; apply IH. Qed.
Lemma field_lost name fs1 f g fs2 n file s (m := io_calls s + 3 + 2 * length fs1) : Forall plain (fs1 ++ f :: g :: fs2) -> length (fs1 ++ f :: g :: fs2) < n ->
  exists ps s' t, list_pieces W o_quote E (S (S n)) [] [] (field_lists (EStruct (fs1 ++ f :: g :: fs2))) [] = Some (ps, []) /\
    avsc_faulty (two m) file (header o_quote [] name metadata) ps s = (s', true) /\
    io_failed s' = io_failed s ++ [AvscPiece file; AvscPiece file] /\
    avro_file W o_quote E (S (S n)) name (EStruct (fs1 ++ g :: fs2)) = Some t /\ io_disk s' = apply_write (io_disk s) (WOut file t).
Proof.
  intros H Hn. assert (H' : Forall plain (fs1 ++ g :: fs2)).
  { rewrite Forall_app in *. destruct H as [H1 H2]. split; [done|]. by inversion H2. }
  destruct (commas_middle (map plain_text fs1) (plain_text f) (plain_text g) (map plain_text fs2)) as (l & L1 & L2 & L3). rewrite map_length in L3.
  set (rest := commas (plain_text g :: map plain_text fs2)) in *.
  assert (E1 : list_pieces W o_quote E (S (S n)) [] [] (field_lists (EStruct (fs1 ++ f :: g :: fs2))) [] = Some (l ++ plain_text f :: "," :: rest, [])).
  { change (field_lists (EStruct ?x)) with [x]. rewrite plain_list; [|done..]. by rewrite map_app, <- L1. }
  assert (E2 : list_pieces W o_quote E (S (S n)) [] [] (field_lists (EStruct (fs1 ++ g :: fs2))) [] = Some (l ++ rest, [])).
  { change (field_lists (EStruct ?x)) with [x]. rewrite plain_list; [by rewrite map_app, <- L2|done|]. rewrite app_length in *. cbn [length] in *. lia. }
  eexists _, _, _. split; [exact E1|]. unfold avsc_faulty.
  unfold Fault.ask at 1. unfold two at 1. destruct (decide _) as [K|_]; [unfold m in K; lia|].
  rewrite pieces_before; [|cbn; unfold m; lia]. unfold Fault.ask at 1. unfold two at 1. cbn [io_calls io_failed io_disk length]. destruct (decide _) as [K|_]; [unfold m in K; lia|].
  rewrite pieces_app, pieces_before; [|cbn [io_calls]; unfold m; lia]. cbn [put_pieces]. unfold Fault.ask at 1. unfold two at 1. cbn [io_calls io_failed io_disk].
  destruct (decide _) as [_|K]; [|unfold m in K; lia]. unfold Fault.ask at 1. unfold two at 1. cbn [io_calls io_failed io_disk]. destruct (decide _) as [_|K]; [|unfold m in K; lia].
  rewrite pieces_after; [|cbn [io_calls]; unfold m; lia]. cbn [io_calls io_failed io_disk]. unfold Fault.ask at 1. unfold two at 1. cbn [io_calls io_failed io_disk].
  destruct (decide _) as [K|_]; [unfold m in K; lia|]. unfold Fault.checked, Fault.ask, two. cbn [io_calls io_failed io_disk]. destruct (decide _) as [K|_]; [unfold m in K; lia|].
  split_and!; [reflexivity|cbn; by rewrite <- app_assoc| |].
  - unfold avro_file. rewrite (proj1 (pieces_text W o_quote E (S (S n)))), E2. reflexivity.
  - cbn [write_to io_disk io_calls io_failed fst]. do 2 f_equal. rewrite glue_app. assert (B0 : forall p, first_bytes 0 p = "") by (by intros []). rewrite !B0, !sapp_nil_r.
    cbn [glue foldr]. rewrite !sapp_nil_r. change ("" +:+ "{") with "{". by rewrite !app_assoc_s.
Qed.
End lost.

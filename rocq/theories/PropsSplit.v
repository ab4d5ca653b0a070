(** C09: where `split` cuts. Vocabulary: SpecText.v. *)
From stdpp Require Import strings list gmap.
From Coq Require Import Ascii NArith.
From Verif Require Import GoStr Val Conv Instr SpecOps SpecText World SplitL.

(** C09. `split` cuts at the first place where the separator occurs, then at the first place after it, and so on: in each piece followed by the
    separator, the separator occurs only at the end. *)
Theorem C09_split_leftmost W V (view : V -> vw V) args sep raw s : args !! "on" = Some sep -> sep <> "" -> holds_string view raw s ->
  exists pieces, op_run W view (OpSplit args) raw = Ok (GL ((fun p => GS (SStr p)) <$> pieces)) /\ Forall (first_at_end sep) (removelast pieces).
Proof. exact (op_split_leftmost W V view args sep raw s). Qed.
Print Assumptions C09_split_leftmost.
(** With the empty separator the pieces are the characters of the text. *)
Theorem C09_split_characters W V (view : V -> vw V) args raw chars : args !! "on" = Some "" -> Forall character chars -> holds_string view raw (join "" chars) ->
  op_run W view (OpSplit args) raw = Ok (GL ((fun p => GS (SStr p)) <$> chars)).
Proof. exact (op_split_chars W V view args raw chars). Qed.
Print Assumptions C09_split_characters.
Definition an_e : string := String (ascii_of_N 195) (String (ascii_of_N 169) "").
Definition a_euro : string := String (ascii_of_N 226) (String (ascii_of_N 130) (String (ascii_of_N 172) "")).
Example C09_split_chars_case : Forall character ["a"; an_e; a_euro] /\
  op_run W0 tview (OpSplit {["on" := ""]}) (GS (SStr (join "" ["a"; an_e; a_euro]))) = Ok (GL [GS (SStr "a"); GS (SStr an_e); GS (SStr a_euro)]) /\
  first_at_end "aa" "" /\ ~ first_at_end "aa" "a" /\
  op_run W0 tview (OpSplit {["on" := "aa"]}) (GS (SStr "aaab")) = Ok (GL [GS (SStr ""); GS (SStr "ab")]).
Proof.
  split; [repeat constructor; vm_compute; done|]. split; [vm_compute; reflexivity|]. split; [|split; [|vm_compute; reflexivity]].
  - intros [|x a] b H; [by destruct b|]. cbn in H. injection H as _ H. destruct a as [|y a]; [by cbn in H|]. cbn in H. injection H as _ H. by destruct a.
  - intros H. specialize (H "" "a" eq_refl). done.
Qed.

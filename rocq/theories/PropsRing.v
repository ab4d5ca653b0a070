(** C34: files whose references form a cycle. Vocabulary: SpecRing.v. *)
From stdpp Require Import strings list gmap relations.
From Verif Require Import GoStr Val Schema Inst Load SpecLoad SpecRef SpecRing DerefL RingL Cases CaseLoad.
From Verif Require Den.

(** C34. A file that is on a cycle of references between files, or leads to one, is never loaded, however long it takes: C34_files_partial
    cannot be extended to such files. *)
Theorem C34_cycle_never F ty fl p : leads_to_cycle F p -> forall n j, load_schema F ty fl n p <> Some (Ok j).
Proof. exact (cycle_never F ty fl p). Qed.
Print Assumptions C34_cycle_never.
(** Nor is one from which one can follow such references for ever without coming back. *)
Theorem C34_endless_never F ty fl (S : string -> Prop) : (forall p, S p -> exists q, S q /\ refers_to_file F p q) ->
  forall n p j, S p -> load_schema F ty fl n p <> Some (Ok j).
Proof. exact (ring_set_never F ty fl S). Qed.
Print Assumptions C34_endless_never.
Example C34_cycle_case : leads_to_cycle ring "/s/a.json".
Proof.
  assert (forall p r, f_file ring p = Some (file_to r) -> file_part r -> "/s/" +:+ r <> p -> refers_to_file ring p ("/s/" +:+ r)) as H.
  { intros p r Hf Hr Hn. exists [("type", jstr "object"); ("properties", TObj [("p", ref_to r [])])], ["properties"; "p"], r, [].
    assert (distinctb (file_to r) = true) as Hd by (vm_compute; reflexivity). apply distinctb_ok in Hd.
    split_and!; try done; [|by left|].
    - exists [("$ref", jstr r)]. split; [|done]. eapply reach_member; [done|]. eapply reach_member; [done|]. constructor.
    - intros π' r' Hr' Hne. apply find_refs_complete in Hr'. change (π' ++ ["$ref"] ∈ [["properties"; "p"; "$ref"]]) in Hr'.
      apply elem_of_list_singleton in Hr'. apply (app_inj_tail π' ["properties"; "p"] "$ref" "$ref") in Hr' as [-> _]. done. }
  exists "/s/a.json". split; [constructor|]. eapply tc_l; [apply (H "/s/a.json" "b.json")|apply tc_once, (H "/s/b.json" "a.json")]; done.
Qed.

(** Three files: the first refers to the second, which refers to a definition it does not have; the third to a URL. *)
From stdpp Require Import strings list gmap.
From Coq Require Import Ascii ZArith.
From Verif Require Import GoStr GoStrL Val Schema Inst Load SpecRef SpecDang DerefL World Cases CaseLoad DangL.
From Verif Require Den.

Definition dang_first : tree := TObj [("type", jstr "object"); ("properties", TObj [("p", ref_to "second.json#/definitions/a" [("description", jstr "beside")])])].
Definition dang_second : tree := TObj [("type", jstr "object"); ("definitions", TObj [("a", typed "string" [])]);
  ("properties", TObj [("l", arr_schema (ref_to "#/definitions/a" [("properties", TObj [("q", ref_to "#/definitions/none" [])])]) [])])].
Definition dang_third : tree := TObj [("type", jstr "object"); ("properties", TObj [("u", ref_to "http://example.com/schema.json" [])])].
Definition dang_files (p : string) : option tree :=
  if decide (p = "/s/first.json") then Some dang_first else if decide (p = "/s/second.json") then Some dang_second else
  if decide (p = "/s/third.json") then Some dang_third else None.
Definition dang : files := Files dang_files (fun _ => None) (fun _ => true) (fun _ r => "/s/" +:+ r).
Lemma second_broken ty fl : broken dang ty fl "/s/second.json".
Proof.
  eapply (broken_ref _ _ _ _ dang_second ["properties"; "l"; "items"; "properties"; "q"] "#/definitions/none").
  - by vm_compute.
  - apply distinctb_ok. by vm_compute.
  - eexists. split; [do 5 (eapply reach_member; [vm_compute; reflexivity|]); constructor|by vm_compute].
  - eapply (dangling_own _ _ _ _ _ _ ["definitions"; "none"]).
    + split; [by apply simple_ok|by left].
    + apply no_object_pget. intros o. vm_compute. done.
    + by apply not_below_ok.
Qed.
Lemma first_broken ty fl : broken dang ty fl "/s/first.json".
Proof.
  eapply (broken_ref _ _ _ _ dang_first ["properties"; "p"] "second.json#/definitions/a").
  - by vm_compute.
  - apply distinctb_ok. by vm_compute.
  - eexists. split; [do 2 (eapply reach_member; [vm_compute; reflexivity|]); constructor|by vm_compute].
  - eapply (dangling_file _ _ _ _ _ _ "second.json" ["definitions"; "a"]).
    + split; [done|]. split; [done|]. split; [right; by apply simple_ok|by vm_compute].
    + done.
    + by vm_compute.
    + apply second_broken.
Qed.
Lemma third_broken ty fl : broken dang ty fl "/s/third.json".
Proof.
  eapply (broken_ref _ _ _ _ dang_third ["properties"; "u"] "http://example.com/schema.json").
  - by vm_compute.
  - apply distinctb_ok. by vm_compute.
  - eexists. split; [do 2 (eapply reach_member; [vm_compute; reflexivity|]); constructor|by vm_compute].
  - eapply (dangling_url _ _ _ _ _ _ "http://example.com/schema.json" []).
    + split; [done|]. split; [done|]. split; [by left|done].
    + done.
    + done.
Qed.

(** A sample schema for XML. *)
From stdpp Require Import strings list gmap.
From Coq Require Import ZArith.
From Verif Require Import GoStr Val Conv Instr Heap Schema Build Api World SpecPath Den SpecSchema SpecProj SpecXml Cases.

(** {"name": string from //name, "tags": array from //tag of {"label": string from `.`}, "more": array from //none with a default,
     "head": object from //tag with a member "first" from `.`} *)
Definition text_here : tree := typed "string" [from_xpaths ["."]].
Definition xml_props : list (string * tree) :=
  [("name", typed "string" [from_xpaths ["//none"; "//name"]]);
   ("tags", arr_schema (obj_schema [("label", text_here)] []) [from_xpaths ["//tag"]]);
   ("more", arr_schema (typed "string" []) [from_xpaths ["//none"]; ("default", TArr [jstr "d"])]);
   ("head", obj_schema [("first", text_here)] [from_xpaths ["//tag"]])].
Definition at_paths (l : list string) : option xsec := Some (MFirst, "", (fun p => (p, [])) <$> l).
Definition here_sch : xsch := XLeaf "string" (TS SNil) (at_paths ["."]).
Definition xml_sch : xsch :=
  XRec None
  [("name", XLeaf "string" (TS SNil) (at_paths ["//none"; "//name"]));
   ("tags", XLst [] (at_paths ["//tag"]) (XRec None [("label", here_sch)]));
   ("more", XLst [jstr "d"] (at_paths ["//none"]) (XLeaf "string" (TS SNil) None));
   ("head", XRec (at_paths ["//tag"]) [("first", here_sch)])].
Definition xml_out : tree :=
  TObj [("name", jstr "hello"); ("tags", TArr [TObj [("label", jstr "one")]; TObj [("label", jstr "two")]]);
        ("more", TArr [jstr "d"]); ("head", TObj [("first", jstr "one")])].
Ltac in_section l := eexists _, ((fun p => Instr "" p []) <$> l); split; [reflexivity|]; split; [done|]; split; [vm_compute; reflexivity|]; split; [by repeat constructor|done].
Lemma here_shape : xshape W0 "t" text_here here_sch.
Proof. apply (xshape_leaf W0 "t" text_here "string" false "string" (at_paths ["."])); try done. in_section ["."]. Qed.
Lemma xml_shaped : xshaped W0 "t" (Some xml_props) None xml_sch.
Proof.
  split; [refine (bool_decide_eq_true_1 (NoDup _) _); vm_compute; done|]. split; [by repeat constructor|].
  repeat apply xshape_cons; [| | | |constructor].
  - apply (xshape_leaf W0 "t" (typed "string" [from_xpaths ["//none"; "//name"]]) "string" false "string" (at_paths ["//none"; "//name"])); try done. in_section ["//none"; "//name"].
  - eapply (xshape_lst W0 "t" _ false); [done|done|by left|done|in_section ["//tag"]|].
    eapply (xshape_rec W0 "t" _ false); [done|done|done|done|done|apply NoDup_singleton|by repeat constructor|].
    apply xshape_cons; [apply here_shape|constructor].
  - eapply (xshape_lst W0 "t" _ false); [done|done|by right|done|in_section ["//none"]|].
    apply (xshape_leaf W0 "t" (typed "string" []) "string" false "string" None); done.
  - eapply (xshape_rec W0 "t" _ false); [done|done|done|done|in_section ["//tag"]|apply NoDup_singleton|by repeat constructor|].
    apply xshape_cons; [apply here_shape|constructor].
Qed.

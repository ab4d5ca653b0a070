(** Sample schemas with defaults of objects. *)
From stdpp Require Import strings list gmap.
From Coq Require Import ZArith.
From Verif Require Import GoStr Val Conv Instr Heap Schema Build Api World SpecPath Den SpecSchema SpecProj SpecXml SpecRun SpecDef Cases CaseXml.

(** {"by": {"name": string, "site": string} with the default {"site": "s"}} *)
Definition str_sch : sch := Leaf "string" (TS SNil) None.
Definition def_props : list (string * tree) :=
  [("title", typed "string" []);
   ("meta", obj_schema [("by", obj_schema [("name", typed "string" []); ("site", typed "string" [])] [("default", TObj [("site", jstr "s")])])] [])].
Definition def_members : list (string * sch) := [("name", str_sch); ("site", str_sch)].
Definition def_sch (d : list (string * tree)) : dsch :=
  DRec [("title", DSame str_sch); ("meta", DRec [("by", DDef d def_members)])].
Definition doc_ada : tree := TObj [("title", jstr "t1"); ("meta", TObj [("by", TObj [("name", jstr "ada")])])].
Definition doc_none : tree := TObj [("title", jstr "t2")].
Definition def_env : env := env_of [("ada", doc_ada); ("none", doc_none)] [("xml", 0%nat)] true.
Lemma def_unmarshals : unmarshals def_env.
Proof.
  intros raw doc. cbn. case_decide; [|case_decide; [|done]]; intros [= <-]; cbn; split_and!; try done; try apply NoDup_singleton.
  refine (bool_decide_eq_true_1 (NoDup _) _). vm_compute. done.
Qed.
Lemma str_shape : shape W0 "t" (typed "string" []) str_sch.
Proof. by apply (shape_leaf W0 "t" (typed "string" []) "string" false "string" None). Qed.
Lemma def_shaped : dshaped W0 "t" def_props (def_sch [("site", jstr "s")]).
Proof.
  split; [refine (bool_decide_eq_true_1 (NoDup _) _); vm_compute; done|]. split; [by repeat constructor|].
  repeat apply dshape_cons; [| |constructor].
  - apply dshape_same, str_shape.
  - eapply (dshape_rec W0 "t" _ false); [done|done|done|done|apply NoDup_singleton|by repeat constructor|].
    apply dshape_cons; [|constructor].
    eapply (dshape_def W0 "t" _ false); [done|done|done|done| |done| |by repeat constructor|].
    + cbn. split; [apply NoDup_singleton|done].
    + refine (bool_decide_eq_true_1 (NoDup _) _). vm_compute. done.
    + repeat apply shape_cons; [apply str_shape|apply str_shape|constructor].
Qed.

(** {"by": from //tag, {"name": from `.`} with the default {"site": "s"}; "to": from //none, {"name": from `.`} with the default {"site": "r"}} *)
Definition xdef_props : list (string * tree) :=
  [("by", obj_schema [("name", text_here)] [from_xpaths ["//tag"]; ("default", TObj [("site", jstr "s")])]);
   ("to", obj_schema [("name", text_here)] [from_xpaths ["//none"]; ("default", TObj [("site", jstr "r")])])].
Definition xdef_sch : xdsch :=
  XDRec None [("by", XDDef [("site", jstr "s")] (at_paths ["//tag"]) [("name", here_sch)]);
              ("to", XDDef [("site", jstr "r")] (at_paths ["//none"]) [("name", here_sch)])].
Lemma xdef_shaped : xdshaped W0 "t" xdef_props xdef_sch.
Proof.
  split; [refine (bool_decide_eq_true_1 (NoDup _) _); vm_compute; done|]. split; [by repeat constructor|].
  repeat apply xdshape_cons; [| |constructor].
  - eapply (xdshape_def W0 "t" _ false); [done|done|done|done| |in_section ["//tag"]|apply NoDup_singleton|by repeat constructor|].
    + cbn. split; [apply NoDup_singleton|done].
    + apply xshape_cons; [apply here_shape|constructor].
  - eapply (xdshape_def W0 "t" _ false); [done|done|done|done| |in_section ["//none"]|apply NoDup_singleton|by repeat constructor|].
    + cbn. split; [apply NoDup_singleton|done].
    + apply xshape_cons; [apply here_shape|constructor].
Qed.

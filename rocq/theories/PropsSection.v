(** C12, for any JSON: what the JSON of a transform section must say to be accepted, and what is read.
    Vocabulary: SpecSection.v (what the JSON says), SpecOps.v (methods and operations that are known). *)
From stdpp Require Import strings list gmap.
From Verif Require Import GoStr Val Conv Instr Build SpecOps SpecSection SectionL World.

(** C12. A transform section is accepted, and is read as these entries, method and delimiter, exactly if
    its JSON says so: members may be in any order and missing or null, entries may be null, other
    members are ignored; whatever has a value of another kind, names an unknown method or has an
    operation that cannot be made is refused. *)
Theorem C12_section W t me delim from :
  dec_tis W t = Ok (me, delim, from) <->
  exists entries method, says_section t entries method delim /\ method_named method me /\ Forall2 (decoded_entry W) entries from.
Proof. exact (dec_tis_iff W t me delim from). Qed.
Print Assumptions C12_section.
(** ... and nothing else happens: it is refused with an error. *)
Theorem C12_section_refused W t :
  dec_tis W t = Err <->
  ~ exists entries method delim me, says_section t entries method delim /\ method_named method me /\
      Forall (fun e => match e with Some e => Forall (fun no => well_formed_op (o_re_ok W) no.1 (list_to_map no.2)) (e_ops e) | None => True end) entries.
Proof. exact (dec_tis_refused W t). Qed.
Print Assumptions C12_section_refused.
(** members in another order, one null, one unknown; an entry that is null; an operation without arguments *)
Definition loose : tree := TObj
  [("methodOptions", TObj [("concatenateDelimiter", TS (SStr "-"))]);
   ("note", TArr []);
   ("from", TArr [TS SNil;
                  TObj [("operations", TArr [TObj [("type", TS (SStr "inverse"))]]); ("xmlPath", TS SNil); ("jsonPath", TS (SStr "@.a"))]]);
   ("method", TS (SStr "concatenate"))].
Example C12_section_case : dec_tis W0 loose = Ok (MConcat, "-", [None; Some (Instr "@.a" "" [OpInverse])]) /\
  says_section loose [None; Some (Entry "@.a" "" [("inverse", [])])] "concatenate" "-" /\
  dec_tis W0 (TObj [("from", TObj [])]) = Err /\ dec_tis W0 (TObj [("method", TS (SStr "median"))]) = Err /\
  dec_tis W0 (TObj [("from", TArr [TObj [("operations", TArr [TObj [("type", TS (SStr "split"))]])]])]) = Err.
Proof.
  split; [vm_compute; reflexivity|]. split; [|by vm_compute].
  split; [right; by eexists|]. split; [|split].
  - eexists. split; [apply field_iff; reflexivity|]. constructor. constructor; [constructor|]. constructor; [|constructor].
    eapply (entry_object _ _ _ _ (Entry "@.a" "" [("inverse", [])])); [apply field_iff; reflexivity|constructor|apply field_iff; reflexivity|constructor|apply field_iff; reflexivity|].
    constructor. constructor; [|constructor]. split; [right; by eexists|]. eexists _, _. split; [apply field_iff; reflexivity|]. split; [constructor|].
    split; [apply field_iff; reflexivity|constructor].
  - eexists. split; [apply field_iff; reflexivity|constructor].
  - eexists. split; [apply field_iff; reflexivity|]. econstructor; [apply field_iff; reflexivity|constructor].
Qed.

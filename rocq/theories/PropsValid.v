(** C79: the answers of a validator. *)
From stdpp Require Import strings list gmap.
From Coq Require Import Sorted.
From Verif Require Import GoStr Load Valid SpecValid ValidL Cache SpecCache CaseCache.

(** C79. A document is accepted if and only if gojsonschema could check it, found no error and calls it valid. *)
Theorem C79_accepts sort lib result : (validate sort lib result).1 = true <-> result = Some ([], true).
Proof. exact (accepted sort lib result). Qed.
Print Assumptions C79_accepts.
Example C79_accepts_case : validate sort_strings "" (Some ([], true)) = (true, None).
Proof. reflexivity. Qed.

(** Otherwise, if errors were found, the text of the error lists all of them, smaller ones first. *)
Theorem C79_rejects sort lib errors valid : sorts sort -> errors <> [] ->
  exists text, validate sort lib (Some (errors, valid)) = (false, Some text) /\
    (exists sorted, sorted ≡ₚ errors /\ StronglySorted (fun a b => ~ less b a) sorted /\ text = "invalid schema: [" +:+ join " " sorted +:+ "]") /\
    forall e, e ∈ errors -> exists a b, text = a +:+ e +:+ b.
Proof. exact (rejected sort lib errors valid). Qed.
Print Assumptions C79_rejects.
Example C79_rejects_case : sorts sort_strings /\ validate sort_strings "" (Some (["b: is required"; "a: Invalid type"], false)) = (false, Some "invalid schema: [a: Invalid type b: is required]").
Proof. split; [exact strings_sorts|reflexivity]. Qed.

(** The text does not depend on the order in which gojsonschema finds the errors, nor on how they are sorted. *)
Theorem C79_same_text sort sort' lib lib' errors errors' valid valid' : sorts sort -> sorts sort' -> errors ≡ₚ errors' -> errors <> [] ->
  validate sort lib (Some (errors, valid)) = validate sort' lib' (Some (errors', valid')).
Proof. exact (same_text sort sort' lib lib' errors errors' valid valid'). Qed.
Print Assumptions C79_same_text.
Example C79_same_text_case : sorts sort_strings /\ ["b"; "a"; "ab"] ≡ₚ ["ab"; "b"; "a"] /\
  validate sort_strings "" (Some (["b"; "a"; "ab"], false)) = (false, Some "invalid schema: [a ab b]").
Proof. split; [exact strings_sorts|]. split; [|reflexivity]. apply (Permutation_app_comm ["b"; "a"] ["ab"]). Qed.

(** Validators for the same file, however the path is written and whenever and by whomever they are made, have one schema; those for other files
    do not share with them. ([exec] is the cache of C35 to C38; making this schema loads no others through the cache.) *)
Theorem C79_shared {V E} (tr : list (event V E)) s o_abs a b ka kb l l' v v' : exec (fun _ => []) tr s ->
  schema_ref o_abs a = Some ka -> schema_ref o_abs b = Some kb -> Ret l ka (OOk v) ∈ tr -> Ret l' kb (OOk v') ∈ tr ->
  (o_abs a = o_abs b -> v = v') /\ (ka = kb -> o_abs a = o_abs b).
Proof. exact (same_schema tr s o_abs a b ka kb l l' v v'). Qed.
Print Assumptions C79_shared.
Definition abs_in_s (p : string) : option string := Some (if has_prefix "/" p then p else "/s/" +:+ p).
Definition both : list (act (V := nat) (E := nat)) :=
  let m l := AMove l (OOk 5) in [ACall "file:///s/a.json"; ACall "file:///s/a.json"; m 0; m 1; m 0; m 0; m 0; m 0; m 1].
Example C79_shared_case : (exists s, exec (fun _ => []) (trace_of (fun _ => []) both) s) /\
  schema_ref abs_in_s "a.json" = Some "file:///s/a.json" /\ schema_ref abs_in_s "/s/a.json" = Some "file:///s/a.json" /\
  trace_of (fun _ => []) both = [Call 0 "file:///s/a.json"; Call 1 "file:///s/a.json"; Start 0 "file:///s/a.json"; End 0 "file:///s/a.json" (OOk 5);
    Ret 0 "file:///s/a.json" (OOk 5); Ret 1 "file:///s/a.json" (OOk 5)].
Proof. split_and!; [apply sched_trace; vm_compute; done|vm_compute; reflexivity..]. Qed.

(** Properties of the descriptions in generated GraphQL files: C51. *)
From stdpp Require Import strings list.
From Coq Require Import Ascii NArith.
From Verif Require Import GoStr GoStrL SpecGen SpecGql Gen Avro Gql GqlL SpecDesc SpecDoc DescL DescM.

(** C51. A description of one line is read back exactly when it has no quotes, backslashes or control characters other than tabs. *)
Theorem C51_one_line prefix desc rest : all_chars white prefix = true -> desc <> "" -> split desc newline = [desc] ->
  read_string (q_comment prefix desc +:+ rest) = Some (desc, newline +:+ rest) <-> all_chars plain_char desc = true.
Proof. exact (comment_single prefix desc rest). Qed.
Print Assumptions C51_one_line.
Example C51_one_line_case : all_chars white "  " = true /\ split "The title, in 'English'" newline = ["The title, in 'English'"] /\ all_chars plain_char "The title, in 'English'" = true.
Proof. split_and!; vm_compute; reflexivity. Qed.
(** One of several lines is read back exactly when it has no three quotes in a row, carriage returns or control characters other than tabs, its
    first and last lines are not blank, and some line that is not blank has no indentation. *)
Theorem C51_lines prefix desc rest : all_chars white prefix = true -> split desc newline <> [desc] ->
  read_string (q_comment prefix desc +:+ rest) = Some (desc, newline +:+ rest) <->
  all_chars source_char desc = true /\ all_chars (fun c => negb (bool_decide (c = c_return))) desc = true /\ ~ contains desc quotes3 /\
  (exists l, l ∈ split desc newline /\ blank l = false /\ indent l = 0) /\
  (exists l, head (split desc newline) = Some l /\ blank l = false) /\ (exists l, last (split desc newline) = Some l /\ blank l = false).
Proof. exact (comment_lines_iff prefix desc rest). Qed.
Print Assumptions C51_lines.
Definition some_lines : string := "The title, in ""English""." +:+ newline +:+ newline +:+ "  It's short.".
Example C51_lines_case : split some_lines newline <> [some_lines] /\ all_chars source_char some_lines = true /\ all_chars (fun c => negb (bool_decide (c = c_return))) some_lines = true /\
  str_in quotes3 some_lines = false /\ map (fun l => (blank l, indent l)) (split some_lines newline) = [(false, 0); (true, 0); (false, 2)] /\
  read_string (q_comment "  " some_lines) = Some (some_lines, newline).
Proof. split_and!; [vm_compute; discriminate|vm_compute; reflexivity..]. Qed.
(** Descriptions with other characters, blank lines at either end or only indented lines are not. *)
Theorem C51_refuted : Forall (fun desc => read_string (q_comment "" desc) <> Some (desc, newline))
  ["a ""quoted"" word"; "a\b"; "three """""" quotes" +:+ newline +:+ "here"; newline +:+ "text"; "text" +:+ newline; "  one" +:+ newline +:+ "  two"; "a" +:+ String c_return newline +:+ "b"].
Proof. repeat (apply Forall_cons_2; [vm_compute; discriminate|]). apply Forall_nil_2. Qed.
Print Assumptions C51_refuted.
(** Some are not strings at all. *)
Theorem C51_unread_refuted : read_string (q_comment "" "C:\dir") = None /\ read_string (q_comment "" ("three """""" quotes" +:+ newline +:+ "here")) = Some ("three ", " quotes" +:+ newline +:+ "here" +:+ newline +:+ quotes3 +:+ newline).
Proof. split; vm_compute; reflexivity. Qed.
Print Assumptions C51_unread_refuted.

(** utils.go 13-16 and 219-221: replaceIndex *)
From stdpp Require Import strings list.
From Coq Require Import Ascii ZArith.
From Verif Require Import GoStr.

(** regexp.MustCompile(`\[([\d]+)\]`).ReplaceAllString(s, "[*]") as the automaton of the expression:
    [Some cur] is the state after `[` and the digits [cur]. *)
Fixpoint index_go (p : option string) (s : string) : string :=
  match s with
  | "" => match p with None => "" | Some cur => "[" +:+ cur end
  | String a s' =>
    match p with
    | None => if decide (a = "["%char) then index_go (Some "") s' else String a (index_go None s')
    | Some cur =>
      if is_digit a then index_go (Some (cur +:+ String a "")) s' else
      if decide (a = "["%char) then "[" +:+ cur +:+ index_go (Some "") s' else
      if decide (a = "]"%char /\ cur <> "") then "[*]" +:+ index_go None s' else
      "[" +:+ cur +:+ String a (index_go None s')
    end
  end.
Definition replace_index (path : string) : string := index_go None path.

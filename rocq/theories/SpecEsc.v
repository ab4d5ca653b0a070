(** Descriptions in which double quotes and backslashes are written with a backslash before them. *)
From stdpp Require Import strings.
From Coq Require Import Ascii.

Fixpoint escaped (s : string) : string :=
  match s with
  | "" => ""
  | String c s' => if decide (c = """"%char \/ c = "\"%char) then String "\"%char (String c (escaped s')) else String c (escaped s')
  end.

(** Command lines and what they say. *)
From stdpp Require Import strings list gmap.
From Coq Require Import Ascii.
From Verif Require Import GoStr SpecFlags Main.

(** the options that are switches, those with a value, and those that rename *)
Definition switches : list string := ["avro"; "msgp"; "graphql"; "scalarAny"; "interfaceFiles"; "nestedStructs"; "pointers"; "descriptionAsStructTag"; "embedAllOf"].
Definition texts : list string := ["importPath"; "outputPathGraphQL"].
Definition renames : list string := ["rename"; "renameFields"; "renameGraphQLType"].
Definition initially_on : list string := ["nestedStructs"; "descriptionAsStructTag"; "embedAllOf"].
Definition on : list string := ["1"; "t"; "T"; "true"; "True"; "TRUE"].
Definition off : list string := ["0"; "f"; "F"; "false"; "False"; "FALSE"].

(** [writes s ws]: the words [ws] set an option to a value: `-name=value`, `-name value` except for switches, and `-name` for switches, with one or two dashes *)
Definition dashes (d : string) : Prop := d = "-" \/ d = "--".
Inductive writes : string * string -> list string -> Prop :=
| writes_equals d n v : dashes d -> n ∈ switches ++ texts ++ renames -> writes (n, v) [d +:+ n +:+ "=" +:+ v]
| writes_next d n v : dashes d -> n ∈ texts ++ renames -> writes (n, v) [d +:+ n; v]
| writes_switch d n : dashes d -> n ∈ switches -> writes (n, "true") [d +:+ n].
(** values that an option can have *)
Definition valid (s : string * string) : Prop :=
  (s.1 ∈ switches -> s.2 ∈ on ++ off) /\ (s.1 ∈ renames -> ~ malformed s.2).
(** [starts args ss more]: the command line begins with the options [ss], and [more] comes after them *)
Inductive starts : list string -> list (string * string) -> list string -> Prop :=
| starts_nil more : starts more [] more
| starts_cons s ws args ss more : writes s ws -> starts args ss more -> starts (ws ++ args) (s :: ss) more.
(** the options end at the end, at a word that does not start with a dash, at a single dash, or after two dashes *)
Inductive ends : list string -> list string -> Prop :=
| ends_here : ends [] []
| ends_word w rest : ~ (exists x, w = "-" +:+ x) \/ w = "-" -> ends (w :: rest) (w :: rest)
| ends_dashes rest : ends ("--" :: rest) rest.
(** the word asks for help *)
Definition help (w : string) : Prop := exists d n, dashes d /\ n ∈ ["h"; "help"] /\ (w = d +:+ n \/ exists v, w = d +:+ n +:+ "=" +:+ v).

(** what the options [ss] say *)
Definition last_value (ss : list (string * string)) (n v : string) : Prop := exists before after, ss = before ++ (n, v) :: after /\ n ∉ after.*1.
Definition says_switch (ss : list (string * string)) (n : string) (b : bool) : Prop :=
  (exists v, last_value ss n v /\ v ∈ (if b then on else off)) \/ (n ∉ ss.*1 /\ (n ∈ initially_on <-> b = true)).
Definition says_text (ss : list (string * string)) (n v : string) : Prop := last_value ss n v \/ (n ∉ ss.*1 /\ v = "").
Definition says_names (ss : list (string * string)) (n : string) (m : gmap string string) : Prop :=
  exists kss, Forall2 (fun s kvs => kvs <> [] /\ Forall pair_ok kvs /\ s.2 = written kvs) (filter (fun s => s.1 = n) ss) kss /\ set_by ∅ (List.concat kss) m.
(** [options_of args ss rest]: the command line has the options [ss], with values they can have, and then the arguments [rest] *)
Definition options_of (args : list string) (ss : list (string * string)) (rest : list string) : Prop := exists more, starts args ss more /\ ends more rest /\ Forall valid ss.
(** [asks ss input output b]: the options for the generator are those that the command line says; "nestedStructs" is the opposite of NoNestedStructs *)
Definition asks (ss : list (string * string)) (input output : string) (b : build_args) : Prop :=
  b_schema b = input /\ b_out b = output /\ says_text ss "outputPathGraphQL" (b_out_gql b) /\ says_text ss "importPath" (b_import b) /\
  says_switch ss "descriptionAsStructTag" (b_desc_tag b) /\ says_switch ss "nestedStructs" (negb (b_no_nested b)) /\ says_switch ss "pointers" (b_pointers b) /\
  says_switch ss "interfaceFiles" (b_interface_files b) /\ says_switch ss "avro" (b_avro b) /\ says_switch ss "msgp" (b_msgp b) /\ says_switch ss "graphql" (b_graphql b) /\
  says_switch ss "embedAllOf" (b_embed b) /\ says_switch ss "scalarAny" (b_any b) /\
  says_names ss "rename" (b_structs b) /\ says_names ss "renameFields" (b_fields b) /\ says_names ss "renameGraphQLType" (b_types b).
(** Avro or GraphQL is asked for, but no import path *)
Definition no_import (ss : list (string * string)) : Prop := (says_switch ss "avro" true \/ says_switch ss "graphql" true) /\ says_text ss "importPath" "".

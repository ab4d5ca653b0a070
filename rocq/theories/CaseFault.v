(** Runs with failing calls for the examples and refutations of PropsFault. *)
From stdpp Require Import strings list gmap.
From Verif Require Import GoStr Val Conv Schema Inst Load FlatL SpecPath SpecLoad SpecGen SpecNamed SpecFiles WalkL Gen GenP World Cases CaseGen CaseLoad Files CaseFiles Gql Avro GoSrc Mapper CaseMapper CaseGo SpecAvro SpecGo SpecEmbed SpecWhole WholeL Whole CaseWhole Crash CaseCrash Fault.

(** a schema with two texts *)
Definition card_files : files := files_in [("/s/card.json", obj_of [("id", typed "string" []); ("title", typed "string" [])] [])].
(** gogen-avro makes a struct with the fields of the schema *)
Definition card_avro (fs : dir) : string -> option texpr :=
  let t := default "" (assocd "card.go" fs) in
  pkg_of [("Card", meta ++ (if str_in """name"":""id""" t then [fd "Id" opt_string] else []) ++ (if str_in """name"":""title""" t then [fd "Title" opt_string] else []));
          union "UnionNullString" "String" str].
Notation card_run A flt := (run_faulty W0 card_files in_s fmt_same id id id no_unquote (fun _ => "") only_types gogen card_avro (join "/") msgp A "pkg" order_same keys_same flt 3 20 same_order as_is "card.json" nothing).
(** the calls with these numbers fail at once *)
Definition failing (l : list nat) (i : nat) : option nat := if decide (i ∈ l) then Some 0 else None.
Definition told (x : option (io * res unit)) : option (list call * res unit) := (fun y : io * res unit => (io_failed y.1, y.2)) <$> x.
Definition after (x : option (io * res unit)) : disk := match x with Some (s, _) => io_disk s | None => nothing end.

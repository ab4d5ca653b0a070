(** The Go structs that are made for a schema made of others. *)
From stdpp Require Import strings list gmap.
From Verif Require Import GoStr Val Schema Inst Load SpecGen SpecNamed SpecGql SpecDoc.

(** For each member of allOf and oneOf: the fields of its struct, and the structs for the objects in it. *)
Notation made := (list gdecl * gstructs)%type.
(** the structs for members of oneOf embed those for members of allOf; their fields are fields of the struct *)
Definition embedded_fields (gas : list made) : list gdecl := gas ≫= fun g => by_name g.1.
Definition made_structs (title : string -> string) (structs_map : string -> option string) (schema : instance) (gas gos : list made) : gstructs :=
  mjoin (zip_with (fun a g => (go_struct title structs_map (file_of a), by_name g.1) :: g.2) (n_allOf schema) gas) ++
  mjoin (zip_with (fun m g => (go_struct title structs_map (file_of m), by_name g.1 ++ embedded_fields gas) :: g.2) (n_oneOf schema) gos).

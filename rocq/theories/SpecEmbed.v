(** The Avro schema of a struct that embeds others. *)
From stdpp Require Import strings list gmap.
From Verif Require Import GoStr Inst SpecGen SpecNamed Avro GoSrc SpecAvro SpecGo.

Section spec.
(** whether descriptions are in tags; the structs that can be embedded: the structs they embed, and their fields *)
Context (desc_tag : bool) (G : string -> option (list string * list gdecl)).
Definition kept (out : list string) (ds : list gdecl) : list gdecl := filter (fun d => d_go d ∉ out) ds.
(** [avro_struct ns out embeds ds docs seen]: a struct with the embedded structs [embeds] and the fields [ds] stands for the Avro fields [docs]:
    those of the embedded structs, in the namespace of these, without fields that the struct has itself, and its own. Fields in [out] are left
    out, but not the last one. [seen] are the names of all structs that are embedded, also in embedded structs. *)
Inductive avro_struct : list string -> list string -> list string -> list gdecl -> list doc -> list string -> Prop :=
| struct_own ns out ds docs : avro_fields desc_tag [] ns (kept out ds) docs -> (forall g, last (go_fields ds) = Some g -> g ∉ out) ->
    avro_struct ns out [] ds docs []
| struct_embeds ns out e es ds es' ds' docs' docs seen' seen : G e = Some (es', ds') ->
    avro_struct (ns ++ [e]) (go_fields ds) es' ds' docs' seen' -> docs' <> [] -> avro_struct ns out es ds docs seen ->
    avro_struct ns out (e :: es) ds (docs' ++ docs) (seen' ++ e :: seen).
(** the struct [e] is the first type of the file with its name in the directory *)
Definition declares_struct (lower : string -> string) (dir : list (string * string)) (e : string) (es : list string) (ds : list gdecl) : Prop :=
  exists c rest text r, split e "" = c :: rest /\ assocd (join "" (lower c :: rest) +:+ ".go") dir = Some text /\ parse_go text = Some r /\
    head (rf_types r) = Some (e, src_struct desc_tag es ds).
End spec.

(** What the JSON of a transform section says. *)
From stdpp Require Import strings list gmap.
From Verif Require Import GoStr Val Conv Instr Build SpecOps.

Definition null : tree := TS SNil.
(** the value of a member; null if there is none *)
Definition field (t : tree) (k : string) (v : tree) : Prop :=
  match t with
  | TObj kvs => (exists l l', kvs = l ++ (k, v) :: l' /\ k ∉ l.*1) \/ (k ∉ kvs.*1 /\ v = null)
  | _ => v = null
  end.
(** null and members that are missing count as empty *)
Inductive says_str : tree -> string -> Prop :=
| str_null : says_str null ""
| str_text s : says_str (TS (SStr s)) s.
Inductive says_list {A} (P : tree -> A -> Prop) : tree -> list A -> Prop :=
| list_null : says_list P null []
| list_items l xs : Forall2 P l xs -> says_list P (TArr l) xs.
Inductive says_args : tree -> list (string * string) -> Prop :=
| args_null : says_args null []
| args_members kvs args : Forall2 (fun kv a => kv.1 = a.1 /\ says_str kv.2 a.2) kvs args -> says_args (TObj kvs) args.
Definition object_or_null (t : tree) : Prop := t = null \/ exists kvs, t = TObj kvs.
(** an operation: its name and arguments *)
Definition says_op (t : tree) (o : string * list (string * string)) : Prop :=
  object_or_null t /\ exists n a, field t "type" n /\ says_str n o.1 /\ field t "args" a /\ says_args a o.2.
(** an entry; None for null *)
Inductive says_entry : tree -> option entry -> Prop :=
| entry_null : says_entry null None
| entry_object kvs j x o e : field (TObj kvs) "jsonPath" j -> says_str j (e_jpath e) -> field (TObj kvs) "xmlPath" x -> says_str x (e_xpath e) ->
    field (TObj kvs) "operations" o -> says_list says_op o (e_ops e) -> says_entry (TObj kvs) (Some e).
Inductive says_options : tree -> string -> Prop :=
| options_null : says_options null ""
| options_object kvs d delim : field (TObj kvs) "concatenateDelimiter" d -> says_str d delim -> says_options (TObj kvs) delim.
Definition says_section (t : tree) (entries : list (option entry)) (method delim : string) : Prop :=
  object_or_null t /\ (exists f, field t "from" f /\ says_list says_entry f entries) /\
  (exists m, field t "method" m /\ says_str m method) /\ exists o, field t "methodOptions" o /\ says_options o delim.
(** the operations that are made of the entries *)
Inductive decoded_entry (W : oracles) : option entry -> option instr -> Prop :=
| decoded_null : decoded_entry W None None
| decoded_some e ops : Forall2 (fun no o => op_init W no.1 (list_to_map no.2) = Some o) (e_ops e) ops ->
    decoded_entry W (Some e) (Some (Instr (e_jpath e) (e_xpath e) ops)).

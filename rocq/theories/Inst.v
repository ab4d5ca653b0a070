(** jsonschema.Instance: decoding from JSON, encoding to JSON, and Walk. *)
From stdpp Require Import strings list gmap.
From Coq Require Import ZArith.
From Verif Require Import GoStr Val Schema.

(** schema.go 19-37. RawMessages and the property map are kept as the JSON they hold, property maps as
    member lists; [None] is nil. Documents are assumed to have distinct member names. *)
Inductive instance := Inst {
  n_addl : bool;
  n_allOf : list instance;
  n_anyOf : list instance;
  n_desc : string;
  n_defs : option tree;
  n_embed : bool;
  n_format : string;
  n_fromRef : string;
  n_gargs : list string;
  n_items : option tree;
  n_oneOf : list instance;
  n_props : option (list (string * tree));
  n_ref : string;
  n_required : list string;
  n_schema : string;
  n_target : string;
  n_type : option (list string)
}.

(** encoding/json decoding into fields. Absent members and null keep the given value.
    Simplification: Go matches member names case-insensitively, the model exactly. *)
Definition d_bool (old : bool) (t : option tree) : res bool :=
  match t with None | Some (TS SNil) => Ok old | Some (TS (SBool b)) => Ok b | _ => Err end.
Definition d_str (t : option tree) : res string :=
  match t with None | Some (TS SNil) => Ok "" | Some (TS (SStr s)) => Ok s | _ => Err end.
Fixpoint d_strs_go (l : list tree) : res (list string) :=
  match l with
  | [] => Ok []
  | t :: l' => rbind (d_str (Some t)) (fun s => rbind (d_strs_go l') (fun ss => Ok (s :: ss)))
  end.
Definition d_strs (t : option tree) : res (option (list string)) :=
  match t with
  | None | Some (TS SNil) => Ok None
  | Some (TArr l) => rbind (d_strs_go l) (fun ss => Ok (Some ss))
  | _ => Err
  end.
(** schema.go 43-51: a single type string is read as a one element array *)
Definition d_type (t : option tree) : res (option (list string)) :=
  match t with Some (TS (SStr s)) => Ok (Some [s]) | _ => d_strs t end.
Definition d_props (t : option tree) : res (option (list (string * tree))) :=
  match t with None | Some (TS SNil) => Ok None | Some (TObj ps) => Ok (Some ps) | _ => Err end.

Fixpoint seqs {A} (l : list (res A)) : res (list A) :=
  match l with
  | [] => Ok []
  | r :: l' => rbind r (fun a => rbind (seqs l') (fun la => Ok (a :: la)))
  end.
Fixpoint assocd {A} (k : string) (l : list (string * A)) : option A :=
  match l with
  | [] => None
  | (k', v) :: l' => if decide (k' = k) then Some v else assocd k l'
  end.
Definition d_subs (l : option (res (list instance))) : res (list instance) :=
  match l with None => Ok [] | Some r => r end.

Definition zero_inst (addl : bool) : instance :=
  Inst addl [] [] "" None false "" "" [] None [] None "" [] "" "" None.

(** schema.go 40-53 UnmarshalJSON into an Instance whose AdditionalProperties is [addl] before and whose
    other fields are zero *)
Fixpoint d_inst (addl : bool) (t : tree) : res instance :=
  match t with
  | TS SNil => Ok (zero_inst addl)
  | TObj kvs =>
    (* the members allOf, anyOf and oneOf: []Instance *)
    let subs := map (fun kv : string * tree => let (k, v) := kv in
                  (k, match v with
                      | TS SNil => Ok []
                      | TArr l => seqs (map (d_inst false) l)
                      | _ => Err
                      end)) kvs in
    rbind (d_bool addl (assoc "additionalProperties" kvs)) (fun ad =>
    rbind (d_subs (assocd "allOf" subs)) (fun al =>
    rbind (d_subs (assocd "anyOf" subs)) (fun an =>
    rbind (d_str (assoc "description" kvs)) (fun de =>
    rbind (d_bool false (assoc "embed" kvs)) (fun em =>
    rbind (d_str (assoc "format" kvs)) (fun fm =>
    rbind (d_str (assoc "fromRef" kvs)) (fun fr =>
    rbind (d_strs (assoc "graphql-arguments" kvs)) (fun ga =>
    rbind (d_subs (assocd "oneOf" subs)) (fun on =>
    rbind (d_props (assoc "properties" kvs)) (fun ps =>
    rbind (d_str (assoc "$ref" kvs)) (fun rf =>
    rbind (d_strs (assoc "required" kvs)) (fun rq =>
    rbind (d_str (assoc "$schema" kvs)) (fun sc =>
    rbind (d_str (assoc "target" kvs)) (fun ta =>
    rbind (d_type (assoc "type" kvs)) (fun ty =>
    Ok (Inst ad al an de (assoc "definitions" kvs) em fm fr (default [] ga) (assoc "items" kvs) on ps rf
             (default [] rq) sc ta ty))))))))))))))))
  | _ => Err
  end.

Section walk.
(** a WalkInstanceFunc with the state it changes, and the order in which a map's keys are iterated when
    the map is the property map at some path *)
Context {S : Type} (fn : string -> instance -> S -> S * res unit) (ord : string -> list string -> list string).

(** the loop over a property map: [acts] are the loop bodies by key *)
Fixpoint in_order (ks : list string) (acts : list (string * (S -> S * res unit))) : S -> S * res unit :=
  match ks with
  | [] => stop (Ok tt)
  | k :: ks' => seq (default (stop (Ok tt)) (assocd k acts)) (in_order ks' acts)
  end.
Definition has_type (ty : string) (i : instance) : bool := bool_decide (ty ∈ default [] (n_type i)).

(** walk.go 60-91. [d_inst] has checked that properties is an object or null; the recursion runs over the
    members of [raw] instead of the decoded fields, which are the same. *)
Fixpoint walk_inst (raw : tree) (path : string) {struct raw} : S -> S * res unit :=
  match d_inst false raw with
  | Ok i =>
    seq (fn path i)
      match raw with
      | TObj kvs =>
        if has_type "object" i then
          match n_props i with
          | None => stop Err
          | Some ps =>
            (fix find (l : list (string * tree)) : S -> S * res unit :=
               match l with
               | [] => stop (Ok tt)
               | (k, v) :: l' =>
                 if decide (k = "properties") then
                   match v with
                   | TObj qs => in_order (ord path (ps.*1))
                                  (map (fun kv : string * tree => let (n, p) := kv in (n, walk_inst p (prepend_path path n))) qs)
                   | _ => stop (Ok tt)
                   end
                 else find l'
               end) kvs
          end
        else if has_type "array" i then
          (fix find (l : list (string * tree)) : S -> S * res unit :=
             match l with
             | [] => stop Err
             | (k, v) :: l' => if decide (k = "items") then walk_inst v (path +:+ "[*]") else find l'
             end) kvs
        else stop (Ok tt)
      | _ => stop (Ok tt)
      end
  | _ => stop Err
  end.
(** walk.go 26-41 *)
Definition walk_schema (props : option (list (string * tree))) (items : option tree) : S -> S * res unit :=
  seq (in_order (ord "$" (default [] props).*1)
         (map (fun kv : string * tree => let (n, p) := kv in (n, walk_inst p (prepend_path "$" n))) (default [] props)))
      (match items with Some i => walk_inst i ("$" +:+ "[*]") | None => stop (Ok tt) end).
End walk.

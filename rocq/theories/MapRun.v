(** What the code written by the mapper of Mapper.v does when it runs: Go values, selectors, and the functions of
    package generate it calls. *)
From stdpp Require Import strings list.
From Coq Require Import ZArith SpecFloat.
From Verif Require Import GoStr Val Conv Avro AvroRun Mapper.

(** Go values. A struct has its own fields and its embedded structs, each with its name. Simplification: a nil slice
    is an empty slice. [GOther]: values of other types, which are never looked into. *)
Inductive gv :=
| GStr (s : string) | GBool (b : bool) | GInt (z : Z) | GFloat (f : spec_float) | GTm (t : gtime)
| GEnum (s : string)
| GNil | GPtr (v : gv) | GSlice (l : list gv)
| GRec (own emb : list (string * gv))
| GOther.

(** running an expression: a value, the panic of a nil pointer, or no meaning (the compiler rejects the code) *)
Inductive eres := Ran (v : gv) | NilPanic | Rejected.
Definition ebind (r : eres) (k : gv -> eres) : eres := match r with Ran v => k v | NilPanic => NilPanic | Rejected => Rejected end.

(** The Go specification, Selectors: x.f is the field f at the shallowest depth in x; there must be exactly one. *)
Definition named (n : string) (l : list (string * gv)) : list gv := omap (fun '(k, v) => if decide (k = n) then Some v else None) l.
Fixpoint at_depth (d : nat) (n : string) (v : gv) : list gv :=
  match v with
  | GRec own emb =>
    match d with
    | O => named n own ++ named n emb
    | S d => emb ≫= (fun '(_, e) => at_depth d n e)
    end
  | _ => []
  end.
Fixpoint rec_depth (v : gv) : nat :=
  match v with
  | GRec _ emb => S (list_max (map (fun '(_, e) => rec_depth e) emb))
  | _ => 0
  end.
Definition shallowest {A} (f : nat -> list A) : nat -> nat -> option A :=
  fix go d k := match k with O => None | S k => match f d with [] => go (S d) k | [x] => Some x | _ => None end end.
Definition select (n : string) (v : gv) : eres :=
  match v with
  | GNil => NilPanic
  | GPtr w | w => match shallowest (fun d => at_depth d n w) 0 (rec_depth w) with Some x => Ran x | None => Rejected end
  end.
Fixpoint path (p : list string) (v : gv) : eres :=
  match p with [] => Ran v | n :: p' => ebind (select n v) (path p') end.

Definition as_time (v : gv) : option gtime := match v with GTm t => Some t | _ => None end.
Definition as_opt_time (v : gv) : option (option gtime) :=
  match v with GNil => Some None | GPtr (GTm t) => Some (Some t) | _ => None end.
(** the functions of avro_helpers.go 58-95, on Go values *)
Definition time_call (f : timefn) (v : gv) : eres :=
  match f, v with
  | FTime, GTm t => Ran (GInt (avro_time t))
  | FOptTime, _ => match as_opt_time v with Some o => Ran (GInt (avro_optional_time o)) | None => Rejected end
  | FTimes, GSlice l =>
    match mapM as_time l with Some ts => Ran (GSlice (map GInt (avro_time_slice ts))) | None => Rejected end
  | FOptTimes, GSlice l =>
    match mapM as_opt_time l with
    | Some ts => Ran (GSlice (map GInt (default [] (avro_optional_time_slice ts))))
    | None => Rejected
    end
  | _, _ => Rejected
  end.
Definition union_rec (r b : string) (v : gv) : gv := GRec [(b, v); ("UnionType", GEnum (r +:+ "TypeEnum" +:+ b))] [].

(** run one after the other *)
Definition each {A B} (f : A -> eres) (k : gv -> A -> B) : list A -> eres + list B :=
  fix go l := match l with
  | [] => inr []
  | a :: l' => match f a with Ran v => match go l' with inr r => inr (k v a :: r) | e => e end | e => inl e end
  end.
(** the functions defined so far, last one first: each takes a slice *)
Definition fenv := list (string * (gv -> eres)).
Definition call (F : fenv) (f : string) (v : gv) : eres :=
  match list_find (fun d => d.1 = f) F with Some (_, (_, h)) => h v | None => Rejected end.
(** the meaning of an expression for a value of z *)
Fixpoint eval (F : fenv) (z : gv) (x : gexpr) : eres :=
  match x with
  | XSel p => path p z
  | XTime f p => ebind (path p z) (time_call f)
  | XSlice f p => ebind (path p z) (call F f)
  | XRec _ fs => match each (fun '(_, y) => eval F z y) (fun v '(n, _) => (n, v)) fs with inr l => Ran (GRec l []) | inl e => e end
  | XUnion r b y => ebind (eval F z y) (fun v => Ran (union_rec r b v))
  | XAddr y => ebind (eval F z y) (fun v => Ran (GPtr v))
  | XGuard _ p y =>
    ebind (path p z) (fun v => match v with GNil => Ran GNil | GPtr _ => eval F z y | _ => Rejected end)
  end.
(** avro_template.go 223-233: the function converts each item *)
Definition slice_fn (F : fenv) (d : fndef) (v : gv) : eres :=
  match v with
  | GSlice l => match each (fun z => eval F z (XAddr (XRec (fn_rec d) (fn_fields d)))) (fun w _ => w) l with inr ws => Ran (GSlice ws) | inl e => e end
  | _ => Rejected
  end.
Definition defined (ds : list fndef) (F : fenv) : fenv := fold_left (fun F d => (fn_name d, slice_fn F d) :: F) ds F.
(** avro_template.go 69-75: the fields of the record built for the value that z points to *)
Definition run_mapping (c : mfields) (z : gv) : eres := eval (defined (mf_pre c) []) z (XRec "" (mf_fields c)).

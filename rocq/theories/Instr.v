(** transform.go: evaluation of transform instructions, generic in the representation of values. *)
From stdpp Require Import strings list gmap.
From Coq Require Import ZArith.
From Verif Require Import GoStr Val Conv.

(** transform.go 35-41 transformInstruction *)
Record instr := Instr { i_jpath : string; i_xpath : string; i_ops : list op }.

(** transform.go 13-19 *)
Inductive meth := MFirst | MLast | MConcat.

(** transform.go 213-217 transformInstructions without the mutable From, which lives in the state
    under [ti_id] *)
Record tis := Tis { ti_id : nat; ti_meth : meth; ti_delim : string }.

(** instance.go 16-26: a pathModifier is a chain of pathReplace closures, oldest first; nil is [] *)
Definition modifier := list (string * string).
Definition apply_mod (m : modifier) (p : string) : string :=
  foldl (fun p on => replace1 p on.1 on.2) p m.
Definition path_replace (old new : string) (m : modifier) : modifier := m ++ [(old, new)].

(** transformer.go 20-25 *)
Inductive fmt := FJson | FXml.

Section instr.
Context (W : oracles) {V : Type} (view : V -> vw V).
Notation G := (gval V).

(** transform.go 166-195 *)
Definition json_instr (ins : instr) (input : V) (ft : string) (m : modifier) : res G :=
  match jget W view (apply_mod m (i_jpath ins)) input with
  | None => Ok (GS SNil)
  | Some raw =>
    if is_nil view raw then Ok (GS SNil) else
    match convert W view ft raw with
    | None => Panic
    | Some (v, e) =>
      let value := if e then raw else v in
      if is_nil view value then Ok (GS SNil) else ops_run W view (i_ops ins) value
    end
  end.

(** transform.go 105-164. The error of convert in the single leaf branch (line 134) is ignored. *)
Definition xml_instr (ins : instr) (input : V) (ft : string) (m : modifier) : res G :=
  let path := apply_mod m (i_xpath ins) in
  match view input with
  | WNode node =>
    match o_xfind W node path with
    | None => Panic
    | Some [] => Ok (GS SNil)
    | Some (n0 :: ns) =>
      match o_xfind W node (path +:+ "[*]"), o_xfind W node (path +:+ "[not(*)]") with
      | Some wc, Some nc =>
        let value : option G :=
          if bool_decide (wc = []) && bool_decide (length nc = 1)
          then (fun ve : G * bool => fst ve) <$> convert W view ft (GS (SStr (o_text W n0)))
          else if decide (ft = "array" \/ ft = "object") then Some (GN (n0 :: ns))
          else if decide (ft = "string")
               then Some (GS (SStr (join " " (o_text W <$> (n0 :: ns)))))
          else (fun ve : G * bool => if snd ve then GN (n0 :: ns) else fst ve) <$>
               convert W view ft (GS (SStr (o_text W n0))) in
        match value with
        | None => Panic
        | Some v => if is_nil view v then Ok (GS SNil) else ops_run W view (i_ops ins) v
        end
      | _, _ => Panic
      end
    end
  | _ => Err
  end.

(** transform.go 201-209 *)
Definition instr_run (f : fmt) (ins : instr) (input : V) (ft : string) (m : modifier) : res G :=
  match f with
  | FJson => json_instr ins input ft m
  | FXml => xml_instr ins input ft m
  end.

(** the loop transform.go 271-292, methods first and last *)
Fixpoint run_first (step : instr -> res G) (from : list instr) : res G :=
  match from with
  | [] => Ok (GS SNil)
  | i :: from' =>
    rbind (step i) (fun value => if is_nil view value then run_first step from' else Ok value)
  end.
(** the same loop, method concatenate *)
Fixpoint run_concat (step : instr -> res G) (delim : string) (result : G) (from : list instr)
  : res G :=
  match from with
  | [] => Ok result
  | i :: from' =>
    rbind (step i) (fun value =>
    rbind (concat view result value delim) (fun r => run_concat step delim r from'))
  end.

(** transform.go 258-293. [from] is tis.From before the call; the second component is tis.From
    after it: method last replaces it by its reverse. *)
Definition tis_run (f : fmt) (t : tis) (from : list instr) (input : V) (ft : string) (m : modifier)
  : res G * list instr :=
  let from' := match ti_meth t with MLast => rev from | _ => from end in
  let step ins := instr_run f ins input ft m in
  (match ti_meth t with
   | MConcat => run_concat step (ti_delim t) (GS SNil) from'
   | _ => run_first step from'
   end, from').
End instr.

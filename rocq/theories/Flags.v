(** main.go: the rename flags. *)
From stdpp Require Import strings list gmap.
From Coq Require Import Ascii.
From Verif Require Import GoStr.

(** strings.SplitN(s, "=", 2): what is before and after the first "=" (main.go 31); None: there is none *)
Fixpoint cut_eq (s : string) : option (string * string) :=
  match s with
  | "" => None
  | String a s' => if decide (a = "="%char) then Some ("", s')
                   else match cut_eq s' with Some (k, v) => Some (String a k, v) | None => None end
  end.
(** main.go 30-36, the loop over the pairs. The map keeps what was set before an error. *)
Fixpoint set_pairs (kv : gmap string string) (pairs : list string) : gmap string string * bool :=
  match pairs with
  | [] => (kv, true)
  | p :: pairs' =>
    match cut_eq p with
    | None => (kv, false)
    | Some (k, v) => set_pairs (<[k := v]> kv) pairs'
    end
  end.
(** main.go 29-38 mapFlags.Set; true: no error *)
Definition set_flag (kv : gmap string string) (value : string) : gmap string string * bool := set_pairs kv (split value ",").
(** package flag calls Set for every occurrence of the option and exits at the first error *)
Fixpoint set_flags (kv : gmap string string) (values : list string) : option (gmap string string) :=
  match values with
  | [] => Some kv
  | v :: values' => match set_flag kv v with (kv', true) => set_flags kv' values' | (_, false) => None end
  end.
(** main.go 20-26 mapFlags.String; [ks] are the keys in the order Go iterates over the map *)
Definition flag_string (ks : list string) (kv : gmap string string) : string :=
  join " " (omap (fun k => (fun v => "-" +:+ k +:+ "=" +:+ v) <$> kv !! k) ks).

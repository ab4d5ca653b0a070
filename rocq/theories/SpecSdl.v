(** Reading GraphQL documents: the GraphQL specification (October 2021), sections 2.1 "Source Text", 2.9 "Input Values", 2.11 "Type
    References", 2.12 "Directives" and 3.5 to 3.7, for the definitions that generated files have: scalars, object types and interfaces. Of
    numbers only integers are known, and no variables; anything else is an error here. A file may have no definitions at all. *)
From stdpp Require Import strings list.
From Coq Require Import Ascii NArith.
From Verif Require Import GoStr SpecGen SpecGql SpecDesc.

(** ** tokens *)
Inductive lexeme := LName (w : string) | LStr (s : string) | LInt (s : string) | LPunct (c : ascii).
Definition digit (c : ascii) : bool := bool_decide (48 <= code c <= 57)%N.
Definition name_start (c : ascii) : bool := bool_decide (65 <= code c <= 90)%N || bool_decide (97 <= code c <= 122)%N || bool_decide (c = "_"%char).
Definition name_char (c : ascii) : bool := name_start c || digit c.
Definition gql_name (s : string) : bool := match s with String c s' => name_start c && all_chars name_char s' | EmptyString => false end.
Definition gql_puncts : list ascii := ["!"; "&"; "("; ")"; ":"; "="; "@"; "["; "]"; "{"; "}"]%char.
(** white space, line ends and commas *)
Definition ignored (c : ascii) : bool := white c || bool_decide (c = c_newline) || bool_decide (c = c_return) || bool_decide (c = ","%char).
(** the longest beginning with such characters, and what follows *)
Fixpoint span (p : ascii -> bool) (s : string) : string * string :=
  match s with
  | EmptyString => ("", "")
  | String c s' => if p c then let '(w, r) := span p s' in (String c w, r) else ("", s)
  end.
(** comments go to the end of the line *)
Definition in_comment (c : ascii) : bool := negb (bool_decide (c = c_newline) || bool_decide (c = c_return)).
Definition then_lex (t : lexeme) (o : option (list lexeme)) : option (list lexeme) := match o with Some l => Some (t :: l) | None => None end.
Fixpoint lex (n : nat) (s : string) : option (list lexeme) :=
  match n with
  | O => None
  | S n =>
    match s with
    | EmptyString => Some []
    | String c s' =>
      if ignored c then lex n s'
      else if decide (c = "#"%char) then lex n (span in_comment s').2
      else if name_start c then let '(w, r) := span name_char s in then_lex (LName w) (lex n r)
      else if decide (c = c_quote) then match read_string s with Some (v, rest) => then_lex (LStr v) (lex n rest) | None => None end
      else if decide (c ∈ gql_puncts) then then_lex (LPunct c) (lex n s')
      else if bool_decide (c = "-"%char) || digit c then
        let '(ds, rest) := span digit (if decide (c = "-"%char) then s' else s) in
        if decide (ds = "") then None else then_lex (LInt ((if decide (c = "-"%char) then "-" else "") +:+ ds)) (lex n rest)
      else None
    end
  end.
Definition lex_all (s : string) : option (list lexeme) := lex (S (String.length s)) s.

(** ** definitions *)
Inductive typ := TyName (n : string) (nn : bool) | TyList (t : typ) (nn : bool).
Inductive value := GStr (s : string) | GInt (s : string) | GName (n : string) | GList (l : list value) | GObj (l : list (string * value)).
Record directive := Directive { dir_name : string; dir_args : list (string * value) }.
Record input := Input { in_desc : option string; in_name : string; in_type : typ; in_default : option value; in_dirs : list directive }.
Record field := Field { fl_desc : option string; fl_name : string; fl_args : list input; fl_type : typ; fl_dirs : list directive }.
Inductive definition :=
| DScalar (desc : option string) (name : string) (dirs : list directive)
| DType (kind : string) (desc : option string) (name : string) (implements : list string) (dirs : list directive) (fields : list field).

(** the tokens after the sign [c]; the word [w] *)
Definition after_sign (c : ascii) (ts : list lexeme) : option (list lexeme) :=
  match ts with LPunct d :: ts' => if decide (d = c) then Some ts' else None | _ => None end.
Definition after_word (w : string) (ts : list lexeme) : option (list lexeme) :=
  match ts with LName v :: ts' => if decide (v = w) then Some ts' else None | _ => None end.
Definition parser A := list lexeme -> option (A * list lexeme).
Definition and_then {A B} (o : option (A * list lexeme)) (k : A -> parser B) : option (B * list lexeme) := match o with Some (a, ts) => k a ts | None => None end.
Definition p_sign (c : ascii) : parser unit := fun ts => match after_sign c ts with Some ts' => Some (tt, ts') | None => None end.
Definition p_word : parser string := fun ts => match ts with LName w :: ts' => Some (w, ts') | _ => None end.
(** [p] if the sign [c] is next, after it; else [a] *)
Definition if_sign {A} (c : ascii) (p : parser A) (a : A) : parser A := fun ts => match after_sign c ts with Some ts' => p ts' | None => Some (a, ts) end.
(** [p] again and again, up to the closing [c]; once at least *)
Fixpoint many1 {A} (n : nat) (p : parser A) (c : ascii) (ts : list lexeme) : option (list A * list lexeme) :=
  match n with
  | O => None
  | S n =>
    and_then (p ts) (fun a ts1 =>
    match after_sign c ts1 with
    | Some ts2 => Some ([a], ts2)
    | None => and_then (many1 n p c ts1) (fun l ts2 => Some (a :: l, ts2))
    end)
  end.
Definition p_bang : parser bool := if_sign "!" (fun ts => Some (true, ts)) false.
Fixpoint p_typ (n : nat) (ts : list lexeme) : option (typ * list lexeme) :=
  match n with
  | O => None
  | S n =>
    match after_sign "[" ts with
    | Some ts1 => and_then (p_typ n ts1) (fun t ts2 => and_then (p_sign "]" ts2) (fun _ ts3 => and_then (p_bang ts3) (fun b ts4 => Some (TyList t b, ts4))))
    | None => and_then (p_word ts) (fun w ts1 => and_then (p_bang ts1) (fun b ts2 => Some (TyName w b, ts2)))
    end
  end.
(** a name, a colon and a value *)
Definition p_pair (p : parser value) : parser (string * value) := fun ts =>
  and_then (p_word ts) (fun w ts1 => and_then (p_sign ":" ts1) (fun _ ts2 => and_then (p ts2) (fun v ts3 => Some ((w, v), ts3)))).
Definition p_literal : parser value := fun ts =>
  match ts with
  | LStr s :: ts' => Some (GStr s, ts')
  | LInt s :: ts' => Some (GInt s, ts')
  | LName w :: ts' => Some (GName w, ts')
  | _ => None
  end.
Fixpoint p_value (n : nat) (ts : list lexeme) : option (value * list lexeme) :=
  match n with
  | O => None
  | S n =>
    match after_sign "[" ts with
    | Some ts1 =>
      match after_sign "]" ts1 with
      | Some ts2 => Some (GList [], ts2)
      | None => and_then (many1 n (p_value n) "]" ts1) (fun l ts2 => Some (GList l, ts2))
      end
    | None =>
      match after_sign "{" ts with
      | Some ts1 =>
        match after_sign "}" ts1 with
        | Some ts2 => Some (GObj [], ts2)
        | None => and_then (many1 n (p_pair (p_value n)) "}" ts1) (fun l ts2 => Some (GObj l, ts2))
        end
      | None => p_literal ts
      end
    end
  end.
Fixpoint p_directives (n : nat) (ts : list lexeme) : option (list directive * list lexeme) :=
  match n with
  | O => None
  | S n =>
    if_sign "@" (fun ts1 =>
      and_then (p_word ts1) (fun w ts2 =>
      and_then (if_sign "(" (many1 n (p_pair (p_value n)) ")") [] ts2) (fun args ts3 =>
      and_then (p_directives n ts3) (fun ds ts4 => Some (Directive w args :: ds, ts4))))) [] ts
  end.
Definition p_desc : parser (option string) := fun ts => match ts with LStr s :: ts' => Some (Some s, ts') | _ => Some (None, ts) end.
(** an argument of a field: description, name, type, default, directives *)
Definition p_input (n : nat) : parser input := fun ts =>
  and_then (p_desc ts) (fun desc ts1 =>
  and_then (p_word ts1) (fun w ts2 =>
  and_then (p_sign ":" ts2) (fun _ ts3 =>
  and_then (p_typ n ts3) (fun t ts4 =>
  and_then (if_sign "=" (fun ts => and_then (p_value n ts) (fun v ts' => Some (Some v, ts'))) None ts4) (fun d ts5 =>
  and_then (p_directives n ts5) (fun ds ts6 => Some (Input desc w t d ds, ts6))))))).
Definition p_field (n : nat) : parser field := fun ts =>
  and_then (p_desc ts) (fun desc ts1 =>
  and_then (p_word ts1) (fun w ts2 =>
  and_then (if_sign "(" (many1 n (p_input n) ")") [] ts2) (fun args ts3 =>
  and_then (p_sign ":" ts3) (fun _ ts4 =>
  and_then (p_typ n ts4) (fun t ts5 =>
  and_then (p_directives n ts5) (fun ds ts6 => Some (Field desc w args t ds, ts6))))))).
(** the interfaces a type implements, with & between them *)
Fixpoint p_names (n : nat) (ts : list lexeme) : option (list string * list lexeme) :=
  match n with
  | O => None
  | S n => and_then (p_word ts) (fun w ts1 => if_sign "&" (fun ts2 => and_then (p_names n ts2) (fun l ts3 => Some (w :: l, ts3))) [w] ts1)
  end.
Definition p_implements (n : nat) : parser (list string) := fun ts =>
  match after_word "implements" ts with
  | Some ts1 => match after_sign "&" ts1 with Some ts2 => p_names n ts2 | None => p_names n ts1 end
  | None => Some ([], ts)
  end.
Definition p_definition (n : nat) : parser definition := fun ts =>
  and_then (p_desc ts) (fun desc ts1 =>
  and_then (p_word ts1) (fun kind ts2 =>
  and_then (p_word ts2) (fun w ts3 =>
  if decide (kind = "scalar") then and_then (p_directives n ts3) (fun ds ts4 => Some (DScalar desc w ds, ts4))
  else if decide (kind = "type" \/ kind = "interface") then
    and_then (p_implements n ts3) (fun is ts4 =>
    and_then (p_directives n ts4) (fun ds ts5 =>
    and_then (if_sign "{" (many1 n (p_field n) "}") [] ts5) (fun fs ts6 => Some (DType kind desc w is ds fs, ts6))))
  else None))).
Fixpoint p_document (n : nat) (ts : list lexeme) : option (list definition) :=
  match n with
  | O => None
  | S n =>
    match ts with
    | [] => Some []
    | _ => match p_definition n ts with Some (d, ts') => match p_document n ts' with Some ds => Some (d :: ds) | None => None end | None => None end
    end
  end.
(** the definitions in a file; None: it is not a document *)
Definition parse_gql (s : string) : option (list definition) :=
  match lex_all s with Some ts => p_document (S (length ts)) ts | None => None end.

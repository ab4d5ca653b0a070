(** Reading generated Go files: the scanner and parser of go/parser and the tags of package reflect for the part of Go that struct files are
    written in, and generate/avro.go 151-258. *)
From stdpp Require Import strings list gmap.
From Coq Require Import Ascii ZArith.
From Verif Require Import GoStr Val Conv Schema Inst Avro.

(** ** go/scanner (standard library). Identifiers are ASCII, and only the operators that types are made of are known: anything else is an
    error here. Text is taken to be valid UTF-8 without a byte order mark. *)
Inductive token := Word (w : string) | Punct (c : ascii) | Raw (s : string) | Str (s : string) | Semi.
Global Instance token_eq : EqDecision token.
Proof. solve_decision. Defined.
Definition keywords : list string :=
  ["break"; "case"; "chan"; "const"; "continue"; "default"; "defer"; "else"; "fallthrough"; "for"; "func"; "go"; "goto"; "if"; "import";
   "interface"; "map"; "package"; "range"; "return"; "select"; "struct"; "switch"; "type"; "var"].
Definition is_keyword (w : string) : bool := bool_decide (w ∈ keywords).
(** after which words a line break is a semicolon *)
Definition ends_line (w : string) : bool := negb (is_keyword w) || bool_decide (w ∈ ["break"; "continue"; "fallthrough"; "return"]).
Definition puncts : list ascii := ["*"; "["; "]"; "{"; "}"; "."]%char.
Definition newline_char : ascii := "010"%char.
Definition return_char : ascii := "013"%char.
(** between tokens ([b]: a line break would be a semicolon), within a word, after a slash, within a comment, a raw string, a string *)
Inductive mode := Code (b : bool) | InWord (w : string) | Slash (b : bool) | InComment (b : bool) | InRaw (s : string) | InStr (s : string).
Definition add (t : token) (o : option (list token)) : option (list token) := match o with Some l => Some (t :: l) | None => None end.
Definition semi (b : bool) (o : option (list token)) : option (list token) := if b then add Semi o else o.
(** a character between tokens; [k] scans the rest *)
Definition scan_code (k : mode -> option (list token)) (b : bool) (c : ascii) : option (list token) :=
  if decide (c = newline_char) then semi b (k (Code false))
  else if decide (c = " "%char \/ c = "009"%char \/ c = return_char) then k (Code b)
  else if id_start c then k (InWord (String c ""))
  else if decide (c = "/"%char) then k (Slash b)
  else if decide (c = "`"%char) then k (InRaw "")
  else if decide (c = dquote) then k (InStr "")
  else if decide (c = ";"%char) then add Semi (k (Code false))
  else if decide (c ∈ puncts) then add (Punct c) (k (Code (bool_decide (c = "]"%char \/ c = "}"%char))))
  else None.
Fixpoint scan (m : mode) (s : string) : option (list token) :=
  match s with
  | "" =>
    match m with
    | Code b | InComment b => semi b (Some [])
    | InWord w => add (Word w) (semi (ends_line w) (Some []))
    | _ => None
    end
  | String c s' =>
    let k := fun m => scan m s' in
    if decide (c = "000"%char) then None else
    match m with
    | Code b => scan_code k b c
    | InWord w => if id_char c then k (InWord (w +:+ String c "")) else add (Word w) (scan_code k (ends_line w) c)
    | Slash b => if decide (c = "/"%char) then k (InComment b) else None
    | InComment b => if decide (c = newline_char) then semi b (k (Code false)) else k (InComment b)
    | InRaw r => if decide (c = "`"%char) then add (Raw r) (k (Code true))
                 else if decide (c = return_char) then k (InRaw r) else k (InRaw (r +:+ String c ""))
    | InStr r => if decide (c = dquote) then add (Str r) (k (Code true))
                 else if decide (c = newline_char \/ c = backslash) then None else k (InStr (r +:+ String c ""))
    end
  end.

(** ** go/parser (standard library): files with imports and declarations of types. A field has a literal as its tag, if any. *)
Inductive rtype :=
| RIdent (n : string) | RSel (x n : string) | RStar (t : rtype) | RArray (t : rtype) | RMap (k v : rtype) | RStruct (fs : list rfield)
with rfield := RField (names : list string) (ty : rtype) (tag : option string).
Record rfile := RFile { rf_package : string; rf_imports : list string; rf_types : list (string * rtype) }.

Definition p_tag (ts : list token) : option string * list token :=
  match ts with
  | Raw s :: ts' => (Some ("`" +:+ s +:+ "`"), ts')
  | Str s :: ts' => (Some ("""" +:+ s +:+ """"), ts')
  | _ => (None, ts)
  end.
Fixpoint p_type (n : nat) (ts : list token) : option (rtype * list token) :=
  match n with
  | O => None
  | S n =>
    match ts with
    | Word w :: ts' =>
      if decide (w = "map") then
        match ts' with
        | Punct "[" :: ts1 =>
          match p_type n ts1 with
          | Some (k, Punct "]" :: ts2) => match p_type n ts2 with Some (v, ts3) => Some (RMap k v, ts3) | None => None end
          | _ => None
          end
        | _ => None
        end
      else if decide (w = "struct") then
        match ts' with
        | Punct "{" :: ts1 => match p_fields n ts1 with Some (fs, ts2) => Some (RStruct fs, ts2) | None => None end
        | _ => None
        end
      else if is_keyword w then None
      else match ts' with
           | Punct "." :: Word y :: ts1 => if is_keyword y then None else Some (RSel w y, ts1)
           | Punct "." :: _ => None
           | _ => Some (RIdent w, ts')
           end
    | Punct "*" :: ts' => match p_type n ts' with Some (t, ts1) => Some (RStar t, ts1) | None => None end
    | Punct "[" :: Punct "]" :: ts' => match p_type n ts' with Some (t, ts1) => Some (RArray t, ts1) | None => None end
    | _ => None
    end
  end
(** the fields after the opening brace, up to the closing one *)
with p_fields (n : nat) (ts : list token) : option (list rfield * list token) :=
  match n with
  | O => None
  | S n =>
    match ts with
    | Punct "}" :: ts' => Some ([], ts')
    | _ =>
      match p_field n ts with
      | Some (f, Semi :: ts1) => match p_fields n ts1 with Some (fs, ts2) => Some (f :: fs, ts2) | None => None end
      | Some (f, Punct "}" :: ts1) => Some ([f], ts1)
      | _ => None
      end
    end
  end
(** a name, a type and a tag; or an embedded type *)
with p_field (n : nat) (ts : list token) : option (rfield * list token) :=
  match n with
  | O => None
  | S n =>
    match ts with
    | Word w :: ts' =>
      if is_keyword w then None else
      match ts' with
      | Semi :: _ | Punct "}" :: _ | Raw _ :: _ | Str _ :: _ | Punct "." :: _ =>
        match p_type n ts with Some (t, ts1) => let '(g, ts2) := p_tag ts1 in Some (RField [] t g, ts2) | None => None end
      | _ =>
        match p_type n ts' with Some (t, ts1) => let '(g, ts2) := p_tag ts1 in Some (RField [w] t g, ts2) | None => None end
      end
    | Punct "*" :: Word _ :: _ =>
      match p_type n ts with Some (t, ts1) => let '(g, ts2) := p_tag ts1 in Some (RField [] t g, ts2) | None => None end
    | _ => None
    end
  end.
Fixpoint p_decls (n : nat) (ts : list token) : option (list (string * rtype)) :=
  match n with
  | O => None
  | S n =>
    match ts with
    | [] => Some []
    | Word "type" :: Word w :: ts' =>
      if is_keyword w then None else
      match p_type n ts' with
      | Some (t, Semi :: ts1) => match p_decls n ts1 with Some ds => Some ((w, t) :: ds) | None => None end
      | _ => None
      end
    | _ => None
    end
  end.
Fixpoint p_imports (ts : list token) : list string * list token :=
  match ts with
  | Word "import" :: Str s :: Semi :: ts' => let '(is, ts1) := p_imports ts' in (s :: is, ts1)
  | _ => ([], ts)
  end.
Definition p_file (ts : list token) : option rfile :=
  match ts with
  | Word "package" :: Word p :: Semi :: ts' =>
    if is_keyword p then None else
    let '(is, ts1) := p_imports ts' in
    match p_decls (S (length ts)) ts1 with Some ds => Some (RFile p is ds) | None => None end
  | _ => None
  end.
Definition parse_go (s : string) : option rfile := match scan (Code false) s with Some ts => p_file ts | None => None end.

(** ** reflect.StructTag.Get (standard library), with strconv.Unquote. [o_unquote] stands for numeric escapes. *)
Section tags.
Context (o_unquote : string -> option string).
(** the value of an escape of one character *)
Definition unescape (c : ascii) : option ascii :=
  if decide (c = "a"%char) then Some "007"%char else if decide (c = "b"%char) then Some "008"%char
  else if decide (c = "f"%char) then Some "012"%char else if decide (c = "n"%char) then Some "010"%char
  else if decide (c = "r"%char) then Some "013"%char else if decide (c = "t"%char) then Some "009"%char
  else if decide (c = "v"%char) then Some "011"%char else if decide (c = dquote \/ c = backslash) then Some c else None.
Fixpoint numeric_escape (s : string) : bool :=
  match s with
  | "" => false
  | String a s1 =>
    if decide (a = backslash) then
      match s1 with
      | "" => false
      | String c s' => is_digit c || bool_decide (c ∈ ["x"; "u"; "U"]%char) || numeric_escape s'
      end
    else numeric_escape s1
  end.
Fixpoint unquote_go (s : string) : option string :=
  match s with
  | "" => Some ""
  | String a s' =>
    if decide (a = newline_char \/ a = dquote) then None
    else if decide (a = backslash) then
      match s' with
      | "" => None
      | String c s'' => match unescape c, unquote_go s'' with Some x, Some r => Some (String x r) | _, _ => None end
      end
    else match unquote_go s' with Some r => Some (String a r) | None => None end
  end.
(** what is between the quotes *)
Definition unquote (s : string) : option string := if numeric_escape s then o_unquote s else unquote_go s.
(** the key of a tag: up to the colon; what follows the colon *)
Fixpoint tag_key (s : string) (acc : string) : option (string * string) :=
  match s with
  | "" => None
  | String c s' =>
    if decide (c = ":"%char) then (if decide (acc = "") then None else Some (acc, s'))
    else if ((N_of_ascii c <=? 32) || (N_of_ascii c =? 127))%N || bool_decide (c = dquote) then None
    else tag_key s' (acc +:+ String c "")
  end.
(** up to the closing quote; what follows it *)
Fixpoint tag_value (s : string) (acc : string) : option (string * string) :=
  match s with
  | "" => None
  | String c s' =>
    if decide (c = dquote) then Some (acc, s')
    else if decide (c = backslash) then
      match s' with
      | "" => None
      | String c' s'' => tag_value s'' (acc +:+ String c (String c' ""))
      end
    else tag_value s' (acc +:+ String c "")
  end.
Fixpoint tag_lookup (n : nat) (tag key : string) : string :=
  match n with
  | O => ""
  | S n =>
    match tag_key (trim_left " " tag) "" with
    | Some (name, String q rest) =>
      if decide (q = dquote) then
        match tag_value rest "" with
        | Some (v, rest') => if decide (key = name) then default "" (unquote v) else tag_lookup n rest' key
        | None => ""
        end
      else ""
    | _ => ""
    end
  end.
Definition tag_get (tag key : string) : string := tag_lookup (S (String.length tag)) tag key.

(** ** avro.go 239-258: the values of the keys that are used; the rest is [tag_name] and [tag_omit] of Avro.v. Fields as convertToAvroType and
    writeAvroField see them. *)
Fixpoint to_texpr (t : rtype) : texpr :=
  match t with
  | RIdent n => EIdent n
  | RSel x n => ESel x n
  | RStar t => EStar (to_texpr t)
  | RArray t => EArray (to_texpr t)
  | RMap k v => EMap (to_texpr k) (to_texpr v)
  | RStruct fs => EStruct (map to_afield fs)
  end
with to_afield (f : rfield) : afield :=
  let 'RField names ty tag := f in
  match tag with
  | None => AField names (to_texpr ty) "" ""
  | Some lit => let t := trim "`" lit in AField names (to_texpr ty) (tag_get t "json") (tag_get t "description")
  end.

(** ** ast.FilterFile (standard library) keeps the declarations of a name, and those with a field of that name, with only these fields *)
Fixpoint embedded_name (t : rtype) : option string :=
  match t with RIdent n => Some n | RSel _ n => Some n | RStar t => embedded_name t | _ => None end.
Definition filter_field (name : string) (f : rfield) : option rfield :=
  let 'RField names ty tag := f in
  match names with
  | [] => if decide (embedded_name ty = Some name) then Some f else None
  | _ => match filter (fun x => x = name) names with [] => None | l => Some (RField l ty tag) end
  end.
Fixpoint filter_type (name : string) (t : rtype) : bool * rtype :=
  match t with
  | RIdent n => (bool_decide (n = name), t)
  | RArray t => let '(b, t') := filter_type name t in (b, RArray t')
  | RMap k v => let '(b1, k') := filter_type name k in let '(b2, v') := filter_type name v in (b1 || b2, RMap k' v')
  | RStruct fs => let fs' := omap (filter_field name) fs in (match fs' with [] => false | _ => true end, RStruct fs')
  | _ => (false, t)
  end.
Definition filter_decl (name : string) (d : string * rtype) : option (string * rtype) :=
  if decide (d.1 = name) then Some d else let '(b, t) := filter_type name d.2 in if b then Some (d.1, t) else None.
Definition filter_decls (name : string) (f : rfile) : list (string * rtype) := omap (filter_decl name) (rf_types f).
(** avro.go 151-186, for a file: the first declaration that is kept. The files of the directory are given by name with their text. *)
Definition struct_in_file (dir : list (string * string)) (file name : string) : option rtype :=
  match assocd file dir with
  | None => None
  | Some text => match parse_go text with Some f => snd <$> head (filter_decls name f) | None => None end
  end.
(** avro.go 189-237, 169-185, for the directory: all files are parsed; they are of one package; one of them declares the name, once *)
Definition parse_dir (dir : list (string * string)) : option (list rfile) :=
  mapM (fun f : string * string => parse_go f.2) (filter (fun f => has_suffix ".go" f.1 = true) dir).
Definition one_package (fs : list rfile) : bool :=
  match fs with [] => false | f :: fs' => forallb (fun g => bool_decide (rf_package g = rf_package f)) fs' end.
Definition named_decls (name : string) (f : rfile) : list (string * rtype) := filter (fun d => d.1 = name) (filter_decls name f).
Definition struct_in_dir (dir : list (string * string)) (name : string) : option rtype :=
  match parse_dir dir with
  | None => None
  | Some fs =>
    if one_package fs then
      match flat_map (fun f => map (fun _ => f) (named_decls name f)) fs with
      | [f] => snd <$> head (filter_decls name f)
      | _ => None
      end
    else None
  end.
Definition sources_of (dir : list (string * string)) : sources :=
  Sources (fun file name => to_texpr <$> struct_in_file dir file name) (fun name => to_texpr <$> struct_in_dir dir name).

(** avro.go 95-149 without pretty printing: the Avro schema of a struct in a file. None: the recursion is deeper than [fuel]. *)
Definition avro_schema (W : oracles) (o_quote : string -> string) (fuel : nat) (dir : list (string * string)) (name file : string) : option (res string) :=
  match struct_in_file dir file name with
  | None => Some Err
  | Some t => Ok <$> avro_file W o_quote (sources_of dir) fuel name (to_texpr t)
  end.
End tags.

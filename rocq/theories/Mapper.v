(** The code that turns a generated Go struct into an Avro record: the avroFieldMapper of generate/avro_helpers.go.
    The mapper writes Go source text; here it makes the expressions and functions this text stands for, and [show]
    prints them. *)
From stdpp Require Import strings list gmap.
From Coq Require Import Ascii.
From Verif Require Import GoStr Val Conv Avro.

(** the functions of package generate which convert times: AvroTime, AvroTimeSlice, AvroOptionalTime and
    AvroOptionalTimeSlice (avro_helpers.go 58-95) *)
Inductive timefn := FTime | FTimes | FOptTime | FOptTimes.
(** The Go expressions the mapper writes. A path [p] stands for z.a.b.c. *)
Inductive gexpr :=
| XSel (p : list string)                              (* z.p *)
| XTime (f : timefn) (p : list string)                (* generate.F(z.p) *)
| XSlice (f : string) (p : list string)               (* f(z.p), f a function of the same text *)
| XRec (r : string) (fs : list (string * gexpr))      (* pkg.r{name: value, ...} *)
| XUnion (r b : string) (x : gexpr)                   (* pkg.r{b: x, UnionType: pkg.rTypeEnumb} *)
| XAddr (x : gexpr)                                   (* &x *)
| XGuard (ty : string) (p : list string) (x : gexpr). (* the closure of generateNullableFieldValue *)
(** A function made by avroStructSliceTemplate (avro_template.go 223-233), which converts a slice with items of type
    [fn_elem] to a slice of pointers to records of the Avro type [fn_rec]. *)
Record fndef := FnDef { fn_name : string; fn_elem : texpr; fn_rec : string; fn_fields : list (string * gexpr) }.
(** avro_helpers.go 126-130 mappedFields: for a single value, and for the fields of a struct *)
Record mapped := Mapped { m_value : gexpr; m_pre : list fndef; m_name : string }.
Record mfields := MFields { mf_fields : list (string * gexpr); mf_pre : list fndef }.

(** avro_helpers.go 541-576 printFields, as the fields that are printed: embedded fields, and fields with a type
    that is no identifier, array, selector or struct, are left out; a type that cannot be printed replaces the whole
    text by a message. Simplification: every field has a tag (f.Tag.Value would panic), which is kept. *)
Fixpoint printed (t : texpr) : list afield :=
  match t with
  | EStruct fs =>
    (fix loop (fs : list afield) (out : list afield) : list afield :=
       match fs with
       | [] => out
       | AField [] _ _ _ :: fs' => loop fs' out
       | AField (n :: _) t j d :: fs' =>
         match t with
         | EIdent _ => loop fs' (out ++ [AField [n] t j d])
         | EArray e =>
           match e with
           | EStruct _ => loop fs' (out ++ [AField [n] (EArray (EStruct (printed e))) j d])
           | EIdent _ => loop fs' (out ++ [AField [n] t j d])
           | _ => [AField [] (EOther "unknown array type") "" ""]
           end
         | ESel _ sel =>
           if decide (sel = "Time") then loop fs' (out ++ [AField [n] (ESel "time" "Time") j d])
           else [AField [] (EOther ("unsupported type """ +:+ sel +:+ """")) "" ""]
         | EStruct _ => loop fs' (out ++ [AField [n] (EStruct (printed t)) j d])
         | _ => loop fs' out
         end
       end) fs []
  | _ => []
  end.

(** avro_helpers.go 145 and avro_template.go 234-236: the templates of the unions of null and a simple type: the name of the branch *)
Definition union_branch (t : string) : option string :=
  if decide (t = "UnionNullDouble") then Some "Double"
  else if decide (t = "UnionNullLong") then Some "Long"
  else if decide (t = "UnionNullString") then Some "String" else None.

(** strings.Replace(..., "generate.AvroTime", "generate.AvroOptionalTime", 1), 338-340, 361-363. Simplification: no
    field or package name contains generate.AvroTime *)
Definition optional (x : gexpr) : gexpr :=
  match x with
  | XTime FTime p => XTime FOptTime p
  | XTime FTimes p => XTime FOptTimes p
  | _ => x
  end.
Definition optional_if (b : bool) (x : gexpr) : gexpr := if b then optional x else x.
(** avro_helpers.go 321-324, 350-353: a pointer is looked through *)
Definition pointed (t : texpr) : bool * texpr := match t with EStar x => (true, x) | _ => (false, t) end.
Definition is_time (t : texpr) : bool := match t with ESel _ s => bool_decide (s = "Time") | _ => false end.
Definition is_star (t : texpr) : bool := match t with EStar _ => true | _ => false end.

(** generatedField.Names[0].Name *)
Definition gname (g : afield) : string := hd "" (af_names g).

(** avro_helpers.go 316-341: the value of an int64 *)
Definition int_value (p : list string) (t : texpr) : gexpr :=
  let '(ptr, ft) := pointed t in
  let x := if is_time ft then XTime FTime p else XSel p in
  match ft with
  | EArray elt =>
    let '(ptr', at_) := pointed elt in
    optional_if (ptr || ptr') (if is_time at_ then XTime FTimes p else x)
  | _ => optional_if ptr x
  end.
(** avro_helpers.go 344-366: the value in a union *)
Definition union_value (p : list string) (t : texpr) : gexpr :=
  let '(ptr, ft) := pointed t in
  optional_if ptr (if is_time ft then XTime FTime p else XSel p).

(** None: too deep; Some None: an error *)
Definition then2 {A B} (o : option (option A)) (k : A -> option (option B)) : option (option B) :=
  match o with Some (Some a) => k a | Some None => Some None | None => None end.

Section mapper.
(** [E]: the generated package; [below]: parseGoStruct for a path below the source file, which generateChildStruct
    uses for embedded structs (229 passes the path of a file as the directory); [avro]: the Avro package *)
Context (W : oracles) (E : sources) (below : string -> string -> option texpr) (avro : string -> option texpr).
Definition E_child : sources := Sources below (src_dir E).

(** avro_helpers.go 202-228: the fields of the struct type, and its name *)
Definition child_fields (t : texpr) : option (list afield * option string) :=
  match (match t with EStar x => x | _ => t end) with
  | EStruct fs => Some (fs, None)
  | EIdent s => match src_dir E s with Some (EStruct fs) => Some (fs, Some s) | _ => None end
  | _ => None
  end.

(** avro_helpers.go 273-389 generateFieldValue, 391-401 generateNullableFieldValue *)
Fixpoint gen_value (fuel : nat) (name : string) (prefix : list string) (a : texpr) (g : afield) : option (option mapped) :=
  match fuel with
  | O => None
  | S n =>
    let own := prefix ++ [gname g] in
    let here := prefix ++ [name] in
    match a with
    | EStar x =>
      then2 (gen_value n name prefix x g) (fun m =>
      Some (Some (if is_star (af_type g) then Mapped (XGuard (m_name m) here (XAddr (m_value m))) (m_pre m) ""
                  else Mapped (XAddr (m_value m)) (m_pre m) (join "." here))))
    | EStruct _ => Some None
    | EMap _ v =>
      match af_type g with
      | EMap _ _ =>
        match v with
        | EStar x => match gen_value n name prefix x g with None => None | Some _ => gen_value n name prefix v g end
        | _ => gen_value n name prefix v g
        end
      | _ => Some None
      end
    | EArray e =>
      match af_type g with
      | EArray _ => gen_value n name prefix (match e with EStar x => x | _ => e end) g
      | _ => Some None
      end
    | EIdent t =>
      if decide (t ∈ ["string"; "bool"; "float64"]) then Some (Some (Mapped (XSel own) [] (join "." here)))
      else if decide (t = "int64") then Some (Some (Mapped (int_value own (af_type g)) [] (join "." here)))
      else match union_branch t with
      | Some b => Some (Some (Mapped (XUnion t b (union_value here (af_type g))) [] t))
      | None =>
        if has_prefix "UnionNull" t then
          let c := drop_str (String.length "UnionNull") t in
          then2 (gen_struct n name prefix c g) (fun m =>
          Some (Some (Mapped (XUnion ("UnionNull" +:+ c) c (XAddr (m_value m))) (m_pre m) t)))
        else gen_struct n name prefix t g
      end
    | ESel _ _ | EOther _ => Some None
    end
  end
(** avro_helpers.go 405-463 generateStructValue *)
with gen_struct (fuel : nat) (name : string) (prefix : list string) (r : string) (g : afield) : option (option mapped) :=
  match fuel with
  | O => None
  | S n =>
    match (t ← avro r; find_fields t) with
    | None => Some None
    | Some afs =>
      match af_type g with
      | EArray elt =>
        then2 (gen_child n elt [] afs) (fun '(fs, anon, s) =>
        let base := match anon with Some gfs => EStruct (printed (EStruct gfs)) | None => EIdent s end in
        let elem := if is_star elt then EStar base else base in
        let fname := (match anon with Some _ => "" | None => s +:+ "_" end) +:+ r +:+ "Slice" in
        Some (Some (Mapped (XSlice fname (prefix ++ [gname g])) (mf_pre fs ++ [FnDef fname elem r (mf_fields fs)]) "")))
      | t =>
        then2 (gen_child n t (prefix ++ [name]) afs) (fun '(fs, _, _) =>
        Some (Some (Mapped (XRec r (mf_fields fs)) (mf_pre fs) "")))
      end
    end
  end
(** avro_helpers.go 201-240 generateChildStruct: the mapping, the fields of an anonymous struct, the name of another *)
with gen_child (fuel : nat) (t : texpr) (prefix : list string) (afs : list afield) : option (option (mfields * option (list afield) * string)) :=
  match fuel with
  | O => None
  | S n =>
    match child_fields t with
    | None => Some None
    | Some (gfs, s) =>
      then2 (map_fields W E_child n gfs) (fun m =>
      then2 (gen_fields n prefix afs m) (fun fs =>
      Some (Some (fs, (match s with None => Some gfs | Some _ => None end), default "" s))))
    end
  end
(** avro_helpers.go 242-269 generateFields *)
with gen_fields (fuel : nat) (prefix : list string) (afs : list afield) (m : gmap string afield) : option (option mfields) :=
  match fuel with
  | O => None
  | S n =>
    match afs with
    | [] => Some (Some (MFields [] []))
    | f :: afs' =>
      match af_names f with
      | [] => Some None
      | name :: _ =>
        if has_prefix "Avro" name then gen_fields n prefix afs' m
        else match m !! name with
        | None => Some None
        | Some g =>
          then2 (gen_value n name prefix (af_type f) g) (fun v =>
          then2 (gen_fields n prefix afs' m) (fun rest =>
          Some (Some (MFields ((name, m_value v) :: mf_fields rest) (m_pre v ++ mf_pre rest)))))
        end
      end
    end
  end.

(** avro_helpers.go 181-197 generate and 483-495 mapGeneratedFields: [t] is the generated struct, parsed from its
    file; [name] its name, which is also that of the Avro struct *)
Definition generate_mapping (fuel : nat) (name : string) (t : texpr) : option (option mfields) :=
  match find_fields t with
  | None => Some None
  | Some gfs =>
    then2 (map_fields W E fuel gfs) (fun m =>
    match (a ← avro name; find_fields a) with
    | None => Some None
    | Some afs => gen_fields fuel [] afs m
    end)
  end.
End mapper.

(** ** The text. [o_tag]: the tag of a field as it stands in the source. *)
Section show.
Context (pkg : string) (o_tag : afield -> string).
Definition nl : string := String "010" "".
Definition tab : string := String "009" "".
Definition show_path (p : list string) : string := "z." +:+ join "." p.
Definition show_fn (f : timefn) : string :=
  match f with FTime => "AvroTime" | FTimes => "AvroTimeSlice" | FOptTime => "AvroOptionalTime" | FOptTimes => "AvroOptionalTimeSlice" end.
(** avro_template.go 234-237, avro_helpers.go 263-266, 391-401 *)
Fixpoint show (x : gexpr) : string :=
  match x with
  | XSel p => show_path p
  | XTime f p => "generate." +:+ show_fn f +:+ "(" +:+ show_path p +:+ ")"
  | XSlice f p => f +:+ "(" +:+ show_path p +:+ ")"
  | XRec r fs => pkg +:+ "." +:+ r +:+ "{" +:+ join nl (map (fun '(n, y) => n +:+ ": " +:+ show y +:+ ",") fs) +:+ "}"
  | XUnion r b y =>
    pkg +:+ "." +:+ r +:+ "{" +:+ b +:+ ": " +:+ show y +:+ ", UnionType: " +:+ pkg +:+ "." +:+ r +:+ "TypeEnum" +:+ b +:+ "}"
  | XAddr y => "&" +:+ show y
  | XGuard ty p y =>
    let rt := "*" +:+ pkg +:+ "." +:+ ty in
    "func() " +:+ rt +:+ " {" +:+ nl +:+ tab +:+ "var s " +:+ rt +:+ nl +:+ tab +:+ "if " +:+ show_path p +:+ " != nil {" +:+ nl +:+
    tab +:+ tab +:+ "s = " +:+ show y +:+ nl +:+ tab +:+ "}" +:+ nl +:+ tab +:+ "return s" +:+ nl +:+ "}()"
  end.
Definition show_fields (fs : list (string * gexpr)) : string := join nl (map (fun '(n, y) => n +:+ ": " +:+ show y +:+ ",") fs).
(** avro_helpers.go 421-430, 541-576 *)
Fixpoint show_type (t : texpr) : string :=
  match t with
  | EIdent n => n
  | EStar x => "*" +:+ show_type x
  | EArray x => "[]" +:+ show_type x
  | ESel x s => x +:+ "." +:+ s
  | EStruct fs =>
    "struct{" +:+
    (fix loop (fs : list afield) : string :=
       match fs with
       | [] => ""
       | AField n u j d :: fs' => join "" n +:+ " " +:+ show_type u +:+ " " +:+ o_tag (AField n u j d) +:+ nl +:+ loop fs'
       end) fs +:+ "}"
  | EOther d => d
  | EMap k v => "map[" +:+ show_type k +:+ "]" +:+ show_type v
  end.
(** avro_template.go 223-233 *)
Definition show_def (d : fndef) : string :=
  let id := pkg +:+ "." +:+ fn_rec d in
  nl +:+ fn_name d +:+ " := func(in []" +:+ show_type (fn_elem d) +:+ ") []*" +:+ id +:+ " {" +:+ nl +:+
  tab +:+ "converted := make([]*" +:+ id +:+ ", len(in))" +:+ nl +:+ tab +:+ "for i, z := range in {" +:+ nl +:+
  tab +:+ tab +:+ "converted[i] = &" +:+ id +:+ " {" +:+ nl +:+ tab +:+ tab +:+ tab +:+ show_fields (fn_fields d) +:+ nl +:+
  tab +:+ tab +:+ "}" +:+ nl +:+ tab +:+ "}" +:+ nl +:+ tab +:+ "return converted" +:+ nl +:+ "}" +:+ nl.
End show.

(** C56 - C58: what conversions, operations and the entries of a transform yield. Vocabulary: SpecConv.v, SpecOps.v.
    Each theorem holds for every choice [W] of the library oracles and every representation of values ([view]). *)
From stdpp Require Import strings list gmap.
From Coq Require Import Ascii Floats.SpecFloat ZArith.
From Verif Require Import GoStr Val Conv Instr Heap Build SpecOps SpecConv ConvT World.

(** C56. A value converted to a scalar type is the value the table [converts] lists, an error if it lists none. *)
Theorem C56_scalar W V (view : V -> vw V) jt raw r : jt ∈ scalar_types -> shallow view (o_stack W) raw -> converts W view jt raw r ->
  exists g e, convert W view jt raw = Some (g, e) /\ match r with Some s => e = false /\ gview view g = WS s | None => e = true end.
Proof. exact (convert_scalar_thm W view jt raw r). Qed.
Print Assumptions C56_scalar.
(** The table lists something for every value, once. *)
Theorem C56_total W V (view : V -> vw V) jt raw : jt ∈ scalar_types -> shallow view (o_stack W) raw ->
  exists r, converts W view jt raw r /\ forall r', converts W view jt raw r' -> r' = r.
Proof. exact (converts_one W view jt raw). Qed.
Print Assumptions C56_total.
(** Arrays and objects are taken as they are, without array brackets around a single item. *)
Theorem C56_taken W V (view : V -> vw V) jt raw h : jt ∉ scalar_types -> shallow view (o_stack W) raw -> taken view jt raw h ->
  convert W view jt raw = Some (default (GS SNil) h, false).
Proof. exact (convert_taken_thm W view jt raw h). Qed.
Print Assumptions C56_taken.
Example C56_case : convert W0 tview "number" (GV (TArr [TS (SStr "-12"); TS SNil])) = Some (GS (SInt (-12)), false) /\
  converts W0 tview "number" (GV (TArr [TS (SStr "-12"); TS SNil])) (Some (SInt (-12))) /\ shallow tview (o_stack W0) (GV (TArr [TS (SStr "-12"); TS SNil])) /\
  convert W0 tview "boolean" (GV (TS (SStr "yes"))) = Some (GS (SBool false), true) /\
  converts W0 tview "boolean" (GV (TS (SStr "yes"))) None.
Proof.
  split; [vm_compute; reflexivity|]. split.
  { eapply conv_item; [reflexivity|reflexivity|]. apply num_decimal; [set_solver| |split; vm_compute; [discriminate|reflexivity]].
    change (-12)%Z with (- number "12")%Z. apply (decimal_minus "12"); [|done]. repeat constructor; vm_compute; lia. }
  split. { change (o_stack W0) with 100. cbn [shallow]. intros x l y l' E. injection E as <- <-. discriminate. }
  split; [vm_compute; reflexivity|]. eapply conv_scalar; [reflexivity|done|]. apply bool_bad; [done|unfold true_words; set_solver|unfold false_words; set_solver].
Qed.
Example C56_taken_case : taken tview "array" (GV (TArr [TArr [TS (SStr "a"); TS (SStr "b")]])) (Some (GV (TS (SStr "a")))) /\
  convert W0 tview "array" (GV (TArr [TArr [TS (SStr "a"); TS (SStr "b")]])) = Some (GV (TS (SStr "a")), false).
Proof.
  split; [|vm_compute; reflexivity]. eapply taken_nested; [reflexivity|by left|reflexivity|]. by apply taken_plain.
Qed.

(** C57. changeCase: the string with every ASCII letter in lower or upper case. *)
Theorem C57_change_case W V (view : V -> vw V) args raw s : holds_string view raw s -> ascii_string s ->
  (args !! "to" = Some "lower" -> exists t, op_run W view (OpChangeCase args) raw = Ok (GS (SStr t)) /\ each_char in_lower s t) /\
  (args !! "to" = Some "upper" -> exists t, op_run W view (OpChangeCase args) raw = Ok (GS (SStr t)) /\ each_char in_upper s t).
Proof. exact (change_case_thm W view args raw s). Qed.
Print Assumptions C57_change_case.
(** toCamelCase: the string is cut at the delimiters; the first piece in lower case, the words of the others capitalised, and no delimiters. *)
Theorem C57_camel_case W V (view : V -> vw V) args delim raw s : args !! "delimiter" = Some delim -> holds_string view raw s -> ascii_string s ->
  exists pieces t rest rest', op_run W view (OpToCamelCase args) raw = Ok (GS (SStr (join "" (t :: rest')))) /\
    (s <> "" \/ delim <> "" -> exists p, pieces = p :: rest /\ each_char in_lower p t) /\
    join delim pieces = s /\ (delim <> "" -> Forall (fun p => ~ exists a b, p = a +:+ delim +:+ b) pieces) /\
    Forall2 (titled false) rest rest'.
Proof. exact (camel_thm W view args delim raw s). Qed.
Print Assumptions C57_camel_case.
(** removeHTML: sanitized, without white space at the ends, two blanks made one, entities decoded. *)
Theorem C57_remove_html W V (view : V -> vw V) raw s : holds_string view raw s -> exists t u,
  op_run W view OpRemoveHTML raw = Ok (GS (SStr (o_unescape W u))) /\ trimmed (o_sanitize W s) t /\ halved t u.
Proof. exact (remove_html_thm W view raw s). Qed.
Print Assumptions C57_remove_html.
(** inverse *)
Theorem C57_inverse W V (view : V -> vw V) raw :
  (forall b, gview view raw = WS (SBool b) -> op_run W view OpInverse raw = Ok (GS (SBool (negb b)))) /\
  ((forall b, gview view raw <> WS (SBool b)) -> op_run W view OpInverse raw = Err).
Proof. exact (inverse_thm W view raw). Qed.
Print Assumptions C57_inverse.
(** valueExists: strings are there unless empty, so are XML nodes. *)
Theorem C57_value_exists W V (view : V -> vw V) raw :
  (forall s, holds_string view raw s -> exists b, op_run W view OpValueExists raw = Ok (GS (SBool b)) /\ (b = true <-> s <> "")) /\
  (forall l, gview view raw = WNodes l -> exists b, op_run W view OpValueExists raw = Ok (GS (SBool b)) /\ (b = true <-> l <> [])) /\
  ((forall s, ~ holds_string view raw s) -> (forall l, gview view raw <> WNodes l) -> op_run W view OpValueExists raw = Err).
Proof. exact (value_exists_thm W view raw). Qed.
Print Assumptions C57_value_exists.
(** replace: what the regular expression library makes of it, with the arguments in their places *)
Theorem C57_replace W V (view : V -> vw V) args regex new raw s : args !! "regex" = Some regex -> args !! "new" = Some new -> holds_string view raw s ->
  op_run W view (OpReplace args) raw = Ok (GS (SStr (o_re_replace W regex s new))).
Proof. exact (replace_thm W view args regex new raw s). Qed.
Print Assumptions C57_replace.
(** timeParse reads with `format` and writes with `layout`. *)
Theorem C57_time_parse W V (view : V -> vw V) args from to raw s : args !! "format" = Some from -> args !! "layout" = Some to -> holds_string view raw s ->
  (forall t, o_parse_time W from s = Some t -> op_run W view (OpTimeParse args) raw = Ok (GS (SStr (o_fmt_time W to t)))) /\
  (o_parse_time W from s = None -> op_run W view (OpTimeParse args) raw = Err).
Proof. exact (time_parse_thm W view args from to raw s). Qed.
Print Assumptions C57_time_parse.
Theorem C57_current_time W V (view : V -> vw V) args layout raw : args !! "format" = Some layout ->
  op_run W view (OpCurrentTime args) raw = Ok (GS (SStr (o_fmt_time W (if decide (layout = "RFC3339") then iso_layout else layout) (o_now W)))).
Proof. exact (current_time_thm W view args layout raw). Qed.
Print Assumptions C57_current_time.
(** The operations on strings fail on everything else. *)
Theorem C57_strings_only W V (view : V -> vw V) args raw : (forall s, ~ holds_string view raw s) ->
  op_run W view (OpChangeCase args) raw = Err /\ op_run W view (OpReplace args) raw = Err /\ op_run W view (OpTimeParse args) raw = Err /\
  op_run W view (OpToCamelCase args) raw = Err /\ op_run W view OpRemoveHTML raw = Err.
Proof. exact (string_only_thm W view args raw). Qed.
Print Assumptions C57_strings_only.
(** convertToFloat64, convertToInt64, convertToBool *)
Theorem C57_to_float W V (view : V -> vw V) raw :
  (forall s f, holds_string view raw s -> o_parse_float W s = Some f -> op_run W view OpConvertToFloat64 raw = Ok (GS (SF f))) /\
  (forall f, number_value view raw f -> op_run W view OpConvertToFloat64 raw = Ok (GS (SF f))) /\
  ((forall s, holds_string view raw s -> o_parse_float W s = None) -> (forall f, ~ number_value view raw f) -> op_run W view OpConvertToFloat64 raw = Err).
Proof. exact (to_float_thm W view raw). Qed.
Print Assumptions C57_to_float.
Theorem C57_to_int W V (view : V -> vw V) raw :
  (forall s z, holds_string view raw s -> decimal s z -> fits z -> op_run W view OpConvertToInt64 raw = Ok (GS (SI64 z))) /\
  (forall s, holds_string view raw s -> (forall z, decimal s z -> ~ fits z) -> op_run W view OpConvertToInt64 raw = Err) /\
  (forall f z, gview view raw = WS (SF f) -> integer_part f z -> fits z -> op_run W view OpConvertToInt64 raw = Ok (GS (SI64 z))) /\
  (forall z, gview view raw = WS (SInt z) \/ gview view raw = WS (SI64 z) -> op_run W view OpConvertToInt64 raw = Ok (GS (SI64 z))) /\
  ((forall s, ~ holds_string view raw s) -> (forall f, ~ number_value view raw f) -> (forall z, gview view raw <> WS (SI64 z)) ->
     op_run W view OpConvertToInt64 raw = Err).
Proof. exact (to_int_thm W view raw). Qed.
Print Assumptions C57_to_int.
Theorem C57_to_bool W V (view : V -> vw V) raw :
  (forall b, gview view raw = WS (SBool b) -> op_run W view OpConvertToBool raw = Ok (GS (SBool b))) /\
  (forall s, holds_string view raw s -> (s ∈ true_words -> op_run W view OpConvertToBool raw = Ok (GS (SBool true))) /\
     (s ∈ false_words -> op_run W view OpConvertToBool raw = Ok (GS (SBool false))) /\
     (s ∉ true_words -> s ∉ false_words -> op_run W view OpConvertToBool raw = Err)) /\
  (forall z, gview view raw = WS (SInt z) \/ gview view raw = WS (SI64 z) -> exists b, op_run W view OpConvertToBool raw = Ok (GS (SBool b)) /\ (b = true <-> z <> 0%Z)) /\
  (forall f, gview view raw = WS (SF f) -> exists b, op_run W view OpConvertToBool raw = Ok (GS (SBool b)) /\ (b = true <-> forall s, f <> S754_zero s)) /\
  (forall l, gview view raw = WArr l -> exists b, op_run W view OpConvertToBool raw = Ok (GS (SBool b)) /\ (b = true <-> l <> [])) /\
  (null view raw \/ (exists t, gview view raw = WS (STime t)) \/ (exists m, gview view raw = WMap m) \/ (exists n, gview view raw = WNode n) \/
     (exists l, gview view raw = WNodes l) -> op_run W view OpConvertToBool raw = Err).
Proof. exact (to_bool_thm W view raw). Qed.
Print Assumptions C57_to_bool.
Example C57_case : op_run W0 tview (OpToCamelCase {["delimiter" := "-"]}) (GV (TS (SStr "Foo-bar baz-x"))) = Ok (GS (SStr "fooBar BazX")) /\
  op_run W0 tview (OpChangeCase {["to" := "upper"]}) (GV (TS (SStr "aB1"))) = Ok (GS (SStr "AB1")) /\
  op_run W0 tview OpRemoveHTML (GV (TS (SStr "  a   b "))) = Ok (GS (SStr "a  b")) /\
  op_run W0 tview OpConvertToInt64 (GV (TS (SStr "+7"))) = Ok (GS (SI64 7)) /\
  op_run W0 tview OpConvertToBool (GV (TArr [])) = Ok (GS (SBool false)) /\
  op_run W0 tview OpInverse (GV (TS (SBool true))) = Ok (GS (SBool false)).
Proof. split_and!; vm_compute; reflexivity. Qed.
Example C57_ascii : ascii_string "Foo-bar baz-x" /\ titled false "bar baz" "Bar Baz" /\ trimmed "  a   b " "a   b" /\ halved "a   b" "a  b".
Proof.
  split_and!.
  - repeat (constructor; [split; [done|vm_compute; lia]|]). constructor.
  - pose proof (title_go_rel "bar baz" false) as H. exact H.
  - exists "  ", " ". split; [done|]. split; [repeat (constructor; [split; [done|by right]|]); constructor|].
    split; [repeat (constructor; [split; [done|by right]|]); constructor|]. split.
    + intros a t' [= <- <-] H. destruct H as [H|H]; vm_compute in H; lia.
    + intros a t' H E. do 5 (destruct t' as [|? t']; [try discriminate H; injection H as <-; destruct E as [E|E]; vm_compute in E; lia|injection H as _ H]). destruct t'; discriminate H.
  - apply halved_other; [by left|]. apply halved_two. apply halved_other; [by right|]. apply halved_other; [by left|]. constructor.
Qed.

(** C58. An entry of a transform on JSON: nothing at its path or null gives null; else the value is converted to the field's type,
    or taken as it is if that fails; null gives null; else the operations are applied in the order they are written. *)
Theorem C58_json W V (view : V -> vw V) ins input ft m (out := instr_run W view FJson ins input ft m)
    (sel := jget W view (apply_mod m (i_jpath ins)) input) :
  (sel = None -> out = Ok (GS SNil)) /\
  (forall raw, sel = Some raw -> null view raw -> out = Ok (GS SNil)) /\
  (forall raw, sel = Some raw -> ~ null view raw -> shallow view (o_stack W) raw ->
    (ft ∈ scalar_types ->
      (converts W view ft raw (Some SNil) -> out = Ok (GS SNil)) /\
      (forall s, converts W view ft raw (Some s) -> s <> SNil ->
         exists g, gview view g = WS s /\ applied (op_run W view) (i_ops ins) g out) /\
      (converts W view ft raw None -> applied (op_run W view) (i_ops ins) raw out)) /\
    (ft ∉ scalar_types -> forall h, taken view ft raw h ->
      (default (GS SNil) h = GS SNil \/ null view (default (GS SNil) h) -> out = Ok (GS SNil)) /\
      (forall g, h = Some g -> ~ null view g -> applied (op_run W view) (i_ops ins) g out))).
Proof. exact (json_entry_thm W view ins input ft m). Qed.
Print Assumptions C58_json.
(** An entry on XML: no node at its path gives null. A single node without child elements stands for its text, converted (a text that
    cannot be converted: false for booleans, else null). Otherwise: the nodes for arrays and objects, their texts with blanks between
    them for strings, and else the text of the first node converted, or the nodes if that fails. Then the operations. *)
Theorem C58_xml W V (view : V -> vw V) ins input ft m node nodes wc nc (out := instr_run W view FXml ins input ft m)
    (path := apply_mod m (i_xpath ins)) :
  view input = WNode node -> o_xfind W node path = Some nodes ->
  o_xfind W node (path +:+ "[*]") = Some wc -> o_xfind W node (path +:+ "[not(*)]") = Some nc -> 0 < o_stack W ->
  (nodes = [] -> out = Ok (GS SNil)) /\
  (forall n ns, nodes = n :: ns ->
    (wc = [] -> length nc = 1 -> ft ∈ scalar_types ->
      (forall s, converted W ft (SStr (o_text W n)) (Some s) -> s <> SNil -> applied (op_run W view) (i_ops ins) (GS s) out) /\
      (converted W ft (SStr (o_text W n)) (Some SNil) -> out = Ok (GS SNil)) /\
      (converted W ft (SStr (o_text W n)) None ->
        (ft = "boolean" -> applied (op_run W view) (i_ops ins) (GS (SBool false)) out) /\ (ft <> "boolean" -> out = Ok (GS SNil)))) /\
    (wc = [] -> length nc = 1 -> ft = "array" \/ ft = "object" -> applied (op_run W view) (i_ops ins) (GS (SStr (o_text W n))) out) /\
    (wc <> [] \/ length nc <> 1 ->
      (ft = "array" \/ ft = "object" -> applied (op_run W view) (i_ops ins) (GN (n :: ns)) out) /\
      (ft = "string" -> applied (op_run W view) (i_ops ins) (GS (SStr (join " " (map (o_text W) (n :: ns))))) out) /\
      (ft ∈ scalar_types -> ft <> "string" ->
        (forall s, converted W ft (SStr (o_text W n)) (Some s) -> s <> SNil -> applied (op_run W view) (i_ops ins) (GS s) out) /\
        (converted W ft (SStr (o_text W n)) (Some SNil) -> out = Ok (GS SNil)) /\
        (converted W ft (SStr (o_text W n)) None -> applied (op_run W view) (i_ops ins) (GN (n :: ns)) out)))).
Proof. exact (xml_entry_thm W view ins input ft m node nodes wc nc). Qed.
Print Assumptions C58_xml.
(** Operations are a chain: [applied] has one outcome. *)
Theorem C58_one_outcome V (run : op -> gval V -> res (gval V)) os g r1 r2 : applied run os g r1 -> applied run os g r2 -> r1 = r2.
Proof. exact (applied_fun run os g r1 r2). Qed.
Print Assumptions C58_one_outcome.
Example C58_case : instr_run W0 tview FJson (Instr "$.a" "" [OpChangeCase {["to" := "upper"]}; OpToCamelCase {["delimiter" := "-"]}])
    (TObj [("a", TArr [TS (SStr "x-y")])]) "string" [] = Ok (GS (SStr "xY")) /\
  instr_run W0 tview FJson (Instr "$.a" "" [OpChangeCase {["to" := "upper"]}]) (TObj [("a", TS (SStr "x"))]) "number" [] = Ok (GS (SStr "X")) /\
  instr_run W0 tview FXml (Instr "" "//tag" []) (TNode 0) "string" [] = Ok (GS (SStr "one two")) /\
  instr_run W0 tview FXml (Instr "" "//name" [OpInverse]) (TNode 0) "boolean" [] = Ok (GS (SBool true)).
Proof. split_and!; vm_compute; reflexivity. Qed.

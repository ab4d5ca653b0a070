{
 "convert_datetime: the zero time is kept": {
  "theorems": [
   "C56_scalar"
  ],
  "note": "no theorem said what date-time conversion yields; C56 was added with an independent specification of conversions"
 },
 "op_inverse: inverse does nothing": {
  "theorems": [
   "C57_inverse"
  ],
  "note": "no theorem said what inverse computes; C57 was added with specifications of the remaining operations"
 },
 "merge_old: old members win": {
  "theorems": [
   "C15_save_partial"
  ],
  "note": "the theorem on saving at an index excluded a map saved over a map; C15_save_partial says what the merged object is"
 },
 "d_inst: required read from another member": {
  "theorems": [
   "C73_keywords"
  ],
  "note": "the specifications of generated types take the decoded Instance as given, so no theorem said which keyword a field is read from; C73 was added"
 },
 "base_json: array default dropped if the input holds null": {
  "theorems": [
   "C67_document"
  ],
  "note": "survived before C67_document; with it the edit is caught"
 },
 "dec_meth: default method is last": {
  "theorems": [
   "C12_section",
   "C12_section_refused"
  ],
  "note": "the theorem on accepted transforms was restricted to sections written in the documented form; C12_section and C12_section_refused say what any JSON is decoded to"
 },
 "dec_meth: unknown methods accepted": {
  "theorems": [
   "C12_section",
   "C12_section_refused"
  ],
  "note": "the theorem on accepted transforms was restricted to sections written in the documented form; C12_section and C12_section_refused say what any JSON is decoded to"
 },
 "dec_from: paths tried in reverse": {
  "theorems": [
   "C12_section",
   "C12_section_refused"
  ],
  "note": "the theorem on accepted transforms was restricted to sections written in the documented form; C12_section and C12_section_refused say what any JSON is decoded to"
 },
 "dec_tis: delimiter read from another member": {
  "theorems": [
   "C12_section",
   "C12_section_refused"
  ],
  "note": "the theorem on accepted transforms was restricted to sections written in the documented form; C12_section and C12_section_refused say what any JSON is decoded to"
 },
 "dec_op: operations without args refused": {
  "theorems": [
   "C12_section",
   "C12_section_refused"
  ],
  "note": "the theorem on accepted transforms was restricted to sections written in the documented form; C12_section and C12_section_refused say what any JSON is decoded to"
 },
 "GoStr.utf8_width: two-byte characters take three": {
  "theorems": [
   "C09_split_characters"
  ],
  "note": "the theorem on split said that joining the pieces gives the text back, not that the pieces for an empty separator are characters; C09_split_characters was added"
 },
 "scal_ok: year of a time judged in UTC": {
  "theorems": [
   "C86_exactly",
   "C86_exactly_arrays"
  ],
  "note": "no theorem said which returned documents can be written as JSON; C86 was added"
 },
 "Conv.parse_steps: a dot at the end is ignored": {
  "theorems": [],
  "note": "how the path library reads a path that ends in a dot is part of the trusted base; no property speaks about malformed paths"
 },
 "arr_json: items of a root array read the input instead of the array": {
  "theorems": [],
  "note": "equivalent: a transformer for a root array starts at the whole input, so both readings are the same through the API"
 },
 "Conv.op_change_case: anything but lower is upper": {
  "theorems": [],
  "note": "equivalent: a transformer with another argument is refused when it is made, so only lower and upper occur"
 },
 "q_leaf: empty objects not Any": {
  "theorems": [],
  "note": "changes nested mode of GraphQL only, which no property covers"
 },
 "Conv.parse_steps: empty and padded indexes accepted": {
  "theorems": [],
  "note": "this attempt was run against the theorems on operations and conversions only; the second attempt, against the theorems on whole documents, made those fail"
 },
 "Conv.select: negative indexes mean the first": {
  "theorems": [],
  "note": "this attempt was run against the theorems on operations and conversions only; the second attempt, against the theorems on whole documents, made those fail"
 },
 "Conv.select: indexes from 1": {
  "theorems": [],
  "note": "this attempt was run against the theorems on operations and conversions only; the second attempt, against the theorems on whole documents, made those fail"
 },
 "Conv.select: missing keys give the map": {
  "theorems": [],
  "note": "this attempt was run against the theorems on operations and conversions only; the second attempt, against the theorems on whole documents, made those fail"
 },
 "GoStr.replace1: drops the length of the new text": {
  "theorems": [],
  "note": "this attempt was run against the theorems on operations and conversions only; the second attempt, against the theorems on whole documents, made those fail"
 },
 "obj_xml: defaults of XML objects dropped": {
  "theorems": [
   "C80_xml",
   "C80_member"
  ],
  "note": "no theorem covered schemas whose objects have defaults; C80 was added"
 },
 "obj_json: object transforms with other values ignored": {
  "theorems": [
   "C82_document_partial"
  ],
  "note": "no theorem covered whole documents of schemas with object transforms; C82 was added"
 },
 "flag_string: key printed twice": {
  "theorems": [
   "C87_shown",
   "C87_determines_partial"
  ],
  "note": "nothing was proved about the text shown for flags; C87 added"
 },
 "field_lists: structs in arrays not found": {
  "theorems": [
   "C47_array_lost"
  ],
  "note": "equivalent for the types that generation produces; what happens to types declared as arrays was not stated, C47_array_lost added"
 },
 "unescape: an escaped quote reads as a backslash": {
  "theorems": [
   "C69_escaped"
  ],
  "note": "C69 said nothing of what is read of descriptions with escapes; C69_escaped does"
 },
 "load_schema: a missing file crashes": {
  "theorems": [],
  "note": "no theorem failed among those rebuilt for this attempt (PropsLoad); the other files that depend on this definition were not rebuilt, so what they would say is not known"
 },
 "schema_types: allOf and oneOf swapped": {
  "theorems": [],
  "note": "no theorem failed among those rebuilt for this attempt (PropsLoad); the other files that depend on this definition were not rebuilt, so what they would say is not known"
 },
 "insert_sorted: names lost while sorting": {
  "theorems": [],
  "note": "no theorem failed among those rebuilt for this attempt (PropsLoad); the other files that depend on this definition were not rebuilt, so what they would say is not known"
 },
 "show: wrong constant of the union": {
  "theorems": [],
  "note": "no theorem failed among those rebuilt for this attempt (PropsAvro, PropsMapper), which are about the expressions and not about how they are printed; FixMapper, which compares the printed text with recorded functions, was not rebuilt, so what it would say is not known"
 },
 "show_fn: wrong function for optional times": {
  "theorems": [],
  "note": "no theorem failed among those rebuilt for this attempt (PropsAvro, PropsMapper), which are about the expressions and not about how they are printed; FixMapper, which compares the printed text with recorded functions, was not rebuilt, so what it would say is not known"
 }
}
# Formal model of GannettDigital/jstransform in Rocq (Coq 8.16.1)

## How the model is organised

Go code is modelled as total Gallina functions (`rocq/theories/*.v`, logical name `Verif`).
Every definition carries a comment `(* /repo/... lines *)`. Conventions:

* Go `string` = Coq `string` read as bytes. Go `int`/`int64` = `Z` with explicit wrap-around where the
  code can overflow. `float64` = `spec_float` of `Coq.Floats.SpecFloat` (binary64, computable, axiom free).
* A Go call returning `(v, error)` is a `res`: `Ok v | Err | Panic`. Error texts are dropped; whether an
  error occurs, and the state left behind, are kept. Run-time panics are a separate outcome.
* Go maps are `gmap string`; `range` over a map takes an explicit iteration order (an oracle that
  returns a permutation), so "for every run" includes "for every iteration order".
* Sharing is observable in the transformer (maps and slices of the input and of schema defaults are
  mutated), so it is modelled with an explicit heap of maps and backing arrays.
* Goroutines are a step relation over explicit states; theorems are about all reachable states.
* Libraries (jsonpath filters, regexp, strconv float parsing/formatting, time parsing, bluemonday,
  htmlquery/xmlquery, gojsonschema, encoding/json, go/format, file system) are Section variables
  (oracles), universally quantified in the theorems after the section is closed. They are not axioms.
* Recursion without a structural measure (reference resolution, whose Go original can loop forever)
  is an inductive big-step relation and/or a fuelled function with a distinct out-of-fuel answer.

Files named `Spec*.v` contain the small independent specifications, files named `Props*.v` contain
only the property theorems (each closed by `exact`), examples showing the hypotheses are satisfiable
by concrete cases, and `Print Assumptions`.

## Plan per property

The last column names the files with the theorems; `MANIFEST.json` lists the theorems and what is missing.

| id | what is modelled | how it is proved | theorems in |
|----|------------------|------------------|-------------|
| C01 | `transformInstructions.transform`, default method, over abstract outcomes and over the concrete instructions | induction on the `from` list | PropsOps |
| C02 | method `last` including the in-place reversal of `tis.From` | the n-th use equals last/first by parity of n (induction); the stated property is refuted by a witness | PropsOps, PropsTransform |
| C03 | method `concatenate`, `concat` | induction; the spec joins the non-empty pieces | PropsOps |
| C04 | `convert*` over a view of Go values | structural induction on arrays (nested `[]` unwrapping) | PropsOps |
| C05 | `convert*`, `strconv.Itoa/Atoi` modelled concretely | decimal printing/parsing inverse lemma, case analysis | PropsOps |
| C06 | `transformScalarJSON/XML` | case analysis over all outcomes of sub-steps | PropsTransform |
| C07 | same | proved for all types but boolean; refuted for boolean; which scalar values fail (C07_exactly) | PropsTransform, PropsFail |
| C08 | the regexp matcher as backtracking matcher, `Atoi` | matcher = declarative language by induction on the string | PropsOps |
| C09 | `strings.Split`, `strings.Join` | strong induction on the string; the characters of SpecText for the empty separator | PropsOps, PropsSplit |
| C10 | `max.transform` | loop invariant; refuted when no value is positive and the first is not the largest (C10_exactly) | PropsOps, PropsMost |
| C11 | every operation's `transform` with explicit panics | case analysis; refuted for `max` on an empty array | PropsOps |
| C12 | both `UnmarshalJSON`, `init` of each op, `requiredArgs` | case analysis + induction; SpecSection says what the JSON of a section says, and SectionL proves that exactly this is decoded | PropsOps, PropsSection |
| C13 | `extractTransformInstructions`, `replaceJSONPathPrefix` | string lemmas | PropsTransform |
| C14 | `pathReplace`, `pathModifier` closures | induction on the nesting depth | PropsTransform |
| C15 | `saveInTree`, `saveLeaf`, `saveInSlice` over heap | unshared documents as values that own their cells; induction on the path with a frame; refuted for panics and for items that change their kind | PropsSave, PropsTransform |
| C16-C20 | full JSON transformer over the heap | refinement to a pure denotation for transformers in a non-mutating class; refutation witnesses outside it | PropsTransform |
| C21 | `convert` for arrays | exact: holds iff two or more items, or one that is neither null nor an array; what every selected value delivers otherwise | PropsTransform, PropsPick |
| C22 | `Transform`, `TransformNoValidation`, with validator oracle | case analysis | PropsTransform |
| C23 | whole transformer | induction, for the class without array/object transforms (JSON), and for XML with these if all XPaths compile; refuted otherwise | PropsTransform, PropsCalm |
| C24 | `newTransformer`, `walker`, `findParent`, `addChild` | induction over the walk; equals a structural compiler | PropsTransform |
| C25,C26 | XML transformer with node oracles | structural induction | PropsTransform |
| C27 | `FieldType`, `Instance.UnmarshalJSON` type normalisation | permutation lemmas | PropsSchema |
| C28,C29 | `Walk`, `WalkRaw` | induction on schema trees; for schemas with one type per instance the exact condition under which they agree (SpecDec: which instances decode) | PropsSchema, PropsAgree |
| C30,C31 | `schemaFromFile`, `mergeProperties` | folds over maps; exactly when unflattened schemas lose properties | PropsLoad, PropsAllOf |
| C32-C34 | `dereference`, `findRefs`, `resolveRef` | fuelled function; termination by a rank on references, refuted for every fuel on cyclic witnesses and for all cycles of files (induction on the fuel, SpecRing) and of local references (an invariant of every replacement, SpecSelf); an inductive relation gives the meaning of references | PropsLoad, PropsRing, PropsSelf |
| C35,C36,C38 | `Cache.Load` as state machine of any number of goroutines | inductive invariants over all reachable states | PropsCache |
| C37 | the cache key | string lemmas; injective unless the type contains the separator, refuted in general, and exactly which keys agree | PropsLoad, PropsExact |
| C39-C42,C44 | struct generator: `newGeneratedGoFile`, `walkFunc`, `addField`, `Sorted`, `goType`, `write` | the walk is folded over the schema; the text equals the text of declarations that an inductive relation gives the schema ; that no field is a slice of slices: invariant of the walk (C42_never) | PropsGen, PropsSlice |
| C43 | the same with `NoNestedStructs` | one struct for each object of the schema, by induction on the schema; refuted when concatenated names coincide | PropsNamed |
| C45 | `AvroTime*` | arithmetic over Z with wrap-around; exact range | PropsAvroRun, PropsExact |
| C46,C47,C54,C59 | `writeAvro*`, `convertToAvroType`, `mapFields` over parsed Go structs | induction over field lists and types; the text equals the JSON text of an Avro schema given by a relation | PropsAvro, PropsNamedArr |
| C48 | `BulkAvroWriter` as state machine with unbounded item stream | inductive invariants, measure for termination | PropsAvroRun |
| C49 | `WriteAvroCF`, `WriteAvroDeletedCF` | case analysis | PropsAvroRun |
| C50,C60-C63 | `buildGraphQLFile` and everything it calls except `SchemaTypes`/loading, which come as parsed parts | the files equal the text of declarations that an inductive relation gives the schema; what the properties say is then read off the declarations; GqlG carries C63 over to schemas made of others (SpecMade) | PropsGql, PropsMade, PropsFace |
| C51 | `graphqlComment` against a reader of GraphQL strings and block strings written from the GraphQL specification | induction on strings and lines | PropsDesc |
| C52 | `mapFlags.Set` | induction on the split list | PropsFlags |
| C53 | `BuildStructsWithArgs`, `buildStructFile`, `SchemaTypes` | induction over the reference lists, with C39 and C43 for the text of each file; success needs every member to be a readable file | PropsFiles, PropsNeed |
| C64,C65 | the `avroFieldMapper`, as Go expressions, with the types and the run of these expressions | mutual induction on the relation between Go and Avro types: the code is typed and gives the converted value | PropsMapper |
| C66 | whole XML transforms: `baseXML` to the printed document, for schemas whose sections have XPaths only (XPaths without `$`, not starting with `@.` or `@[`) | the pure reading of SpecXml.v, by mutual induction on the shape of the schema, through the refinement theorem of Refine.v | PropsXml |
| C67 | `arrayTransformJSON` and `baseValueJSON` with `saveInTree` into the input, in whole documents: arrays with transforms and defaults outside other arrays | an invariant that separates the maps of the input on the way to a stored place from the part of the heap that is never written (ArrH, ArrW), a pure reading with an updated document (ArrD, ArrE), then induction on the shape of the schema (ArrP, ArrQ) | PropsArr |
| C68 | go/scanner, go/parser and ast.FilterFile for the Go that struct files use, on the text of C39/C43 | the text scans to the tokens of the declarations (GoSrcL, GoSrcP), which parse to them (GoSrcQ), by induction on types; refutations by computation | PropsGo |
| C69 | `reflect.StructTag.Get`, `strconv.Unquote`, `parseStructTag` | GoSrcA: a quotable value is read back; refutations by computation; CutTagL: exactly what is read of descriptions with double quotes; ExactTagL: unquoting never lengthens, so exactly the plain ones are read back | PropsGo, PropsCutTag, PropsExactTag, PropsEscTag |
| C70 | `parseGoStruct`, `filterPackage` over a directory, composed with the model of C46 | declarations are found by name (GoSrcC), the fields read from them stand for the Avro fields (GoSrcB), then C46; refutations by computation | PropsGo |
| C71 | `parseGoStruct`, `filterPackage` for a directory | GoSrcD: filtering keeps the declarations of the name, case analysis on the number of them | PropsGo |
| C72 | encoding/json's reading and writing of structs, maps, slices, pointers and scalars, on the file of C68 | the JSON type of a schema as a relation (JsonL), reading and writing by induction on it (JsonM, JsonN); declarations have that type (JsonP, JsonQ); refutations by computation | PropsJson |
| C73 | Instance.UnmarshalJSON (Inst.v, `d_inst`) | a relation between document and Instance, one clause per keyword (SpecInst), equivalent to the decoder by induction on the document (InstR) | PropsInst |
| C74 | generated GraphQL files (Gql.v) | a reader for the GraphQL type system language, tokens and definitions, written from the GraphQL specification (SpecSdl); the definitions a schema stands for (SpecRead); the text of C60 is read token by token (LexL, SdlL) and the tokens are parsed (ParseL) | PropsSdl |
| C75 | calls of one Transformer by several goroutines (Conc.v: the functions of Heap.v and Api.v as programs of single memory accesses, run in any interleaving) | run without interruption a program is the call (ConcL); a program does not depend on which locations it is given: a logical relation under renaming of locations, for every function (ConcR); invariant over all goroutines: each keeps in step with a run of its own from the beginning (ConcS); the build gives transformers that share only scalars and arrays no call changes (ConcB); schedules of two calls for the refutations (CaseConc) | PropsConc |
| C76 | whole runs: `BuildStructsWithArgs`, `buildAvroFile`, `buildMessagePackFile`, `buildGraphQLFile`, `buildAvro`, `buildAvroHelperFunctions` over three directories (Whole.v, the templates in Template.v) | each step changes only its files (WholeL); what earlier members made is still there when later ones are built; the Avro schema of a struct with embedded structs from C46 and C68 (EmbedL), more fuel gives the same schema (AvroFuel); refutations by computation | PropsWhole |
| C77 | `main` of main.go with the parsing of package flag, over any generator (Main.v) | induction on the command line against a relation that says how options are written (SpecMain.v); every command line is one with options and arguments, one that asks for help, or a bad one; refutations by computation through whole runs of C76 | PropsMain |
| C78 | the writes of a run in their order, and the states between them and in them (Crash.v) | the list of writes is all that a run of C76 does (CrashL); every write is to a file of the schema; without Avro the list does not depend on the directories, so writing it again gives the same texts; refutations by computation | PropsCrash |
| C79 | `Validate` and the key of the cache in jsonschema/validator.go (Valid.v), with the cache of C35 to C38 | a sorted list is determined by its members; the value of a key is built once (CacheP) | PropsValid |
| C80 | the transformers of C16 and C66 with the maps of the defaults in the heap (Heap.v, Build.v) | NewTransformer gives each object a default no other cell refers to (DefB, DefS); the heap without these cells never changes, and a run computes a pure function that returns the defaults as they are afterwards (DefD, DefE); that function is the projection of SpecDef (DefP); invariant over histories (DefT) | PropsDef |
| C81 | loading with the files and URLs it refers to (Load.v) | `broken` is an inductive predicate on paths; a pass replaces objects one by one and keeps every other reference of the document with its text, and no object appears at a place that is not below a reference (DangL); so the reference is looked up and fails; induction over the chain of files |
| C82 | transforms of objects on JSON documents, which write into the document (Heap.v obj_json) | the maps at and above the selected places are kept apart from the rest of the heap; an invariant follows which of them have become parts of the output and which of their members have been written (SelH); a run computes a pure function (SelD, SelE), which is the declared projection (SelP, SelQ); other calls through C75 (SelR) |
| C83 | a run in which any call that creates, writes or closes a file may fail after any part of its text (Fault.v) | each stage is followed with the list of calls that failed: if none did, it does what the list of writes of C78 says; a call whose error is checked ends the run (FaultL); without Avro the files agree up to Go files that could not be closed (FaultP); the pieces of an Avro schema, two of which are dropped (FaultQ); refutations by computation | PropsFault |
| C84 | the whole run of Whole.v with broken as in C33/C79 (SpecDang) | the loader fails for a broken file (DangL), the member whose file it is stops the run, and every stage before it only touches its own files (EndL) |
| C85 | encoding/json's loop over the members of an object for Instance with its case-insensitive choice of the field (Fold.v), the equality of folded names being an oracle | the loop is a fold over the members: a foreign one is the identity, one with a variant of a name is the same step as with the name; for distinct exact names the loop gives the same fields as looking them up (FoldL) |
| C86 | json.Marshal at the end of each transform (Heap.v) against a calendar and a relation of writable values (SpecOut) | what json.Marshal accepts is exactly the relation, by induction on documents and on years (OutL); the results of C16, C66 and C67 say which document is written |
| C87 | `mapFlags.String` and `mapFlags.Set` (Flags.v) | the pairs are listed in the order of the keys; splitting the text at blanks and at "=" gives them back; refuted with blanks, and as a text to be read again; never set again by the text | PropsShown, PropsReadBack |
| C55 | `replaceIndex` | matcher lemmas | PropsTransform |
| C56 | `convert*` | equality with a separate specification of conversions, case analysis | PropsConv |
| C57 | the operations that C08-C10 do not cover | equality with separate specifications | PropsConv |
| C58 | `transformInstruction.jsonTransform/xmlTransform` | induction on the list of operations | PropsConv |

No property of the list had to be left out as inexpressible.

## Trusted base

**Kernel.** Coq 8.16.1's kernel, including `vm_compute` (used for examples and refutation witnesses). `coqchk` is run on the
compiled library.

**Axioms.** `Print Assumptions` is printed below every theorem in the `Props*.v` files and answers "Closed under the global
context" for each of them: no theorem rests on any axiom. Loading std++ and ssreflect brings the following parameters of a module
type of the standard library into the environment. They are listed by `coqchk` and are used by no theorem:
`Coq.ssr.ssrunder.Under_rel.{Under_rel, Over_rel, Under_relE, Under_rel_from_rel, over_rel, over_rel_done, under_rel_done}`.
No axiom, `Variable` or `Hypothesis` outside a section, functor, module type, plugin or switched-off check is ours.

**Translation.** The Gallina definitions in the model files below were written by hand from the Go text. Nothing was extracted or run.

**Oracles.** Libraries are records of functions over which theorems quantify. A theorem therefore holds for every behaviour of the
library that fits its type, plus the hypotheses it states. The types themselves are assumptions: the library is a function of the
given arguments, it returns, and it does not change its arguments.

* `oracles` (Val.v): `strconv.ParseFloat`, `FormatFloat`, `int64(f)` out of range, `time.Parse`, `Time.Format`, `time.Now` (one
  reading per run), `strings.ToLower/ToUpper/Title` on non-ASCII text, `regexp` compile and replace, bluemonday, `html.UnescapeString`,
  jsonpath for paths that are not plain member/index paths, xmlquery `Find` and `InnerText`, the stack depth, the growth of slices.
* `files` (Load.v): reading and parsing files and URLs, `NewValidator` succeeding, joining relative paths.
* `env` (Api.v): parsing of JSON and XML input, the validator's answer.
* `sources` (Avro.v): the parsed Go structs of packages (`go/parser`, struct tags).
* `o_unquote` (GoSrc.v): `strconv.Unquote` of tag values with numeric escapes.
* `o_json_num`, `o_fold` (GoJson.v): how encoding/json writes a number; its folded form of names that are not ASCII.
* `quote`, `trim` (Gql.v): `strconv.Quote`, `strings.TrimSpace`. `o_abs`, `o_fmt` (Files.v): `filepath.Abs`, `go/format.Source`.
* World.v gives one concrete value of these, `W0`, for examples and witnesses.

**What is modelled**

| model file | Go code |
|------------|---------|
| GoStr | `strings` (Split, Join, Contains, HasPrefix, ReplaceAll, Title/case on ASCII), `strconv.Itoa/Atoi`, UTF-8 widths, `%q` where used |
| Val, Conv | transform/utils.go (`concat`, `convert*`, plain paths), transform/operations.go (all operations, `init`, `transform`) |
| Instr | transform/transform.go: `transformInstruction(s)` evaluation for JSON and XML, `UnmarshalJSON`, methods |
| Heap | transform/instance.go and transformer.go evaluation: object/array/scalar transformers for JSON and XML, `saveInTree`, `saveLeaf`, `saveInSlice`, path replacement, over a heap of maps and slices |
| Schema, Inst | jsonschema/walk.go, `FieldType`, `Instance` decoding and encoding |
| Build | `newTransformer`, `walker`, `findParent`, `addChild`, `newObject/Array/ScalarTransformer`, `extractTransformInstructions` |
| Api | `NewTransformer`, `NewXMLTransformer`, `Transform`, `TransformNoValidation`, `Validate` |
| Index | `replaceIndex` |
| Load | jsonschema/schema.go (`schemaFromFile`, `mergeProperties`, `SchemaTypes`), jsonschema/reference.go |
| Cache | jsonschema/cache.go with `singleflight.Group.Do` by its critical sections |
| Gen | generate/struct.go, `exportedName`, `splitJSONPath` |
| Files | generate/generate.go `BuildStructsWithArgs`, `buildStructFile` |
| Gql | generate/graphql.go |
| Avro | generate/avro.go (schema text), `mapFields` of generate/avro_helpers.go |
| Mapper | `avroFieldMapper` and `printFields` of generate/avro_helpers.go and the templates for slices and unions: the expressions and functions it writes, and their text |
| GoSrc | go/scanner, go/parser and `ast.FilterFile` for Go files that only declare types; `reflect.StructTag`; `parseGoStruct`, `filterPackage`, `parseStructTag`, `buildAvroSchemaFile` |
| GoJson | encoding/json (standard library, Go 1.25): the fields of a struct by their tags, `Unmarshal` into and `Marshal` of the types that are generated. Scanning of the text, escapes and invalid UTF-8, embedded structs and the tag option "string" are not modelled |
| MapRun | how Go runs these expressions: selectors through pointers and embedded structs, calls, composite literals, nil pointers |
| AvroRun | `AvroTime*` of generate/avro_helpers.go, and the code that generate/avro_template.go writes, as it runs |
| Whole, Template | generate/generate.go `BuildStructsWithArgs`, `buildAvroFile`, `buildMessagePackFile`, generate/graphql.go `buildGraphQLFile`, generate/avro.go `buildAvro`, generate/avro_helpers.go `buildAvroHelperFunctions`, `writeCodeTemplate`, with the directories they write to; the text of generate/avro_template.go |
| Flags | `mapFlags` of main.go |
| Main | `main` of main.go; `FlagSet.Parse` and `parseOne` of package flag, `strconv.ParseBool`; `BuildArgs`, `BuildStructs`, `BuildStructsRename` and the directories of `BuildStructsWithArgs` |
| Crash | the same functions as Whole, giving the list of their writes; a file that is being written has some first part of its text; gogen-avro writes its files one after the other |
| Fault | the same functions as Whole with the calls that write: os.Create, Write, Close of Go files and of Avro schemas one by one, an Avro schema in the pieces in which avro.go 262-375 writes it; creating and writing the other files count as one call each; after a failed call some first part of the text is in the file |
| Fold | jsonschema/schema.go 19-53 and the member loop of encoding/json's decoder for structs (exact name first, then equal folded names; null; maps merged; later members over earlier ones). C85_exact is why the other models may look members up by their exact names; FoldT does the same for transform sections |
| FoldT | transform/transform.go 31-103, 216-254 decoded with names matched regardless of case. C85_section_exact is why Build.v may compare names. Simplification: of two lists for one field, which needs two names that differ in case, the second replaces the first |
| Valid | jsonschema/validator.go: `loadSchema` (the key), `Validate` |

**What is not modelled**

* the texts that the command prints; gofmt; that creating, writing and closing files fails (but see Fault.v for C83); that reading files fails half-way.
* Indentation of the Avro file; gogen-avro and msgp, which are the oracles `o_gogen`, `o_declared` and `o_msgp` of Whole.v; text/template, except for
  templates whose only actions are `{{ .key }}`. In C46, C47, C54 and C59 `parseGoStruct`, `filterPackage` and `parseStructTag` are the oracle `sources`;
  GoSrc.v models them for Go files that only declare types (C68 to C70), where numeric escapes in tags (`strconv.Unquote`) are the oracle `o_unquote`;
  in Whole.v the oracle `o_types` leaves out what else a Go file has.
* jsonschema/validator.go on Windows; gojsonschema behind it decides validity (oracle).
* The libraries jsonparser, encoding/json, jsonpath, xmlquery, bluemonday, gojsonschema, beyond the functions listed above. JSON texts are
  modelled as parsed trees, except where Go code compares or writes text.
* Error texts, logging, memory use; Go's memory model: accesses of goroutines are atomic steps that all see in one order (cache and Conc.v).

**Simplifications** are stated at the definitions; the ones that matter for the claims: Go matches the member names of `Instance` and of
transform entries without regard to case, the model exactly (Inst, Build; the same for exact names by C85_exact and C85_section_exact); documents have distinct member names (Heap, Load); strings
beside a reference are re-escaped only where reference.go does it (Load); invalid UTF-8 is treated bytewise (GoStr); a nil slice is
an empty slice, fields of anonymous structs have tags, and no field is called generate.AvroTime (Mapper, MapRun). FixMapper.v compares the
text of the model's mapper with the functions recorded in generate/avro_test_data for six structs; tools/fixmapper.py writes it.

## Testing the theorems with wrong programs

`tools/mutate.py` applies one edit to a model file in a scratch copy, rebuilds what depends on it, and reports the lemmas and
theorems that no longer compile. `seeded/LOG.jsonl` has one line for each attempt. Edits that no theorem noticed, and the theorems that were
tightened or added because of them, are in the field `tightened`.

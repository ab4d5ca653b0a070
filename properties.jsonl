{"id": "C01", "title": "`first` method returns the first value found", "statement": "For a transform with method `first` (or no method), the value produced is the value of the earliest `from` entry that yields a non-null value; an error of an entry before it is returned as the error; entries after it have no influence; if no entry yields a value the result is null.", "quantifier": "every list of `from` entries, every outcome (null, value, error) of each entry", "why_tests_cant": "lists and outcome patterns are unbounded; tests sample two or three entries", "anchors": ["transform/transform.go:transformInstructions.transform"]}
{"id": "C02", "title": "`last` method returns the last value found, on every use", "statement": "For a transform with method `last`, every evaluation (each array item, each Transform call on the same Transformer) yields the value of the latest `from` entry that yields a non-null value.", "quantifier": "every list of `from` entries and every number of earlier evaluations of the same transform", "why_tests_cant": "the answer depends on the history of earlier evaluations, a single-call test never sees it", "anchors": ["transform/transform.go:transformInstructions.transform"]}
{"id": "C03", "title": "`concatenate` joins the non-empty strings with the delimiter", "statement": "With method `concatenate`, null entries are skipped; string entries are joined in order, the delimiter being placed exactly between non-empty pieces; a single non-null entry is returned unchanged whatever its type; two or more non-null entries of which one is not a string are an error.", "quantifier": "every list of entry values and every delimiter", "why_tests_cant": "unbounded lists and strings, all type combinations", "anchors": ["transform/transform.go:transformInstructions.transform", "transform/utils.go:concat"]}
{"id": "C04", "title": "Converted scalars have the schema's type", "statement": "Whenever conversion of an input value to a scalar JSON type (boolean, number, integer, string, date-time) succeeds with a non-null value, the value has a Go type that marshals to that JSON type (number and integer alike: an int or a float64); null and empty arrays convert to null for every type.", "quantifier": "every input value (arbitrarily nested arrays and objects included) and every JSON type", "why_tests_cant": "input values are an infinite recursive type", "anchors": ["transform/utils.go:convert", "transform/utils.go:convertBoolean", "transform/utils.go:convertNumber", "transform/utils.go:convertString", "transform/utils.go:convertDateTime"]}
{"id": "C05", "title": "Scalar conversions round-trip", "statement": "An int converted to a string and back to a number is the same int; a boolean converted to string and back, or to number and back, is the same boolean; converting an already converted boolean, number, integer or string again changes nothing.", "quantifier": "every 64-bit int, every boolean, every value and target type", "why_tests_cant": "2^64 ints and all values", "anchors": ["transform/utils.go:convertString", "transform/utils.go:convertNumber", "transform/utils.go:convertBoolean"]}
{"id": "C06", "title": "Scalar resolution order", "statement": "For JSON input a scalar field takes the value of its transform if that is non-null, else the converted input value at the field's own path, else the schema default; for XML the same without the middle step; a transform error is always returned as an error.", "quantifier": "every transform outcome, every input, every path and default", "why_tests_cant": "all combinations over unbounded inputs", "anchors": ["transform/instance.go:scalarTransformer.transformScalarJSON", "transform/instance.go:scalarTransformer.transformScalarXML"]}
{"id": "C07", "title": "A failed conversion of an untransformed field falls back to the default", "statement": "If a scalar field without transform finds an input value at its path that cannot be converted to its type, the field gets the schema default and Transform does not fail.", "quantifier": "every scalar type and every unconvertible input value", "why_tests_cant": "needs every value/type pair", "anchors": ["transform/instance.go:scalarTransformer.transformScalarJSON", "transform/utils.go:convertBoolean"]}
{"id": "C08", "title": "`duration` computes seconds", "statement": "`duration` accepts exactly the strings made of two or three colon separated (possibly empty) digit groups and returns 3600*h+60*m+s (modulo 2^64, so exactly if it fits an int); every other string, and any group not fitting an int, is an error; nil gives 0.", "quantifier": "every string", "why_tests_cant": "regular expression with lazy and optional parts over all strings", "anchors": ["transform/operations.go:duration.transform", "transform/operations.go:durationRe"]}
{"id": "C09", "title": "`split` loses nothing", "statement": "Joining the pieces returned by `split` with the `on` argument gives back the input; no piece contains a non-empty separator, and the cuts are at the leftmost places; an empty separator gives the characters; the empty string gives the empty array; any other value is an error.", "quantifier": "every input string and every separator", "why_tests_cant": "all pairs of strings, overlapping separators", "anchors": ["transform/operations.go:split.transform"]}
{"id": "C10", "title": "`max` returns the field of the largest item", "statement": "`max` returns the `return` field of an item whose `by` value is greater or equal to that of every other item (the earliest such item).", "quantifier": "every non-empty array of items and every by/return selector of the documented form `@...`", "why_tests_cant": "unbounded arrays and all float orderings, negative numbers included", "anchors": ["transform/operations.go:max.transform"]}
{"id": "C11", "title": "Operations never crash", "statement": "Applying any configured operation to any value returns a value or an error, never a run-time panic.", "quantifier": "every operation, every argument map accepted by init, every input value", "why_tests_cant": "all values for all operations", "anchors": ["transform/operations.go"]}
{"id": "C12", "title": "Only well-formed operations are accepted", "statement": "Parsing a transform accepts exactly the fourteen documented operation names, each with exactly its required argument keys (changeCase only with lower/upper; operations without arguments ignore them), keeps their order and paths, and rejects everything else with an error; only the methods first, last, concatenate or none are accepted.", "quantifier": "every operation list, name and argument map", "why_tests_cant": "unbounded names and maps", "anchors": ["transform/transform.go:transformInstruction.UnmarshalJSON", "transform/transform.go:transformInstructions.UnmarshalJSON", "transform/operations.go:requiredArgs"]}
{"id": "C13", "title": "Relative paths are anchored at the parent", "statement": "A transform path starting with `@.` or `@[` is rewritten to start with the path of the enclosing instance (the item itself for array-of-scalar items, the enclosing object's path for object and array items); any other path is unchanged.", "quantifier": "every instance path and every transform path", "why_tests_cant": "all path strings", "anchors": ["transform/utils.go:extractTransformInstructions", "transform/transform.go:replaceJSONPathPrefix"]}
{"id": "C14", "title": "Nested array items read their own index", "statement": "While the item with indices i1,...,in of n nested arrays is produced, each `[*]` of the item's paths is replaced by the corresponding index, in order, whatever the nesting depth.", "quantifier": "every nesting depth, all property names free of path metacharacters, all indices", "why_tests_cant": "unbounded depth and index combination", "anchors": ["transform/instance.go:pathReplace", "transform/instance.go:arrayTransformer.arrayTransformJSON"]}
{"id": "C15", "title": "Saving into the tree is a proper update", "statement": "Saving a value at a path makes exactly that path read back as the value, creates missing parents, keeps everything at other paths, and never crashes.", "quantifier": "every tree, path and value", "why_tests_cant": "trees, paths and indices are unbounded", "anchors": ["transform/transformer.go:saveInTree", "transform/transformer.go:saveLeaf", "transform/transformer.go:saveInSlice"]}
{"id": "C16", "title": "A schema without transforms is a projection of the input", "statement": "For a schema with no transform sections and no defaults, the output contains, for each schema property, exactly the input's value at the same location converted to the schema type, arrays item by item in order, properties absent in the input absent in the output and nothing else; objects and arrays left empty are omitted. In general, for schemas whose objects and arrays have neither transforms nor defaults, the output is that projection with each scalar resolved as in C06.", "quantifier": "every schema tree of objects, arrays and scalars of any depth, every JSON input, every map iteration order", "why_tests_cant": "recursive schemas and inputs, random map order", "anchors": ["transform/instance.go", "transform/transformer.go:baseJSONTransform"]}
{"id": "C17", "title": "Transform is deterministic", "statement": "The result of Transform does not depend on Go's random map iteration order.", "quantifier": "every schema, input, and iteration order of every map", "why_tests_cant": "iteration orders are factorially many and chosen by the runtime", "anchors": ["transform/instance.go:objectTransformer.objectTransformJSON", "transform/instance.go:arrayTransformer.arrayTransformJSON"]}
{"id": "C18", "title": "Transform does not depend on history", "statement": "Calling Transform on a Transformer gives the same result whatever inputs that Transformer processed before, successfully or not.", "quantifier": "every sequence of earlier calls", "why_tests_cant": "histories are unbounded", "anchors": ["transform/transformer.go:Transformer.Transform", "transform/instance.go:objectTransformer", "transform/transform.go:transformInstructions.transform"]}
{"id": "C19", "title": "Array items are produced independently", "statement": "The output item for an input item is the same whether the array has other items or not, if the item's transforms use relative paths.", "quantifier": "every item schema and every array", "why_tests_cant": "unbounded arrays; depends on sharing between items", "anchors": ["transform/instance.go:arrayTransformer.arrayTransformJSON", "transform/instance.go:objectTransformer.objectTransformJSON"]}
{"id": "C20", "title": "Array output keeps order and drops only missing items", "statement": "The output array consists of the non-null results of the items in input order; if none is left the array is omitted; an item error fails the Transform.", "quantifier": "every array length, every item outcome", "why_tests_cant": "unbounded arrays", "anchors": ["transform/instance.go:arrayTransformer.arrayTransformJSON", "transform/instance.go:arrayTransformer.arrayTransformXML"]}
{"id": "C21", "title": "An array transform delivers the selected array", "statement": "If the path of an array field's transform selects a JSON array, the items iterated over are the items of that array.", "quantifier": "every array value", "why_tests_cant": "all arrays, including nested singletons", "anchors": ["transform/utils.go:convert", "transform/instance.go:arrayTransformer.baseValueJSON"]}
{"id": "C22", "title": "Returned documents are valid", "statement": "Transform returns a document only if the schema's validator accepted exactly that document, and it is the document TransformNoValidation returns; otherwise it returns an error and no document. This holds for JSON and XML transformers.", "quantifier": "every input and every validator behaviour", "why_tests_cant": "all inputs and validator outcomes", "anchors": ["transform/transformer.go:jsonTransform", "transform/transformer.go:xmlTransform", "jsonschema/validator.go:Validate"]}
{"id": "C23", "title": "Transform does not crash", "statement": "Transform returns a result or an error for every input document, it never panics.", "quantifier": "every transformer that could be built, every input", "why_tests_cant": "all inputs", "anchors": ["transform/instance.go", "transform/transformer.go:saveInTree"]}
{"id": "C24", "title": "NewTransformer mirrors the schema", "statement": "The transformer built for a schema has exactly one node per schema instance, at the instance's location, of the instance's kind, independently of the order in which properties are visited; schemas with neither properties nor items, or with both, are rejected.", "quantifier": "every schema tree, every visiting order", "why_tests_cant": "recursive schemas and map orders", "anchors": ["transform/transformer.go:newTransformer", "transform/transformer.go:walker", "transform/transformer.go:findParent"]}
{"id": "C25", "title": "XML objects with a transform are relative or omitted", "statement": "For XML, if an object's transform selects no node the object is its default or omitted and its children are not evaluated; if it selects nodes the children are evaluated relative to the first one.", "quantifier": "every XML document and selector outcome", "why_tests_cant": "all documents", "anchors": ["transform/instance.go:objectTransformer.objectTransformXML"]}
{"id": "C26", "title": "XML multi-valued scalars", "statement": "If an XML path selects several nodes for a string field the texts are joined with single spaces in document order; for other scalar types the first node's text is used if it converts.", "quantifier": "every number of selected nodes and all texts", "why_tests_cant": "unbounded node lists", "anchors": ["transform/transform.go:transformInstruction.xmlTransform"]}
{"id": "C27", "title": "Field type extraction", "statement": "The type of a field is its single non-null type, nullable iff the type list contains null, independent of the order of the list; two or more non-null types, or a missing type, are an error.", "quantifier": "every type list", "why_tests_cant": "unbounded lists", "anchors": ["jsonschema/schema.go:FieldType"]}
{"id": "C28", "title": "Walk visits each instance exactly once", "statement": "Walk and WalkRaw call the callback exactly once for every instance of the schema, with its JSONPath, parents before children, and stop at the first callback error which they return.", "quantifier": "every schema tree, every map order, every callback", "why_tests_cant": "recursive schemas", "anchors": ["jsonschema/walk.go:Walk", "jsonschema/walk.go:WalkRaw"]}
{"id": "C29", "title": "Walk and WalkRaw agree", "statement": "On every schema whose types are well formed both walks visit the same paths with the same instances, and one fails iff the other fails.", "quantifier": "every schema tree", "why_tests_cant": "recursive schemas", "anchors": ["jsonschema/walk.go:walkInstance", "jsonschema/walk.go:walkRaw"]}
{"id": "C30", "title": "Flattening merges with the parent winning", "statement": "A flattened schema has exactly the properties of the root, of all allOf members and of the oneOf members whose file name equals the requested type; on conflict root wins over allOf over oneOf and earlier over later; required lists are concatenated; items is the first one present.", "quantifier": "every root, allOf list, oneOf list and oneOf type", "why_tests_cant": "unbounded lists of property maps", "anchors": ["jsonschema/schema.go:schemaFromFile", "jsonschema/schema.go:mergeProperties"]}
{"id": "C31", "title": "Without flattening, allOf-only schemas still get their properties", "statement": "A non-flattened schema with own properties ignores its allOf members; one without own properties gets the properties of all its allOf members.", "quantifier": "every schema", "why_tests_cant": "lists of members", "anchors": ["jsonschema/schema.go:schemaFromFile"]}
{"id": "C32", "title": "Loaded schemas contain no reference", "statement": "If loading a schema succeeds no `$ref` string member is left anywhere in the dereferenced document that reference search reaches.", "quantifier": "every document and reference graph", "why_tests_cant": "recursive documents", "anchors": ["jsonschema/reference.go:dereference", "jsonschema/reference.go:findRefs"]}
{"id": "C33", "title": "Siblings of a reference are kept", "statement": "Replacing a reference yields the referenced object, with a fromRef entry naming the reference, overridden by the members written beside `$ref`.", "quantifier": "every referencing and referenced object", "why_tests_cant": "all objects", "anchors": ["jsonschema/reference.go:dereference", "jsonschema/reference.go:resolveRef"]}
{"id": "C34", "title": "Loading terminates", "statement": "Dereferencing any document terminates with a document or an error.", "quantifier": "every reference graph, cyclic ones included", "why_tests_cant": "non-termination cannot be observed by a test", "anchors": ["jsonschema/reference.go:dereference", "jsonschema/reference.go:resolveRef"]}
{"id": "C35", "title": "The cache builds at most once", "statement": "For every key, at most one build is running at a time and after a successful build no other build for that key starts; builds of different keys do not block each other.", "quantifier": "every number of goroutines, every interleaving, every builder outcome", "why_tests_cant": "interleavings are unbounded", "anchors": ["jsonschema/cache.go:Cache.Load"]}
{"id": "C36", "title": "The cache is coherent", "statement": "All successful loads of a key return the same value, which is the one its only successful build produced; a failed build is not cached: the failure is reported to the loads waiting for it and a later load builds again.", "quantifier": "every schedule", "why_tests_cant": "interleavings are unbounded", "anchors": ["jsonschema/cache.go:Cache.Load"]}
{"id": "C37", "title": "Different load requests do not share a cache entry", "statement": "Two requests differing in file, oneOf type or flattening use different cache keys.", "quantifier": "all paths and types", "why_tests_cant": "all strings", "anchors": ["jsonschema/schema.go:schemaFromFile"]}
{"id": "C38", "title": "Loading files that reference each other", "statement": "Loading a schema file returns, even if schema files reference each other in a cycle.", "quantifier": "every file graph and schedule", "why_tests_cant": "a hang is not observable by a test", "anchors": ["jsonschema/cache.go:Cache.Load", "jsonschema/reference.go:resolveRef", "jsonschema/schema.go:schemaFromFile"]}
{"id": "C39", "title": "One struct field per property", "statement": "The generated struct has exactly one field for each (non hydration) property of the schema, with the property name in its JSON tag, nested as the schema is nested, and omitted-when-empty exactly when the property is not required.", "quantifier": "every schema tree", "why_tests_cant": "recursive schemas", "anchors": ["generate/struct.go:addField", "generate/struct.go:extractedField.write", "generate/struct.go:goFile.walkFunc"]}
{"id": "C40", "title": "Generation is deterministic", "statement": "The generated source does not depend on map iteration order.", "quantifier": "every schema and iteration order", "why_tests_cant": "random map order", "anchors": ["generate/struct.go:extractedFields.Sorted", "generate/struct.go:goFile.structs", "generate/graphql.go:gqlExtractedFields.Sorted"]}
{"id": "C41", "title": "Go types match JSON types", "statement": "Each JSON type is generated as the documented Go type; a field is a pointer exactly when nullable (or, with the pointers option, a non-required object or date-time).", "quantifier": "every field", "why_tests_cant": "all flag combinations", "anchors": ["generate/struct.go:extractedField.goType", "generate/struct.go:goFile.walkFunc"]}
{"id": "C42", "title": "Nested arrays keep their depth", "statement": "An array of arrays in the schema is generated as a slice of slices of the same depth.", "quantifier": "every nesting depth", "why_tests_cant": "unbounded depth", "anchors": ["generate/struct.go:addField", "generate/struct.go:extractedField.goType"]}
{"id": "C43", "title": "Distinct nested objects get distinct types", "statement": "With nested structs disabled, two different object instances of a schema never share a generated struct type.", "quantifier": "every schema", "why_tests_cant": "all property names", "anchors": ["generate/struct.go:goFile.walkFunc"]}
{"id": "C44", "title": "Union types are rejected", "statement": "Generation fails for a property with two or more non-null types, and never for one with a single non-null type because of its type.", "quantifier": "every type list", "why_tests_cant": "unbounded lists", "anchors": ["generate/struct.go:addField", "generate/graphql.go:gqlExtractedField.addField"]}
{"id": "C45", "title": "Avro timestamps", "statement": "AvroTime is the time in milliseconds: within one millisecond, monotone, exact on whole milliseconds; the optional variant maps nil to 0; slices are converted element-wise, optional slices dropping nils.", "quantifier": "every time", "why_tests_cant": "all instants, including before 1970 and outside the int64 nanosecond range", "anchors": ["generate/avro_helpers.go:AvroTime", "generate/avro_helpers.go:AvroTimeSlice", "generate/avro_helpers.go:AvroOptionalTimeSlice"]}
{"id": "C46", "title": "Generated Avro field lists are well-formed JSON", "statement": "The fields written for a struct form a comma separated list without leading, trailing or doubled commas, one entry per included field.", "quantifier": "every struct, embedded and excluded fields included", "why_tests_cant": "all field lists", "anchors": ["generate/avro.go:writeAvroFields", "generate/avro.go:writeAvroField"]}
{"id": "C47", "title": "Avro types match Go types", "statement": "Every Go type that generation produces is mapped to the Avro type of the same data, nullable as a union with null first, and the result is well-formed.", "quantifier": "every type expression", "why_tests_cant": "recursive types", "anchors": ["generate/avro.go:convertToAvroType"]}
{"id": "C48", "title": "Bulk Avro writing", "statement": "The bulk writer writes exactly the received items in order, reports at most one error, closes the error channel exactly once as its last action, never blocks on reporting, and terminates after the request channel is closed or an error occurred.", "quantifier": "every sequence of items, every failure point, every schedule", "why_tests_cant": "schedules and failure points", "anchors": ["generate/avro_template.go:avroTemplate"]}
{"id": "C49", "title": "Delete records are marked", "statement": "WriteAvroCF never writes AvroDeleted=true for a non-nil value, WriteAvroDeletedCF always does; nil receivers are rejected; the write time is the given one, or now if zero.", "quantifier": "every value and time", "why_tests_cant": "all values", "anchors": ["generate/avro_template.go:avroTemplate"]}
{"id": "C50", "title": "GraphQL nullability", "statement": "A generated GraphQL field is non-null exactly when the schema says so; arrays that may be null are nullable.", "quantifier": "every property and option combination", "why_tests_cant": "all combinations", "anchors": ["generate/graphql.go:graphqlType", "generate/graphql.go:gqlExtractedField.addField"]}
{"id": "C51", "title": "GraphQL descriptions", "statement": "A description is emitted as a GraphQL string literal or block string whose content is the description.", "quantifier": "every description", "why_tests_cant": "all strings", "anchors": ["generate/graphql.go:graphqlComment"]}
{"id": "C52", "title": "Rename flags", "statement": "`k=v,k2=v2` flags set exactly those pairs, later ones winning, with values that may contain `=`; malformed flags are an error.", "quantifier": "every flag string and every sequence of flags", "why_tests_cant": "all strings", "anchors": ["main.go:mapFlags.Set"]}
{"id": "C53", "title": "Generated files", "statement": "Each allOf/oneOf member of the root schema (and the root itself iff it has properties or neither) gets its own file.", "quantifier": "every schema", "why_tests_cant": "all reference lists", "anchors": ["generate/generate.go:BuildStructsWithArgs", "generate/generate.go:buildStructFile"]}
{"id": "C54", "title": "Own fields win over embedded ones", "statement": "When mapping generated struct fields for Avro, a field declared in the struct wins over a field of the same name from an embedded struct, wherever the embedding is placed; among embedded structs the first wins.", "quantifier": "every field list and embedding nesting", "why_tests_cant": "recursive embedding", "anchors": ["generate/avro_helpers.go:mapFields"]}
{"id": "C55", "title": "Index normalisation", "statement": "Replacing indices by `[*]` undoes index substitution and is idempotent.", "quantifier": "every path", "why_tests_cant": "all strings", "anchors": ["transform/utils.go:replaceIndex"]}
{"id": "C56", "title": "What a conversion yields", "statement": "Converting an input value to boolean, number, integer, string or date-time yields the documented value: words for booleans, positive numbers are true, decimal strings become numbers, numbers become their decimal text, seconds since 1970 become times, the empty string becomes null for numbers and times, of arrays the first item counts; everything else is an error. Arrays and objects are taken as they are, a single item without its array.", "quantifier": "every input value and every type", "why_tests_cant": "all strings, numbers and nestings of arrays", "anchors": ["transform/utils.go:convert", "transform/utils.go:convertBoolean", "transform/utils.go:convertNumber", "transform/utils.go:convertString", "transform/utils.go:convertDateTime"]}
{"id": "C57", "title": "Operations compute their documented function", "statement": "changeCase, toCamelCase, removeHTML, inverse, valueExists, replace, timeParse, currentTime, convertToFloat64, convertToInt64 and convertToBool compute what they are documented to compute on the values they are documented for and are an error on all others.", "quantifier": "every value and every arguments", "why_tests_cant": "all strings", "anchors": ["transform/operations.go"]}
{"id": "C58", "title": "What an entry of a transform yields", "statement": "An entry selects the value at its path, converts it to the type of the field (keeping it as it is when that fails), and applies its operations in the order they are written, stopping at the first error; a missing or null value gives null without any operation being run. XML entries: the text of a leaf, the texts joined by blanks, or the nodes.", "quantifier": "every entry, input, type and list of operations", "why_tests_cant": "unbounded operation lists and inputs", "anchors": ["transform/transform.go:transformInstruction.transform", "transform/transform.go:transformInstruction.jsonTransform", "transform/transform.go:transformInstruction.xmlTransform"]}
{"id": "C59", "title": "Every field appears once in the Avro schema", "statement": "Each field a Go struct has, its own and promoted ones, has exactly one entry in the generated Avro record, however structs are embedded.", "quantifier": "every struct and every embedding", "why_tests_cant": "recursive embedding", "anchors": ["generate/avro.go:writeAvroField", "generate/avro.go:writeEmbeddedStructFields"]}
{"id": "C60", "title": "The GraphQL document is the declared one", "statement": "buildGraphQLFile writes, whatever the iteration order of Go maps, exactly one type for the schema (interface and member types when it has oneOf), one type for each object in it, one field for each property (and a total for each list), sorted, with the declared names, types, arguments, descriptions and deprecations, and nothing else.", "quantifier": "every schema, every option and every map order", "why_tests_cant": "all schemas, all map orders", "anchors": ["generate/graphql.go:buildGraphQLFile", "generate/graphql.go:gqlExtractedFields.addField", "generate/graphql.go:generatedGraphQLObject.write"]}
{"id": "C61", "title": "GraphQL types implement their interface", "statement": "Every type written with `implements I` has all fields of the interface I with the same types, and I is declared.", "quantifier": "every schema with oneOf", "why_tests_cant": "all schemas", "anchors": ["generate/graphql.go:buildGraphQLFile"]}
{"id": "C62", "title": "GraphQL types referred to are declared", "statement": "Every object type that a field of a generated document refers to is declared in one of the written files, unless it is named by the schema itself.", "quantifier": "every schema and option", "why_tests_cant": "recursive schemas", "anchors": ["generate/graphql.go:buildGraphQLFile", "generate/graphql.go:generatedGraphQLFile.write"]}
{"id": "C63", "title": "GraphQL types and Go structs correspond", "statement": "For each GraphQL type with @goModel the Go generator makes a struct of that name, with a field of the corresponding Go type for each stored field, under the same JSON name.", "quantifier": "every schema and option", "why_tests_cant": "two generators on the same input", "anchors": ["generate/graphql.go:generatedGraphQLObject.write", "generate/struct.go:goType", "generate/graphql.go:graphqlType"]}
{"id": "C64", "title": "The Avro record has every field of the value", "statement": "The record that the generated conversion builds for a value of the generated struct has, for every field of the struct, its own or promoted ones, the value of that field: simple values unchanged, times in milliseconds, optional values in their unions, null for nil pointers, structs as records and slices item by item; nothing panics.", "quantifier": "every struct, every Avro package made for it and every value", "why_tests_cant": "all types, nestings, embeddings and values; the code exists only after generation", "anchors": ["generate/avro_helpers.go:avroFieldMapper.generate", "generate/avro_helpers.go:avroFieldMapper.generateFieldValue", "generate/avro_helpers.go:avroFieldMapper.generateStructValue", "generate/avro_template.go:avroStructSliceTemplate"]}
{"id": "C65", "title": "The generated conversion compiles", "statement": "For every struct that the Go generator makes and the Avro package made for it, the generation of the conversion succeeds, and the Go compiler accepts its code: every field it reads exists, each expression has the type of the Avro field it is assigned to, each function has its own name and is used.", "quantifier": "every struct and every Avro package made for it", "why_tests_cant": "all types, nestings and names", "anchors": ["generate/avro_helpers.go:avroFieldMapper.generate", "generate/avro_helpers.go:avroFieldMapper.generateChildStruct", "generate/avro_helpers.go:avroFieldMapper.generateNullableFieldValue", "generate/avro_helpers.go:printFields"]}
{"id": "C66", "title": "What an XML transform yields", "statement": "For an XML document the output is the one the schema declares for its root node: a scalar gets the value its transform selects at the node, else its default; an object with a transform is evaluated at the first node it selects, is absent if it selects none, and fails if it selects a leaf with text; an array is evaluated at each node it selects, in order, or else takes its default; nothing else is added, and objects and arrays without content are absent. It does not depend on earlier calls or on map orders.", "quantifier": "every schema without object defaults (and `last` with at most one entry), every XML document, every history of calls", "why_tests_cant": "unbounded nesting, documents and histories", "anchors": ["transform/instance.go:objectTransformer.objectTransformXML", "transform/instance.go:arrayTransformer.arrayTransformXML", "transform/transformer.go:Transformer.xmlTransform"]}
{"id": "C67", "title": "What array transforms and defaults yield", "statement": "For a JSON document, an array with a transform or a default gets the items its transform selects, else those at its place in the input, else those of its default; each item is then transformed by the item schema at its place in the input, where the chosen items have been stored first, with the objects missing on the way; the transform fails if a value that is not an object is in the way. Nothing of this is seen by other parts of the output that do not read these places, by later calls, or depends on the iteration order of maps.", "quantifier": "every schema whose arrays with transforms and defaults are outside other arrays and whose parts do not read what is stored for others; every document; every history of calls and every iteration order", "why_tests_cant": "the input document is changed while it is transformed, in map order", "anchors": ["transform/instance.go:arrayTransformer.arrayTransformJSON", "transform/instance.go:arrayTransformer.baseValueJSON", "transform/instance.go:objectTransformer.objectTransformJSON", "transform/transformer.go:saveInTree", "transform/transformer.go:Transformer.baseJSONTransform"]}
{"id": "C68", "title": "Generated files are Go source", "statement": "The text generated for a schema parses as Go, imports \"time\" exactly when a field is a time, and declares exactly the struct (without nesting: the structs) of the schema, with one field of the right type and tag for each property and nothing else.", "quantifier": "every schema, option and map order", "why_tests_cant": "all names and descriptions", "anchors": ["generate/struct.go:goFile.write", "generate/struct.go:generatedStruct.write", "generate/struct.go:extractedField.write"]}
{"id": "C69", "title": "Tags read back", "statement": "Whoever reads the tags of a generated struct with package reflect finds the exact name of the property with its option, and the first line of its description.", "quantifier": "every property name and description", "why_tests_cant": "all strings", "anchors": ["generate/struct.go:extractedField.write", "generate/avro.go:parseStructTag"]}
{"id": "C70", "title": "From JSON schema to Avro schema", "statement": "The Avro schema built for the struct generated from a JSON schema has, after the two metadata fields, one field for each property, with the name of the property, the Avro type of its JSON type, and its description if descriptions are put in tags; properties that may be left out or null are unions with null.", "quantifier": "every schema, option, map order and directory the file is in", "why_tests_cant": "the composition of two generators through a file", "anchors": ["generate/struct.go:goFile.write", "generate/avro.go:buildAvroSchemaFile", "generate/avro.go:parseGoStruct", "generate/avro.go:filterPackage", "generate/avro.go:parseStructTag", "generate/avro.go:convertToAvroType"]}
{"id": "C71", "title": "Structs are found by name", "statement": "When the Avro schema of a struct is built, a field of a named type gets the fields of the struct of that name, if the Go files of the directory are of one package and declare the name exactly once; else the type is reported as unknown.", "quantifier": "every directory of Go files and every name", "why_tests_cant": "all files and names", "anchors": ["generate/avro.go:parseGoStruct", "generate/avro.go:filterPackage", "generate/avro.go:convertToAvroType"]}
{"id": "C72", "title": "Documents survive the generated struct", "statement": "A JSON document that conforms to the schema is read by encoding/json into the struct generated from it without error, and written again with the members that have a property, and only these, with the same values.", "quantifier": "every schema, option, map order and document", "why_tests_cant": "all documents, and the code exists only after generation", "anchors": ["generate/struct.go:goFile.write", "generate/struct.go:goType", "generate/struct.go:extractedField.write", "generate/struct.go:extractedFields.Sorted"]}
{"id": "C73", "title": "Schema keywords are read as written", "statement": "Reading a schema document yields an Instance whose every field is the value of its keyword in the document; keywords that are missing or null give the zero value (additionalProperties keeps the value it had), a single type is a list of one, and the subschemas of allOf, anyOf and oneOf are read in order by the same rules. A value of the wrong kind under a keyword, at any depth, is an error and no other document is.", "quantifier": "every JSON document with distinct member names, every value of additionalProperties before", "why_tests_cant": "documents of any size and depth", "anchors": ["jsonschema/schema.go:Instance", "jsonschema/schema.go:Instance.UnmarshalJSON"]}
{"id": "C74", "title": "Generated GraphQL files are GraphQL documents", "statement": "Each generated .graphqls file can be read by a GraphQL reader and holds the definitions the schemas stand for: the scalar Any if it is asked for, and for each object a type or interface with its description, the interface it implements, its Go model, and for each property a field with its description, arguments, type, resolver mark and the reason why it is deprecated.", "quantifier": "every schema, option and map order", "why_tests_cant": "all schemas and texts in them; the tests compare with recorded files", "anchors": ["generate/graphql.go:buildGraphQLFile", "generate/graphql.go:generatedGraphQLObject.write", "generate/graphql.go:gqlExtractedField.write", "generate/graphql.go:graphqlComment"]}
{"id": "C75", "title": "Concurrent calls do not disturb each other", "statement": "However many calls of Transform and TransformNoValidation are made on one Transformer at the same time, and however their accesses to memory interleave, each call that returns has the answer it would have got alone; the calls do not change what the Transformer holds, no two of them write to the same map or array, and all of them return.", "quantifier": "every schema, every number of calls on any documents, every interleaving of their memory accesses, every map order", "why_tests_cant": "schedules cannot be enumerated by tests", "anchors": ["transform/transformer.go:Transformer.Transform", "transform/transformer.go:Transformer.TransformNoValidation", "transform/transformer.go:saveInTree", "transform/instance.go:objectTransformer.transform", "transform/instance.go:arrayTransformer.transform", "transform/transform.go:transformInstructions.transform"]}
{"id": "C76", "title": "A whole run writes the right files and no others", "statement": "BuildStructsWithArgs changes only files that belong to the schema: in the output directory the Go file of each struct and, if asked for, its three Avro files and the two MessagePack files of the package, in the GraphQL directory files whose names begin with the name of the schema, and an Avro package for each struct; without these options it makes the Go files only. If it succeeds, the GraphQL files and Avro schemas are those of the schemas, with the fields of embedded structs; if it fails it has stopped at the first failure, and everything made before that is complete.", "quantifier": "every schema, option and map order, every content of the directories, every failure of a generator behind it", "why_tests_cant": "failures and combinations of options and existing files cannot be enumerated by tests", "anchors": ["generate/generate.go:BuildStructsWithArgs", "generate/generate.go:buildAvroFile", "generate/graphql.go:buildGraphQLFile", "generate/avro.go:buildAvro", "generate/avro_helpers.go:buildAvroHelperFunctions", "generate/avro_template.go:avroTemplate"]}
{"id": "C77", "title": "The command does what its options say", "statement": "A command line with options and then the path of a schema makes the generator run with exactly what the options say: of several values for an option the last one counts, rename options add up, options that are not given have their documented defaults, and nestedStructs is the opposite of NoNestedStructs. The exit code is 0 when the generator succeeds and 4 when it fails. Without a schema, with Avro or GraphQL without an import path, with a path that cannot be made absolute, with an unknown option or a value that an option cannot have, and for help, no file is touched and the exit codes are 1, 1, 2 or 3, 2 and 0. Options may stand after the path of the schema, and arguments that mean nothing are refused (both refuted).", "quantifier": "every list of command line words, every generator and every state of the files", "why_tests_cant": "tests do not run the command; the claim is about every command line, in particular repeated options, one or two dashes, values after = or in the next word, and the end of the options", "anchors": ["main.go:main", "main.go:mapFlags", "generate/generate.go:BuildArgs", "generate/generate.go:BuildStructs", "generate/generate.go:BuildStructsRename"]}
{"id": "C78", "title": "An interrupted run can be repeated", "statement": "When a run of the generator is interrupted at any point, between two writes or in the middle of one, only files that the run itself makes have been touched, all files of the members before the one it was interrupted at are complete, and the same run started again ends as if nothing had happened, with the same texts in all files. (Refuted with Avro: after an interruption in a Go file every repetition fails; and with MessagePack after an interruption in its files.) A run without Avro and MessagePack does not look at what is in the directories at all.", "quantifier": "every schema, every option, every state of the directories, every point at which the run stops and every part of a text that has been written", "why_tests_cant": "tests run the generator to its end in a clean directory; the claim is about every crash point and about what the next run makes of the remains", "anchors": ["generate/generate.go:BuildStructsWithArgs", "generate/generate.go:buildStructFile", "generate/generate.go:buildAvroFile", "generate/generate.go:buildMessagePackFile", "generate/graphql.go:buildGraphQLFile", "generate/avro.go:filterPackage", "generate/avro_helpers.go:buildAvroHelperFunctions"]}
{"id": "C79", "title": "Validators answer the same for everybody", "statement": "Validate accepts a document if and only if the JSON schema library checked it and found nothing; otherwise the text of the error lists every violation, in the order of their texts, and is the same whatever the order in which the library found them. Validators for the same file share one schema, however the path is written and whenever they are made; those for other files do not.", "quantifier": "every outcome of the library, every order of the violations, every way of sorting, every schedule of calls", "why_tests_cant": "the library ranges over Go maps, so a test sees only some orders; sharing is about all schedules of the cache", "anchors": ["jsonschema/validator.go:NewValidator", "jsonschema/validator.go:loadSchema", "jsonschema/validator.go:validator.Validate", "jsonschema/cache.go:Cache.Load"]}
{"id": "C80", "title": "What defaults of objects do to later documents", "statement": "When objects outside arrays have defaults, each member of such an object in the output is the value the document has for it, or else the value that an earlier document left there, or else the one in the schema's default: the transformer keeps every value it makes for such an object and shows it in the outputs of later documents that lack it. Everything else in the output is as for a schema without defaults of objects.", "quantifier": "every schema with defaults of objects that are outside arrays and whose members have none, every document, JSON and XML, every number of earlier calls that succeeded or were given no JSON or XML, every iteration order", "why_tests_cant": "the effect needs two documents and depends on all the documents before; a test sees one history", "anchors": ["transform/instance.go:objectTransformer.objectTransformJSON", "transform/instance.go:objectTransformer.objectTransformXML", "transform/instance.go:newObjectTransformer", "transform/transformer.go:Transformer.Transform"]}
{"id": "C81", "title": "References to nothing are reported", "statement": "Loading a schema file does not succeed if the file is missing or is no schema, or if any reference anywhere in it (also one beside another reference) leads to a place of the document without an object, to a URL that cannot be fetched or has no object there, or to another file for which the same holds. No schema is ever returned with such a reference dropped or left out.", "quantifier": "every set of files, document, place of the reference and chain of files", "why_tests_cant": "every place and chain of files", "anchors": ["jsonschema/reference.go:dereference", "jsonschema/reference.go:resolveRef", "jsonschema/schema.go:SchemaFromFile"]}
{"id": "C82", "title": "What transforms of objects yield", "statement": "For a JSON document, an object whose transform selects an object of the document has all members of the selected object, except that its own properties that have a value take their place; if nothing or null is selected it has its own properties only, and any other value than an object is an error. The selected object is no source for the properties: these have the values they would have without the transform, and so has the rest of the output, whatever the order in which maps are iterated and whatever calls are made before or at the same time.", "quantifier": "every schema whose objects with a transform are outside arrays and select places by member names, no part of which reads what another part takes the place of; every document with no array in the selected places; every number of calls in any interleaving", "why_tests_cant": "the selected object is written into in place while other parts of the document are read, in an order that Go does not fix", "anchors": ["transform/instance.go:objectTransformer.objectTransformJSON", "transform/transformer.go:saveInTree", "transform/transform.go:transformInstructions.transform"]}
{"id": "C83", "title": "Failed writes are reported", "statement": "If creating, writing or closing any of the files of a run fails, BuildStructsWithArgs returns an error; if it returns none, every file is what it would be if nothing could fail. (Refuted: what closing a Go file and writing the pieces of an Avro schema return is dropped, so a Go file may be cut off and an Avro schema may lack properties after a successful run.)", "quantifier": "every schema, option, map order and state of the directories, every set of calls that fail and every part of a text that was written before the failure", "why_tests_cant": "tests write to a disk that works; the claim is about every set of failing calls", "anchors": ["generate/generate.go:BuildStructsWithArgs", "generate/generate.go:buildStructFile", "generate/avro.go:buildAvroSchemaFile", "generate/avro.go:writeAvroField", "generate/avro.go:writeAvroFields", "generate/graphql.go:buildGraphQLFile", "generate/avro_helpers.go:writeCodeTemplate"]}
{"id": "C84", "title": "A broken member fails the run", "statement": "If one of the schemas for which BuildStructsWithArgs is to make structs (a member of the root schema's allOf or oneOf, or the root schema itself) is missing or has a reference to nothing, directly or through other files, then the run returns an error whatever the options are, and files that belong only to that member are left as they were.", "quantifier": "every set of schema files, root schema, broken member, options, earlier contents of the directories and map orders", "why_tests_cant": "which member is broken, how deep the bad reference lies and what the other members produce cannot be enumerated", "anchors": ["generate/generate.go: BuildStructsWithArgs", "generate/struct.go: buildStructFile", "jsonschema/loader.go: SchemaFromFile, dereference"]}
{"id": "C85", "title": "Annotations in schemas are ignored", "statement": "A member of a schema that is not one of the keywords of the Instance type changes nothing in what is decoded, whatever its value and place; likewise members of transform sections, their entries and operations that are not documented. (Refuted: encoding/json matches names regardless of case, so Description beside description replaces it and a string under Type makes the schema invalid, while the walkers look at exact names.)", "quantifier": "every schema object, every member name and value and every case folding", "why_tests_cant": "names, values and places of annotations are unbounded; tests use well-formed keywords", "anchors": ["jsonschema/schema.go: Instance, UnmarshalJSON", "transform/transform.go: transformInstructions.UnmarshalJSON, transformInstruction.UnmarshalJSON"]}
{"id": "C86", "title": "What is returned can be written as JSON", "statement": "A document that Transform or TransformNoValidation returns has no NaN, infinity, XML node or time whose year is not one of 0 to 9999, and no object with two members of the same name; a call fails when the document it would return has one of these (for example if a number is given as the string NaN) or is deeper than the stack allows, and writing the document is refused for no other reason.", "quantifier": "every schema, document, history and map order", "why_tests_cant": "values that cannot be written arise from strings, operations and defaults in unbounded ways", "anchors": ["transform/transformer.go: baseJSONTransform, baseXMLTransform", "transform/instance.go: scalar"]}
{"id": "C87", "title": "Rename flags are shown as they were set", "statement": "The text shown for rename flags lists each pair once as -key=value and nothing else, whatever the order of the map; different flags are shown differently; and giving the text as a flag sets the same pairs.", "quantifier": "every set of rename flags and map order", "why_tests_cant": "all strings and map orders", "anchors": ["main.go:mapFlags.String", "main.go:mapFlags.Set"]}

import json
P=[]
def p(id,title,statement,quant,why,anchors):
    P.append(dict(id=id,title=title,statement=statement,quantifier=quant,why_tests_cant=why,anchors=anchors))
T="transform/"
p("C01","`first` method returns the first value found","For a transform with method `first` (or no method), the value produced is the value of the earliest `from` entry that yields a non-null value; an error of an entry before it is returned as the error; entries after it have no influence; if no entry yields a value the result is null.","every list of `from` entries, every outcome (null, value, error) of each entry","lists and outcome patterns are unbounded; tests sample two or three entries",[T+"transform.go:transformInstructions.transform"])
p("C02","`last` method returns the last value found, on every use","For a transform with method `last`, every evaluation (each array item, each Transform call on the same Transformer) yields the value of the latest `from` entry that yields a non-null value.","every list of `from` entries and every number of earlier evaluations of the same transform","the answer depends on the history of earlier evaluations, a single-call test never sees it",[T+"transform.go:transformInstructions.transform"])
p("C03","`concatenate` joins the non-empty strings with the delimiter","With method `concatenate`, null entries are skipped; string entries are joined in order, the delimiter being placed exactly between non-empty pieces; a single non-null entry is returned unchanged whatever its type; two or more non-null entries of which one is not a string are an error.","every list of entry values and every delimiter","unbounded lists and strings, all type combinations",[T+"transform.go:transformInstructions.transform",T+"utils.go:concat"])
p("C04","Converted scalars have the schema's type","Whenever conversion of an input value to a scalar JSON type (boolean, number, integer, string, date-time) succeeds with a non-null value, the value has a Go type that marshals to that JSON type (number and integer alike: an int or a float64); null and empty arrays convert to null for every type.","every input value (arbitrarily nested arrays and objects included) and every JSON type","input values are an infinite recursive type",[T+"utils.go:convert",T+"utils.go:convertBoolean",T+"utils.go:convertNumber",T+"utils.go:convertString",T+"utils.go:convertDateTime"])
p("C05","Scalar conversions round-trip","An int converted to a string and back to a number is the same int; a boolean converted to string and back, or to number and back, is the same boolean; converting an already converted boolean, number, integer or string again changes nothing.","every 64-bit int, every boolean, every value and target type","2^64 ints and all values",[T+"utils.go:convertString",T+"utils.go:convertNumber",T+"utils.go:convertBoolean"])
p("C06","Scalar resolution order","For JSON input a scalar field takes the value of its transform if that is non-null, else the converted input value at the field's own path, else the schema default; for XML the same without the middle step; a transform error is always returned as an error.","every transform outcome, every input, every path and default","all combinations over unbounded inputs",[T+"instance.go:scalarTransformer.transformScalarJSON",T+"instance.go:scalarTransformer.transformScalarXML"])
p("C07","A failed conversion of an untransformed field falls back to the default","If a scalar field without transform finds an input value at its path that cannot be converted to its type, the field gets the schema default and Transform does not fail.","every scalar type and every unconvertible input value","needs every value/type pair",[T+"instance.go:scalarTransformer.transformScalarJSON",T+"utils.go:convertBoolean"])
p("C08","`duration` computes seconds","`duration` accepts exactly the strings made of two or three colon separated (possibly empty) digit groups and returns 3600*h+60*m+s (modulo 2^64, so exactly if it fits an int); every other string, and any group not fitting an int, is an error; nil gives 0.","every string","regular expression with lazy and optional parts over all strings",[T+"operations.go:duration.transform",T+"operations.go:durationRe"])
p("C09","`split` loses nothing","Joining the pieces returned by `split` with the `on` argument gives back the input; no piece contains a non-empty separator, and the cuts are at the leftmost places; an empty separator gives the characters; the empty string gives the empty array; any other value is an error.","every input string and every separator","all pairs of strings, overlapping separators",[T+"operations.go:split.transform"])
p("C10","`max` returns the field of the largest item","`max` returns the `return` field of an item whose `by` value is greater or equal to that of every other item (the earliest such item).","every non-empty array of items and every by/return selector of the documented form `@...`","unbounded arrays and all float orderings, negative numbers included",[T+"operations.go:max.transform"])
p("C11","Operations never crash","Applying any configured operation to any value returns a value or an error, never a run-time panic.","every operation, every argument map accepted by init, every input value","all values for all operations",[T+"operations.go"])
p("C12","Only well-formed operations are accepted","Parsing a transform accepts exactly the fourteen documented operation names, each with exactly its required argument keys (changeCase only with lower/upper; operations without arguments ignore them), keeps their order and paths, and rejects everything else with an error; only the methods first, last, concatenate or none are accepted.","every operation list, name and argument map","unbounded names and maps",[T+"transform.go:transformInstruction.UnmarshalJSON",T+"transform.go:transformInstructions.UnmarshalJSON",T+"operations.go:requiredArgs"])
p("C13","Relative paths are anchored at the parent","A transform path starting with `@.` or `@[` is rewritten to start with the path of the enclosing instance (the item itself for array-of-scalar items, the enclosing object's path for object and array items); any other path is unchanged.","every instance path and every transform path","all path strings",[T+"utils.go:extractTransformInstructions",T+"transform.go:replaceJSONPathPrefix"])
p("C14","Nested array items read their own index","While the item with indices i1,...,in of n nested arrays is produced, each `[*]` of the item's paths is replaced by the corresponding index, in order, whatever the nesting depth.","every nesting depth, all property names free of path metacharacters, all indices","unbounded depth and index combination",[T+"instance.go:pathReplace",T+"instance.go:arrayTransformer.arrayTransformJSON"])
p("C15","Saving into the tree is a proper update","Saving a value at a path makes exactly that path read back as the value, creates missing parents, keeps everything at other paths, and never crashes.","every tree, path and value","trees, paths and indices are unbounded",[T+"transformer.go:saveInTree",T+"transformer.go:saveLeaf",T+"transformer.go:saveInSlice"])
p("C16","A schema without transforms is a projection of the input","For a schema with no transform sections and no defaults, the output contains, for each schema property, exactly the input's value at the same location converted to the schema type, arrays item by item in order, properties absent in the input absent in the output and nothing else; objects and arrays left empty are omitted. In general, for schemas whose objects and arrays have neither transforms nor defaults, the output is that projection with each scalar resolved as in C06.","every schema tree of objects, arrays and scalars of any depth, every JSON input, every map iteration order","recursive schemas and inputs, random map order",[T+"instance.go",T+"transformer.go:baseJSONTransform"])
p("C17","Transform is deterministic","The result of Transform does not depend on Go's random map iteration order.","every schema, input, and iteration order of every map","iteration orders are factorially many and chosen by the runtime",[T+"instance.go:objectTransformer.objectTransformJSON",T+"instance.go:arrayTransformer.arrayTransformJSON"])
p("C18","Transform does not depend on history","Calling Transform on a Transformer gives the same result whatever inputs that Transformer processed before, successfully or not.","every sequence of earlier calls","histories are unbounded",[T+"transformer.go:Transformer.Transform",T+"instance.go:objectTransformer",T+"transform.go:transformInstructions.transform"])
p("C19","Array items are produced independently","The output item for an input item is the same whether the array has other items or not, if the item's transforms use relative paths.","every item schema and every array","unbounded arrays; depends on sharing between items",[T+"instance.go:arrayTransformer.arrayTransformJSON",T+"instance.go:objectTransformer.objectTransformJSON"])
p("C20","Array output keeps order and drops only missing items","The output array consists of the non-null results of the items in input order; if none is left the array is omitted; an item error fails the Transform.","every array length, every item outcome","unbounded arrays",[T+"instance.go:arrayTransformer.arrayTransformJSON",T+"instance.go:arrayTransformer.arrayTransformXML"])
p("C21","An array transform delivers the selected array","If the path of an array field's transform selects a JSON array, the items iterated over are the items of that array.","every array value","all arrays, including nested singletons",[T+"utils.go:convert",T+"instance.go:arrayTransformer.baseValueJSON"])
p("C22","Returned documents are valid","Transform returns a document only if the schema's validator accepted exactly that document, and it is the document TransformNoValidation returns; otherwise it returns an error and no document. This holds for JSON and XML transformers.","every input and every validator behaviour","all inputs and validator outcomes",[T+"transformer.go:jsonTransform",T+"transformer.go:xmlTransform","jsonschema/validator.go:Validate"])
p("C23","Transform does not crash","Transform returns a result or an error for every input document, it never panics.","every transformer that could be built, every input","all inputs",[T+"instance.go",T+"transformer.go:saveInTree"])
p("C24","NewTransformer mirrors the schema","The transformer built for a schema has exactly one node per schema instance, at the instance's location, of the instance's kind, independently of the order in which properties are visited; schemas with neither properties nor items, or with both, are rejected.","every schema tree, every visiting order","recursive schemas and map orders",[T+"transformer.go:newTransformer",T+"transformer.go:walker",T+"transformer.go:findParent"])
p("C25","XML objects with a transform are relative or omitted","For XML, if an object's transform selects no node the object is its default or omitted and its children are not evaluated; if it selects nodes the children are evaluated relative to the first one.","every XML document and selector outcome","all documents",[T+"instance.go:objectTransformer.objectTransformXML"])
p("C26","XML multi-valued scalars","If an XML path selects several nodes for a string field the texts are joined with single spaces in document order; for other scalar types the first node's text is used if it converts.","every number of selected nodes and all texts","unbounded node lists",[T+"transform.go:transformInstruction.xmlTransform"])
J="jsonschema/"
p("C27","Field type extraction","The type of a field is its single non-null type, nullable iff the type list contains null, independent of the order of the list; two or more non-null types, or a missing type, are an error.","every type list","unbounded lists",[J+"schema.go:FieldType"])
p("C28","Walk visits each instance exactly once","Walk and WalkRaw call the callback exactly once for every instance of the schema, with its JSONPath, parents before children, and stop at the first callback error which they return.","every schema tree, every map order, every callback","recursive schemas",[J+"walk.go:Walk",J+"walk.go:WalkRaw"])
p("C29","Walk and WalkRaw agree","On every schema whose types are well formed both walks visit the same paths with the same instances, and one fails iff the other fails.","every schema tree","recursive schemas",[J+"walk.go:walkInstance",J+"walk.go:walkRaw"])
p("C30","Flattening merges with the parent winning","A flattened schema has exactly the properties of the root, of all allOf members and of the oneOf members whose file name equals the requested type; on conflict root wins over allOf over oneOf and earlier over later; required lists are concatenated; items is the first one present.","every root, allOf list, oneOf list and oneOf type","unbounded lists of property maps",[J+"schema.go:schemaFromFile",J+"schema.go:mergeProperties"])
p("C31","Without flattening, allOf-only schemas still get their properties","A non-flattened schema with own properties ignores its allOf members; one without own properties gets the properties of all its allOf members.","every schema","lists of members",[J+"schema.go:schemaFromFile"])
p("C32","Loaded schemas contain no reference","If loading a schema succeeds no `$ref` string member is left anywhere in the dereferenced document that reference search reaches.","every document and reference graph","recursive documents",[J+"reference.go:dereference",J+"reference.go:findRefs"])
p("C33","Siblings of a reference are kept","Replacing a reference yields the referenced object, with a fromRef entry naming the reference, overridden by the members written beside `$ref`.","every referencing and referenced object","all objects",[J+"reference.go:dereference",J+"reference.go:resolveRef"])
p("C34","Loading terminates","Dereferencing any document terminates with a document or an error.","every reference graph, cyclic ones included","non-termination cannot be observed by a test",[J+"reference.go:dereference",J+"reference.go:resolveRef"])
p("C35","The cache builds at most once","For every key, at most one build is running at a time and after a successful build no other build for that key starts; builds of different keys do not block each other.","every number of goroutines, every interleaving, every builder outcome","interleavings are unbounded",[J+"cache.go:Cache.Load"])
p("C36","The cache is coherent","All successful loads of a key return the same value, which is the one its only successful build produced; a failed build is not cached: the failure is reported to the loads waiting for it and a later load builds again.","every schedule","interleavings are unbounded",[J+"cache.go:Cache.Load"])
p("C37","Different load requests do not share a cache entry","Two requests differing in file, oneOf type or flattening use different cache keys.","all paths and types","all strings",[J+"schema.go:schemaFromFile"])
p("C38","Loading files that reference each other","Loading a schema file returns, even if schema files reference each other in a cycle.","every file graph and schedule","a hang is not observable by a test",[J+"cache.go:Cache.Load",J+"reference.go:resolveRef",J+"schema.go:schemaFromFile"])
G="generate/"
p("C39","One struct field per property","The generated struct has exactly one field for each (non hydration) property of the schema, with the property name in its JSON tag, nested as the schema is nested, and omitted-when-empty exactly when the property is not required.","every schema tree","recursive schemas",[G+"struct.go:addField",G+"struct.go:extractedField.write",G+"struct.go:goFile.walkFunc"])
p("C40","Generation is deterministic","The generated source does not depend on map iteration order.","every schema and iteration order","random map order",[G+"struct.go:extractedFields.Sorted",G+"struct.go:goFile.structs",G+"graphql.go:gqlExtractedFields.Sorted"])
p("C41","Go types match JSON types","Each JSON type is generated as the documented Go type; a field is a pointer exactly when nullable (or, with the pointers option, a non-required object or date-time).","every field","all flag combinations",[G+"struct.go:extractedField.goType",G+"struct.go:goFile.walkFunc"])
p("C42","Nested arrays keep their depth","An array of arrays in the schema is generated as a slice of slices of the same depth.","every nesting depth","unbounded depth",[G+"struct.go:addField",G+"struct.go:extractedField.goType"])
p("C43","Distinct nested objects get distinct types","With nested structs disabled, two different object instances of a schema never share a generated struct type.","every schema","all property names",[G+"struct.go:goFile.walkFunc"])
p("C44","Union types are rejected","Generation fails for a property with two or more non-null types, and never for one with a single non-null type because of its type.","every type list","unbounded lists",[G+"struct.go:addField",G+"graphql.go:gqlExtractedField.addField"])
p("C45","Avro timestamps","AvroTime is the time in milliseconds: within one millisecond, monotone, exact on whole milliseconds; the optional variant maps nil to 0; slices are converted element-wise, optional slices dropping nils.","every time","all instants, including before 1970 and outside the int64 nanosecond range",[G+"avro_helpers.go:AvroTime",G+"avro_helpers.go:AvroTimeSlice",G+"avro_helpers.go:AvroOptionalTimeSlice"])
p("C46","Generated Avro field lists are well-formed JSON","The fields written for a struct form a comma separated list without leading, trailing or doubled commas, one entry per included field.","every struct, embedded and excluded fields included","all field lists",[G+"avro.go:writeAvroFields",G+"avro.go:writeAvroField"])
p("C47","Avro types match Go types","Every Go type that generation produces is mapped to the Avro type of the same data, nullable as a union with null first, and the result is well-formed.","every type expression","recursive types",[G+"avro.go:convertToAvroType"])
p("C48","Bulk Avro writing","The bulk writer writes exactly the received items in order, reports at most one error, closes the error channel exactly once as its last action, never blocks on reporting, and terminates after the request channel is closed or an error occurred.","every sequence of items, every failure point, every schedule","schedules and failure points",[G+"avro_template.go:avroTemplate"])
p("C49","Delete records are marked","WriteAvroCF never writes AvroDeleted=true for a non-nil value, WriteAvroDeletedCF always does; nil receivers are rejected; the write time is the given one, or now if zero.","every value and time","all values",[G+"avro_template.go:avroTemplate"])
p("C50","GraphQL nullability","A generated GraphQL field is non-null exactly when the schema says so; arrays that may be null are nullable.","every property and option combination","all combinations",[G+"graphql.go:graphqlType",G+"graphql.go:gqlExtractedField.addField"])
p("C51","GraphQL descriptions","A description is emitted as a GraphQL string literal or block string whose content is the description.","every description","all strings",[G+"graphql.go:graphqlComment"])
p("C52","Rename flags","`k=v,k2=v2` flags set exactly those pairs, later ones winning, with values that may contain `=`; malformed flags are an error.","every flag string and every sequence of flags","all strings",["main.go:mapFlags.Set"])
p("C53","Generated files","Each allOf/oneOf member of the root schema (and the root itself iff it has properties or neither) gets its own file.","every schema","all reference lists",[G+"generate.go:BuildStructsWithArgs",G+"generate.go:buildStructFile"])
p("C54","Own fields win over embedded ones","When mapping generated struct fields for Avro, a field declared in the struct wins over a field of the same name from an embedded struct, wherever the embedding is placed; among embedded structs the first wins.","every field list and embedding nesting","recursive embedding",[G+"avro_helpers.go:mapFields"])
p("C55","Index normalisation","Replacing indices by `[*]` undoes index substitution and is idempotent.","every path","all strings",[T+"utils.go:replaceIndex"])
p("C56","What a conversion yields","Converting an input value to boolean, number, integer, string or date-time yields the documented value: words for booleans, positive numbers are true, decimal strings become numbers, numbers become their decimal text, seconds since 1970 become times, the empty string becomes null for numbers and times, of arrays the first item counts; everything else is an error. Arrays and objects are taken as they are, a single item without its array.","every input value and every type","all strings, numbers and nestings of arrays",[T+"utils.go:convert",T+"utils.go:convertBoolean",T+"utils.go:convertNumber",T+"utils.go:convertString",T+"utils.go:convertDateTime"])
p("C57","Operations compute their documented function","changeCase, toCamelCase, removeHTML, inverse, valueExists, replace, timeParse, currentTime, convertToFloat64, convertToInt64 and convertToBool compute what they are documented to compute on the values they are documented for and are an error on all others.","every value and every arguments","all strings",[T+"operations.go"])
p("C58","What an entry of a transform yields","An entry selects the value at its path, converts it to the type of the field (keeping it as it is when that fails), and applies its operations in the order they are written, stopping at the first error; a missing or null value gives null without any operation being run. XML entries: the text of a leaf, the texts joined by blanks, or the nodes.","every entry, input, type and list of operations","unbounded operation lists and inputs",[T+"transform.go:transformInstruction.transform",T+"transform.go:transformInstruction.jsonTransform",T+"transform.go:transformInstruction.xmlTransform"])
p("C59","Every field appears once in the Avro schema","Each field a Go struct has, its own and promoted ones, has exactly one entry in the generated Avro record, however structs are embedded.","every struct and every embedding","recursive embedding",[G+"avro.go:writeAvroField",G+"avro.go:writeEmbeddedStructFields"])
p("C60","The GraphQL document is the declared one","buildGraphQLFile writes, whatever the iteration order of Go maps, exactly one type for the schema (interface and member types when it has oneOf), one type for each object in it, one field for each property (and a total for each list), sorted, with the declared names, types, arguments, descriptions and deprecations, and nothing else.","every schema, every option and every map order","all schemas, all map orders",[G+"graphql.go:buildGraphQLFile",G+"graphql.go:gqlExtractedFields.addField",G+"graphql.go:generatedGraphQLObject.write"])
p("C61","GraphQL types implement their interface","Every type written with `implements I` has all fields of the interface I with the same types, and I is declared.","every schema with oneOf","all schemas",[G+"graphql.go:buildGraphQLFile"])
p("C62","GraphQL types referred to are declared","Every object type that a field of a generated document refers to is declared in one of the written files, unless it is named by the schema itself.","every schema and option","recursive schemas",[G+"graphql.go:buildGraphQLFile",G+"graphql.go:generatedGraphQLFile.write"])
p("C63","GraphQL types and Go structs correspond","For each GraphQL type with @goModel the Go generator makes a struct of that name, with a field of the corresponding Go type for each stored field, under the same JSON name.","every schema and option","two generators on the same input",[G+"graphql.go:generatedGraphQLObject.write",G+"struct.go:goType",G+"graphql.go:graphqlType"])
p("C64","The Avro record has every field of the value","The record that the generated conversion builds for a value of the generated struct has, for every field of the struct, its own or promoted ones, the value of that field: simple values unchanged, times in milliseconds, optional values in their unions, null for nil pointers, structs as records and slices item by item; nothing panics.","every struct, every Avro package made for it and every value","all types, nestings, embeddings and values; the code exists only after generation",[G+"avro_helpers.go:avroFieldMapper.generate",G+"avro_helpers.go:avroFieldMapper.generateFieldValue",G+"avro_helpers.go:avroFieldMapper.generateStructValue",G+"avro_template.go:avroStructSliceTemplate"])
p("C65","The generated conversion compiles","For every struct that the Go generator makes and the Avro package made for it, the generation of the conversion succeeds, and the Go compiler accepts its code: every field it reads exists, each expression has the type of the Avro field it is assigned to, each function has its own name and is used.","every struct and every Avro package made for it","all types, nestings and names",[G+"avro_helpers.go:avroFieldMapper.generate",G+"avro_helpers.go:avroFieldMapper.generateChildStruct",G+"avro_helpers.go:avroFieldMapper.generateNullableFieldValue",G+"avro_helpers.go:printFields"])
p("C66","What an XML transform yields","For an XML document the output is the one the schema declares for its root node: a scalar gets the value its transform selects at the node, else its default; an object with a transform is evaluated at the first node it selects, is absent if it selects none, and fails if it selects a leaf with text; an array is evaluated at each node it selects, in order, or else takes its default; nothing else is added, and objects and arrays without content are absent. It does not depend on earlier calls or on map orders.","every schema without object defaults (and `last` with at most one entry), every XML document, every history of calls","unbounded nesting, documents and histories",[T+"instance.go:objectTransformer.objectTransformXML",T+"instance.go:arrayTransformer.arrayTransformXML",T+"transformer.go:Transformer.xmlTransform"])
p("C67","What array transforms and defaults yield","For a JSON document, an array with a transform or a default gets the items its transform selects, else those at its place in the input, else those of its default; each item is then transformed by the item schema at its place in the input, where the chosen items have been stored first, with the objects missing on the way; the transform fails if a value that is not an object is in the way. Nothing of this is seen by other parts of the output that do not read these places, by later calls, or depends on the iteration order of maps.","every schema whose arrays with transforms and defaults are outside other arrays and whose parts do not read what is stored for others; every document; every history of calls and every iteration order","the input document is changed while it is transformed, in map order",[T+"instance.go:arrayTransformer.arrayTransformJSON",T+"instance.go:arrayTransformer.baseValueJSON",T+"instance.go:objectTransformer.objectTransformJSON",T+"transformer.go:saveInTree",T+"transformer.go:Transformer.baseJSONTransform"])
p("C68","Generated files are Go source","The text generated for a schema parses as Go, imports \"time\" exactly when a field is a time, and declares exactly the struct (without nesting: the structs) of the schema, with one field of the right type and tag for each property and nothing else.","every schema, option and map order","all names and descriptions",[G+"struct.go:goFile.write",G+"struct.go:generatedStruct.write",G+"struct.go:extractedField.write"])
p("C69","Tags read back","Whoever reads the tags of a generated struct with package reflect finds the exact name of the property with its option, and the first line of its description.","every property name and description","all strings",[G+"struct.go:extractedField.write",G+"avro.go:parseStructTag"])
p("C70","From JSON schema to Avro schema","The Avro schema built for the struct generated from a JSON schema has, after the two metadata fields, one field for each property, with the name of the property, the Avro type of its JSON type, and its description if descriptions are put in tags; properties that may be left out or null are unions with null.","every schema, option, map order and directory the file is in","the composition of two generators through a file",[G+"struct.go:goFile.write",G+"avro.go:buildAvroSchemaFile",G+"avro.go:parseGoStruct",G+"avro.go:filterPackage",G+"avro.go:parseStructTag",G+"avro.go:convertToAvroType"])
p("C71","Structs are found by name","When the Avro schema of a struct is built, a field of a named type gets the fields of the struct of that name, if the Go files of the directory are of one package and declare the name exactly once; else the type is reported as unknown.","every directory of Go files and every name","all files and names",[G+"avro.go:parseGoStruct",G+"avro.go:filterPackage",G+"avro.go:convertToAvroType"])
p("C72","Documents survive the generated struct","A JSON document that conforms to the schema is read by encoding/json into the struct generated from it without error, and written again with the members that have a property, and only these, with the same values.","every schema, option, map order and document","all documents, and the code exists only after generation",[G+"struct.go:goFile.write",G+"struct.go:goType",G+"struct.go:extractedField.write",G+"struct.go:extractedFields.Sorted"])
p("C73","Schema keywords are read as written","Reading a schema document yields an Instance whose every field is the value of its keyword in the document; keywords that are missing or null give the zero value (additionalProperties keeps the value it had), a single type is a list of one, and the subschemas of allOf, anyOf and oneOf are read in order by the same rules. A value of the wrong kind under a keyword, at any depth, is an error and no other document is.","every JSON document with distinct member names, every value of additionalProperties before","documents of any size and depth",[J+"schema.go:Instance",J+"schema.go:Instance.UnmarshalJSON"])
p("C74","Generated GraphQL files are GraphQL documents","Each generated .graphqls file can be read by a GraphQL reader and holds the definitions the schemas stand for: the scalar Any if it is asked for, and for each object a type or interface with its description, the interface it implements, its Go model, and for each property a field with its description, arguments, type, resolver mark and the reason why it is deprecated.","every schema, option and map order","all schemas and texts in them; the tests compare with recorded files",[G+"graphql.go:buildGraphQLFile",G+"graphql.go:generatedGraphQLObject.write",G+"graphql.go:gqlExtractedField.write",G+"graphql.go:graphqlComment"])
p("C75","Concurrent calls do not disturb each other","However many calls of Transform and TransformNoValidation are made on one Transformer at the same time, and however their accesses to memory interleave, each call that returns has the answer it would have got alone; the calls do not change what the Transformer holds, no two of them write to the same map or array, and all of them return.","every schema, every number of calls on any documents, every interleaving of their memory accesses, every map order","schedules cannot be enumerated by tests",[T+"transformer.go:Transformer.Transform",T+"transformer.go:Transformer.TransformNoValidation",T+"transformer.go:saveInTree",T+"instance.go:objectTransformer.transform",T+"instance.go:arrayTransformer.transform",T+"transform.go:transformInstructions.transform"])
p("C76","A whole run writes the right files and no others","BuildStructsWithArgs changes only files that belong to the schema: in the output directory the Go file of each struct and, if asked for, its three Avro files and the two MessagePack files of the package, in the GraphQL directory files whose names begin with the name of the schema, and an Avro package for each struct; without these options it makes the Go files only. If it succeeds, the GraphQL files and Avro schemas are those of the schemas, with the fields of embedded structs; if it fails it has stopped at the first failure, and everything made before that is complete.","every schema, option and map order, every content of the directories, every failure of a generator behind it","failures and combinations of options and existing files cannot be enumerated by tests",[G+"generate.go:BuildStructsWithArgs",G+"generate.go:buildAvroFile",G+"graphql.go:buildGraphQLFile",G+"avro.go:buildAvro",G+"avro_helpers.go:buildAvroHelperFunctions",G+"avro_template.go:avroTemplate"])
p("C77","The command does what its options say","A command line with options and then the path of a schema makes the generator run with exactly what the options say: of several values for an option the last one counts, rename options add up, options that are not given have their documented defaults, and nestedStructs is the opposite of NoNestedStructs. The exit code is 0 when the generator succeeds and 4 when it fails. Without a schema, with Avro or GraphQL without an import path, with a path that cannot be made absolute, with an unknown option or a value that an option cannot have, and for help, no file is touched and the exit codes are 1, 1, 2 or 3, 2 and 0. Options may stand after the path of the schema, and arguments that mean nothing are refused (both refuted).","every list of command line words, every generator and every state of the files","tests do not run the command; the claim is about every command line, in particular repeated options, one or two dashes, values after = or in the next word, and the end of the options",["main.go:main","main.go:mapFlags","generate/generate.go:BuildArgs","generate/generate.go:BuildStructs","generate/generate.go:BuildStructsRename"])
p("C78","An interrupted run can be repeated","When a run of the generator is interrupted at any point, between two writes or in the middle of one, only files that the run itself makes have been touched, all files of the members before the one it was interrupted at are complete, and the same run started again ends as if nothing had happened, with the same texts in all files. (Refuted with Avro: after an interruption in a Go file every repetition fails; and with MessagePack after an interruption in its files.) A run without Avro and MessagePack does not look at what is in the directories at all.","every schema, every option, every state of the directories, every point at which the run stops and every part of a text that has been written","tests run the generator to its end in a clean directory; the claim is about every crash point and about what the next run makes of the remains",["generate/generate.go:BuildStructsWithArgs","generate/generate.go:buildStructFile","generate/generate.go:buildAvroFile","generate/generate.go:buildMessagePackFile","generate/graphql.go:buildGraphQLFile","generate/avro.go:filterPackage","generate/avro_helpers.go:buildAvroHelperFunctions"])
p("C79","Validators answer the same for everybody","Validate accepts a document if and only if the JSON schema library checked it and found nothing; otherwise the text of the error lists every violation, in the order of their texts, and is the same whatever the order in which the library found them. Validators for the same file share one schema, however the path is written and whenever they are made; those for other files do not.","every outcome of the library, every order of the violations, every way of sorting, every schedule of calls","the library ranges over Go maps, so a test sees only some orders; sharing is about all schedules of the cache",["jsonschema/validator.go:NewValidator","jsonschema/validator.go:loadSchema","jsonschema/validator.go:validator.Validate","jsonschema/cache.go:Cache.Load"])
p("C80","What defaults of objects do to later documents","When objects outside arrays have defaults, each member of such an object in the output is the value the document has for it, or else the value that an earlier document left there, or else the one in the schema's default: the transformer keeps every value it makes for such an object and shows it in the outputs of later documents that lack it. Everything else in the output is as for a schema without defaults of objects.","every schema with defaults of objects that are outside arrays and whose members have none, every document, JSON and XML, every number of earlier calls that succeeded or were given no JSON or XML, every iteration order","the effect needs two documents and depends on all the documents before; a test sees one history",["transform/instance.go:objectTransformer.objectTransformJSON","transform/instance.go:objectTransformer.objectTransformXML","transform/instance.go:newObjectTransformer","transform/transformer.go:Transformer.Transform"])
p("C81","References to nothing are reported","Loading a schema file does not succeed if the file is missing or is no schema, or if any reference anywhere in it (also one beside another reference) leads to a place of the document without an object, to a URL that cannot be fetched or has no object there, or to another file for which the same holds. No schema is ever returned with such a reference dropped or left out.","every set of files, document, place of the reference and chain of files","every place and chain of files",["jsonschema/reference.go:dereference","jsonschema/reference.go:resolveRef","jsonschema/schema.go:SchemaFromFile"])
p("C82","What transforms of objects yield","For a JSON document, an object whose transform selects an object of the document has all members of the selected object, except that its own properties that have a value take their place; if nothing or null is selected it has its own properties only, and any other value than an object is an error. The selected object is no source for the properties: these have the values they would have without the transform, and so has the rest of the output, whatever the order in which maps are iterated and whatever calls are made before or at the same time.","every schema whose objects with a transform are outside arrays and select places by member names, no part of which reads what another part takes the place of; every document with no array in the selected places; every number of calls in any interleaving","the selected object is written into in place while other parts of the document are read, in an order that Go does not fix",[T+"instance.go:objectTransformer.objectTransformJSON",T+"transformer.go:saveInTree",T+"transform.go:transformInstructions.transform"])
p("C83","Failed writes are reported","If creating, writing or closing any of the files of a run fails, BuildStructsWithArgs returns an error; if it returns none, every file is what it would be if nothing could fail. (Refuted: what closing a Go file and writing the pieces of an Avro schema return is dropped, so a Go file may be cut off and an Avro schema may lack properties after a successful run.)","every schema, option, map order and state of the directories, every set of calls that fail and every part of a text that was written before the failure","tests write to a disk that works; the claim is about every set of failing calls",[G+"generate.go:BuildStructsWithArgs",G+"generate.go:buildStructFile",G+"avro.go:buildAvroSchemaFile",G+"avro.go:writeAvroField",G+"avro.go:writeAvroFields",G+"graphql.go:buildGraphQLFile",G+"avro_helpers.go:writeCodeTemplate"])
p("C84","A broken member fails the run","If one of the schemas for which BuildStructsWithArgs is to make structs (a member of the root schema's allOf or oneOf, or the root schema itself) is missing or has a reference to nothing, directly or through other files, then the run returns an error whatever the options are, and files that belong only to that member are left as they were.","every set of schema files, root schema, broken member, options, earlier contents of the directories and map orders","which member is broken, how deep the bad reference lies and what the other members produce cannot be enumerated",[G+"generate.go: BuildStructsWithArgs",G+"struct.go: buildStructFile",J+"loader.go: SchemaFromFile, dereference"])
p("C85","Annotations in schemas are ignored","A member of a schema that is not one of the keywords of the Instance type changes nothing in what is decoded, whatever its value and place; likewise members of transform sections, their entries and operations that are not documented. (Refuted: encoding/json matches names regardless of case, so Description beside description replaces it and a string under Type makes the schema invalid, while the walkers look at exact names.)","every schema object, every member name and value and every case folding","names, values and places of annotations are unbounded; tests use well-formed keywords",[J+"schema.go: Instance, UnmarshalJSON",T+"transform.go: transformInstructions.UnmarshalJSON, transformInstruction.UnmarshalJSON"])
p("C86","What is returned can be written as JSON","A document that Transform or TransformNoValidation returns has no NaN, infinity, XML node or time whose year is not one of 0 to 9999, and no object with two members of the same name; a call fails when the document it would return has one of these (for example if a number is given as the string NaN) or is deeper than the stack allows, and writing the document is refused for no other reason.","every schema, document, history and map order","values that cannot be written arise from strings, operations and defaults in unbounded ways",[T+"transformer.go: baseJSONTransform, baseXMLTransform",T+"instance.go: scalar"])
p("C87","Rename flags are shown as they were set","The text shown for rename flags lists each pair once as -key=value and nothing else, whatever the order of the map; different flags are shown differently; and giving the text as a flag sets the same pairs.","every set of rename flags and map order","all strings and map orders",["main.go:mapFlags.String","main.go:mapFlags.Set"])
open('/verif/properties.jsonl','w').write(''.join(json.dumps(x)+'\n' for x in P))
print(len(P))

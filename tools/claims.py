c('C01','proved',['C01_first_value'],'')
c('C02','partial',['C02_last_first_use','C02_last_later_uses_partial','C18_history_refuted'],'The property is false of the code: each evaluation of a `last` transform reverses its stored entry list, so odd-numbered evaluations return the earliest value. Proved: correct on the first evaluation, and the exact parity behaviour afterwards.')
c('C03','proved',['C03_concatenate','C03_concatenate_error'],'')
c('C04','proved',['C04_convert_type','C04_convert_null'],'')
c('C05','proved',['C05_int_string_int','C05_bool_string_bool','C05_convert_idempotent'],'Idempotence is claimed and proved for boolean, number, integer and string.')
c('C08','proved',['C08_duration','C08_duration_exact','C08_duration_other'],'')
c('C09','proved',['C09_split','C09_split_leftmost','C09_split_characters','C09_split_other'],'')
c('C10','partial',['C10_exactly','C10_max_partial','C10_max_no_positive_partial','C10_max_refuted','C10_max_bad_item','C10_not_an_array'],'Proved when some by value is positive; false otherwise: the first item is returned. C10_exactly says exactly when the item picked has the largest value.')
c('C11','partial',['C11_operations_crash_only_partial','C11_operations_never_crash_refuted'],'Exact characterisation of the only crash: max on an empty array.')
c('C12','proved',['C12_operation_accepted','C12_transform_accepted','C12_section','C12_section_refused'],'C12_section is for any JSON value; C12_transform_accepted spells it out for sections written in full. Operations without arguments accept any argument map.')
c('C06','proved',['C06_transform_error','C06_transform_wins','C06_own_value','C06_default_json','C06_default_xml','C16_projection'],'Stated for the evaluation of a scalar node in any state of the transformer; C16_projection gives the end-to-end form for whole documents.')
c('C07','partial',['C07_exactly','C07_failed_conversion_partial','C07_failed_conversion_refuted'],'False of the code for booleans: an unparsable string at a boolean field makes Transform fail. Proved: the default is used in all other cases, and exactly that case fails.')
c('C13','partial',['C13_relative_paths_anchored','C13_root_array_object_items_refuted'],'Proved for all schemas with well-formed names, where the anchor of a root array\'s object items is the empty path: there relative paths select nothing (refuted).')
c('C14','proved',['C14_paths_of_nested_items','C14_items_of_arrays'],'')
c('C15','partial',['C15_save_partial','C15_save_at_names_partial','C15_save_at_index_partial','C15_save_never_crashes_refuted','C15_replaced_refuted'],'False of the code: saving at an index of a member that holds no array crashes, and an item that changes its kind loses its content. C15_save_partial settles every path of members and indices in a document whose parts are not shared: exactly when saving fails or crashes, what reads back, and that every path that parts from it at a member or an index is kept. Missing: documents that share parts (C15_save_at_names_partial and C15_save_at_index_partial allow sharing, for simpler paths).')
c('C16','proved',['C16_projection','C16_selection'],'Property names are identifiers; paths given to the JSONPath library are interpreted by an oracle with the listed hypotheses.')
c('C17','partial',['C17_C18_same_answer_partial','C67_same_answer','C66_same_answer','C82_same_answer_partial','C17_deterministic_refuted'],'False in general: array transforms are saved into the input while it is processed, so their readers depend on map order. Proved for tame schemas (no array/object transforms or defaults on objects and no `last`), and for array transforms and defaults that are separated (C67_same_answer).')
c('C18','partial',['C17_C18_same_answer_partial','C67_same_answer','C66_same_answer','C82_same_answer_partial','C18_history_refuted'],'False in general (`last`, object defaults). Proved for tame schemas and for array transforms and defaults that are separated (C67_same_answer).')
c('C19','partial',['C19_C20_items_independent_partial','C19_nested_arrays_partial','C19_items_independent_refuted'],'False in general: object defaults are shared by the items. Proved for schemas without object and array transforms and defaults, for root arrays (C19_C20_items_independent_partial) and for arrays anywhere, also arrays in arrays (C19_nested_arrays_partial).')
c('C20','proved',['C20_array_result','C20_array_succeeds','C20_array_fails','C19_C20_items_independent_partial'],'Stated for the evaluation of an array node on an input array, JSON.')
c('C21','partial',['C21_exact','C21_delivered','C21_delivered_total','C21_selected_array_partial','C21_selected_array_refuted'],'False for a selected array that is empty or whose single item is null or an array. C21_exact proves that it holds for exactly the others; C21_delivered says for every selected value what is iterated over instead.')
c('C22','proved',['C22_validated'],'The validator is an oracle.')
c('C23','partial',['C23_no_crash_partial','C23_shallow_documents','C23_no_crash_xml_partial','C23_no_crash_refuted','C23_save_crash_refuted','C23_bad_xpath_refuted'],'False: `max` on an empty array, saving a default below a wrapped object, and XPaths that the XPath library does not compile crash. Proved for tame schemas without `max`; for XML documents if all XPaths compile.')
c('C24','proved',['C24_accepted','C24_mirrors_schema','C24_one_instance_per_location','C24_rejected'],'For schemas whose property names are well formed.')
c('C25','partial',['C25_nothing_selected','C25_relative_partial','C25_single_leaf','C25_relative_refuted'],'False if the only selected node is an element without child elements; proved in all other cases for one selector.')
c('C26','proved',['C26_texts_joined','C26_first_node'],'')
c('C55','proved',['C55_undoes_substitution','C55_idempotent','C55_replaces','C55_keeps'],'')
c('C27','proved',['C27_type_list','C27_order_irrelevant','C27_single_or_missing'],'Type lists containing the empty string as a name are excluded; a list without any non-null name yields the empty type and no error.')
c('C28','proved',['C28_walk_raw','C28_walk'],'For schemas whose property names are distinct and not empty.')
c('C29','partial',['C29_walks_agree_partial','C29_exactly','C29_decodes','C29_walks_agree_refuted'],'False: an instance whose additionalProperties is a schema is walked by WalkRaw and rejected by Walk. Proved if every instance has one type and decodes into an Instance; and if every instance has one type, Walk succeeds exactly if WalkRaw does and every member that is read is null or of the kind its field holds.')
c('C30','proved',['C30_flattened','C30_no_type'],'With no requested type, oneOf members written in place (not by reference) are merged as well.')
c('C31','partial',['C31_own_properties','C31_exactly','C31_first_member_partial','C31_all_members_refuted'],'First half proved. The second half is false: only the first allOf member is merged, because merging it gives the schema own properties. C31_exactly says exactly when this loses nothing.')
c('C32','proved',['C32_no_reference','C32_loaded_schema','C32_nested_arrays_refuted'],'The search does not reach references inside arrays of arrays; those are left (refutation of the unrestricted claim).')
c('C33','partial',['C33_replaced_partial','C33_meaning_partial','C33_escapes_refuted','C33_top_refuted'],'Proved per reference, and for whole documents without reference cycles, if strings are written without escapes and the top is not itself a reference; false otherwise: escaped strings beside a reference are escaped again, a reference at the top is dropped.')
c('C34','partial',['C34_document_partial','C34_files_partial','C34_cycle_never','C34_endless_never','C34_endless_references_never','C34_endless_file_never','C34_terminates_refuted','C34_files_refuted'],'False for references that form a cycle (document and file level). Proved for acyclic references to existing objects; a file that leads to a cycle of files is never loaded (C34_cycle_never, for references that are not inside another reference), nor is a document with local references that go round in a circle, of any length (C34_endless_references_never), unless a member beside a reference hides the way.')
c('C37','partial',['C37_exactly','C37_keys_partial','C37_keys_refuted'],'Proved for types without a vertical bar; false in general. C37_exactly says exactly which requests share a key.')
c('C35','proved',['C35_at_most_once','C35_no_second_build','C35_independent'],'For any number of loads and any interleaving. A load of a key waits only for loads of the same key and for the loads their builders make.')
c('C36','proved',['C36_value','C36_failure','C36_builds_again','C36_own_result'],'singleflight Group.Do is modelled by its documented critical sections.')
c('C38','partial',['C38_returns_partial','C38_cycle_never','C38_returns_refuted'],'Proved if the files reference each other without a cycle; false otherwise: every load of a file on a cycle deadlocks.')
c('C39','partial',['C39_file','C39_one_each','C43_own_types_partial','C39_flat_one_each'],'For every schema without arrays of arrays, whose names have no dot or bracket and whose Go names do not collide, the generated text (before gofmt) is the declared struct (C39_file), or the declared structs if structs are not nested (C43_own_types_partial). Arrays of arrays violate it (C42), colliding Go names too (C40).')
c('C40','partial',['C40_deterministic_partial','C40_flat_deterministic_partial','C40_collision_refuted'],'False if two properties of an object have the same Go name; proved for distinct Go names and, if structs are not nested, distinct type names, without arrays of arrays.')
c('C41','partial',['C41_scalar_line','C41_object_line','C41_object_pointer_refuted','C41_null_array_refuted'],'Proved for scalars (nested structs) and objects with fields (structs not nested); other cases are part of the declarations in C39_file and C43_own_types_partial. False for not required objects with the pointers option (nested structs), and a nullable array gets pointer items.')
c('C42','partial',['C42_depth_refuted','C42_never'],'False: an array of arrays is not generated as a slice of slices (C42_depth_refuted), and no field of any generated struct ever is one (C42_never). Arrays of other values: C39_file.')
c('C43','partial',['C43_own_types_partial','C43_one_each','C43_types_declared','C43_shared_refuted','C43_types_declared_refuted'],'False: the name of a type is made by putting names together, and two ways can give the same name. Proved for schemas where this does not happen: one struct for each object. A pointer to an object without properties refers to a type that is not declared.')
c('C44','partial',['C44_rejected','C44_not_nested_refuted'],'Rejection proved for every instance anywhere in the schema, except that without nested structs a union with object is accepted (refuted). Acceptance: C39_file.')

c('C45','partial',['C45_exactly','C45_within_partial','C45_monotone_partial','C45_exact_partial','C45_zero_refuted','C45_optional','C45_slice','C45_optional_slice','C45_optional_slice_nil'],'Within a millisecond, monotone and exact for instants whose nanoseconds fit an int64 (years 1678 to 2262). False outside, for every instant (C45_exactly); the zero time.Time wraps (C45_zero_refuted). Optional and slice variants proved for every input.')
c('C48','proved',['C48_order','C48_all','C48_one_error','C48_closed_last','C48_never_blocks','C48_ends','C48_ends_error'],'State machine of the goroutine, the request channel and the error channel with every interleaving and every failure of the container; the container writer itself is an oracle.')
c('C49','proved',['C49_write','C49_delete','C49_nil'],'The container writer is an oracle: whether its calls fail.')
c('C52','proved',['C52_flag','C52_cases','C52_flags','C52_error'],'package flag itself (finding the flags on the command line) is not modelled.')
c('C56','proved',['C56_scalar','C56_total','C56_taken'],'The Go library (strconv.ParseFloat, time.Parse) is an oracle; arrays nested deeper than the stack are excluded.')
c('C57','proved',['C57_change_case','C57_camel_case','C57_remove_html','C57_inverse','C57_value_exists','C57_replace','C57_time_parse','C57_current_time','C57_strings_only','C57_to_float','C57_to_int','C57_to_bool'],'Changes of case are stated for ASCII strings; regular expressions, time formats, the HTML sanitizer and float parsing are oracles. split, max and duration: C08-C10.')
c('C58','proved',['C58_json','C58_xml','C58_one_outcome'],'Which value a path selects: C13-C15. XPath evaluation is an oracle.')
c('C46','partial',['C46_file_partial','C46_doubled_refuted','C46_trailing_refuted','C46_escape_refuted'],'The file is the JSON text of the schema the struct stands for, whatever the nesting and embedding, unless: a left-out field is the last of its struct (doubled comma), an embedded or the root struct has no fields (trailing comma), or a description has control characters (escapes JSON does not have). In these cases it is not JSON (refuted). Structs embedded twice: C59.')
c('C47','partial',['C47_type_partial','C47_array_lost','C47_nullable_refuted','C47_recursive_refuted'],'Every type is written as the Avro type it stands for, with a union with null for optional fields except arrays, maps and booleans (these are never null, refuted); recursive types make generation loop (refuted); types declared as arrays of structs, which generation does not produce, are written as one record (C47_array_lost).')
c('C54','proved',['C54_fields','C54_one'],'For embedded types that are structs.')
c('C59','partial',['C59_twice_refuted','C59_lost_refuted','C46_file_partial'],'False: fields of structs embedded two levels down are duplicated, structs embedded in two places lose their fields in the second. C46_file_partial gives the exact fields for structs embedded once.')
c('C50','partial',['C50_scalar_partial','C50_time_partial','C50_any_partial','C50_object_partial','C50_list_scalar_partial','C50_list_object_partial','C50_null_refuted','C50_required_refuted'],'False as stated: without pointers nullable strings are written String!, optional fields are written non-null, required times and unknown objects are written nullable. The _partial theorems say, for each kind of property, exactly when the mark is written. For schemas without oneOf/allOf and types named in the schema; not nested mode.')
c('C51','partial',['C51_one_line','C51_lines','C51_refuted','C51_unread_refuted'],'False for descriptions with quotes, backslashes, three quotes, blank first or last lines or only indented lines, since nothing is escaped. For one line and for several lines the conditions are exact (iff).')
c('C60','partial',['C60_document_partial','C60_types_written','C60_one_each','C60_totals_refuted','C60_shared_refuted','C60_embed_refuted'],'For schemas that generation can handle (doc_parts: JSON names and Go names differ, no arrays of arrays, NoNestedStructs) and without EmbedAllOf. False in general: a property totalX collides with the total of the list x and the result then depends on the map order; two objects may share a type; with EmbedAllOf fields leak into the types of later oneOf members.')
c('C61','partial',['C61_exactly','C61_implements_partial','C61_name_refuted','C61_redeclared_refuted'],'False if the package is not named as the schema (the interface is declared under another name) or if a member redeclares a property of the interface with another type. C61_exactly: for fields that are not redeclared the agreement of the names is also necessary, if members of oneOf have no oneOf.')
c('C62','partial',['C62_types_there_partial','C62_embed_refuted'],'False with EmbedAllOf.')
c('C63','partial',['C63_go_partial','C63_members_partial','C63_members_refuted'],'Proved for schemas on their own and for schemas made of others whose allOf has at most one member, apart from types named in the schema. False with two members of allOf: the types for objects of the second are bound to structs named after the first, which nobody makes (a TODO in graphql.go says so).')
c('C53','partial',['C53_files_partial','C53_names','C53_needs_files','C53_inline_refuted','C53_same_refuted','C53_empty_refuted'],'Which files BuildStructs writes and their exact text, for members named by distinct file references; the set of file names on every success. Every member must be a reference to a readable, valid file (C53_needs_files). Refuted: inline members end with an error, members with the same base name share one file, and a member without properties gets a file without a struct. The GraphQL, Avro and MessagePack steps of BuildStructsWithArgs are in C76; gofmt is an oracle.')
c('C64','partial',['C64_fields_partial','C64_avro_names_refuted','C64_nil_item_refuted'],'For structs and Avro packages whose types fit (relation fits of SpecMapper: scalars, times, slices, unions of null, structs, slices of structs, embedded structs at the top) and unless two slices share a function name. False in general: a field whose name starts with Avro is dropped as if it were metadata; a nil item in a slice of pointers to structs panics. The Go types and the run of the expressions are a model of the Go language for the code the generator writes.')
c('C65','partial',['C65_compiles_partial','C65_nullable_refuted','C65_reserved_refuted','C65_same_name_refuted','C65_unprinted_refuted','C65_required_null_refuted','C65_embedded_refuted'],'Holds for the types of the relation fits. False in general: a nullable string, number or boolean gives a pointer for a value; an optional field with a reserved name reads a field which does not exist; two arrays of objects with the same name define a function twice; arrays of objects with nullable times or arrays of times lose these fields in the type of the function; a required nullable object has a closure without a type name; an embedded struct below the top is an error, since its file is looked for below the path of another file.')
c('C66','proved',['C66_document','C66_root_array','C66_same_answer'],'XPath selection and text extraction are oracles; XPaths contain no dollar sign (JSONPath index substitution would rewrite them). Schemas with object defaults are outside: those defaults are shared between calls (C17/C18 refutations).')
c('C67','proved',['C67_document','C67_same_answer'],'For schemas given by Properties whose arrays with transforms or defaults are not inside other arrays, whose objects have neither, whose last sections have at most one entry and whose paths are plain. Without the separation of the parts the result depends on the map order: C17_deterministic_refuted. Arrays inside arrays: C23_save_crash_refuted shows that they can crash.')
c('C68','partial',['C68_nested_partial','C68_flat_partial','C68_identifier_refuted','C68_backquote_refuted','C68_injected_refuted'],'For schemas whose Go names are identifiers (ASCII) and whose names and descriptions have no backquotes and null characters. False in general: a name like first-name gives text that is not Go (generation then fails in go/format), and with descriptions in tags a backquote in a description does the same or adds fields to the struct. The scanner and parser are modelled for the part of Go that these files use.')
c('C69','partial',['C69_nested_partial','C69_flat_partial','C69_tag_partial','C69_exactly','C69_read_back','C69_escaped','C69_quote_refuted','C69_backslash_refuted'],'False for descriptions with double quotes (cut off) or backslashes (may be lost), since nothing is escaped. C69_exactly: without backslashes exactly what is before the first double quote is found. C69_read_back: exactly the first lines without double quotes and backslashes are read back; C69_escaped: with backslashes before quotes and backslashes the text without them is read.')
c('C70','partial',['C70_nested_partial','C70_flat_partial','C70_embeds_partial','C70_object_refuted','C70_nullable_refuted','C70_clash_refuted'],'With nested structs also for structs that embed others (C70_embeds_partial), each at most once. For names and descriptions that read back from tags and are ASCII. False in general: objects that are not required cannot be null (omitzero is not recognised), nor properties that are required and nullable; a property with the name of a struct makes the record of that struct have other fields. The file may be reformatted: it only has to have the same declarations.')
c('C71','partial',['C71_found_partial','C71_unknown','C71_missing','C71_other_refuted'],'The error case is proved for every directory. False if a struct of the same file has a field of that name: it is taken instead, reduced to that field (ast.FilterPackage keeps it, and the first declaration is used). For Go files that only declare types.')
c('C72','partial',['C72_nested_partial','C72_flat_partial','C72_zero_refuted','C72_time_refuted','C72_map_refuted','C72_integer_refuted','C72_null_refuted','C72_underscore_refuted','C72_case_refuted'],'What comes out is stated for every document of the schema, member by member. False as stated: values of properties that are not required are left out if false, zero or empty; a missing time comes out as one of the year 1 unless it is a pointer; objects without properties only take strings; integers with a fraction or beyond 64 bits are errors; null items become zero values; names with an underscore first are lost; members whose names differ in case replace each other. Without embedded structs; encoding/json after scanning.')
c('C73','proved',['C73_keywords'],'Member names are matched exactly; encoding/json also takes names that differ only in case.')

c('C74','partial',['C74_documents_partial','C74_empty_refuted','C74_names_refuted','C74_descriptions_refuted','C74_nested_refuted'],'For the schemas of C60, if names are GraphQL names, descriptions are as in C51, every written type has a field, reasons and import paths are printable ASCII, and the types and arguments given as text in the schema are GraphQL. False otherwise: a schema without properties gives a type with empty braces, a property name with a dash or a quote in a description gives a file that is no document, and without NoNestedStructs objects are written as blocks that GraphQL does not have.')

c('C75','partial',['C75_program_is_call','C75_independent_partial','C75_as_alone_partial','C75_as_alone_arrays_partial','C75_nothing_changed','C75_no_common_writes','C75_all_return','C75_object_default_refuted','C75_last_refuted'],'False in general: an object given as default is filled in by all calls, and `last` with two or more entries reorders them for all calls. Proved if `last` has at most one entry and either the only defaults are scalars and empty arrays, or they are scalars and arrays of scalars and (for JSON) no array lies in an array; other array defaults are missing. Every access is one step: a map or array is stored or read at one moment, and so is the list of entries. (For `last` with one entry the code stores an equal list, which Go counts as a data race.)')
c('C76','partial',['C76_plain','C76_no_schema','C76_only_these','C76_stops','C76_graphql','C76_no_graphql','C76_avro_partial','C76_relative_refuted','C76_atomic_refuted','C76_letters_refuted','C76_renamed_refuted','C76_twice_refuted'],'Which files may change, where a failed run stopped and the GraphQL files: proved for every schema, option and behaviour of the generators behind it. Avro schemas: proved for nested structs whose names do not clash, each embedded at most once and found in the file named after it. False in general: a relative path into another directory fails with GraphQL, a failed run leaves files, struct names that differ in letters only share their Avro files, a renamed member of allOf is not found by those that embed it, and its fields can be there twice. Writing files is taken to succeed; gogen-avro and msgp are oracles.')
c('C77','partial',['C77_runs','C77_determined','C77_usage','C77_paths','C77_help','C77_bad','C77_build_structs','C77_order_refuted','C77_switch_value_refuted','C77_extra_refuted'],'proved for every command line; refuted: options after the path of the schema are not read, a switch cannot be given as "-name value", and arguments after the output directory are silently ignored')
c('C78','partial',['C78_writes','C78_only_these','C78_point','C78_repeat_partial','C78_forgets','C78_avro_refuted','C78_msgp_refuted'],'Which files are touched and what is complete: proved for every crash point. That a repetition ends as if nothing had happened: proved without Avro, and with MessagePack if its own files were not begun. False with Avro, because the types of a member are looked up in all Go files of the directory and one that was cut off cannot be parsed, and with MessagePack for the same reason; a repetition with Avro after an interruption that left no file in part is not treated. The repetition is taken to meet the maps in the same order; a run that is interrupted is one that would end.')
c('C79','proved',['C79_accepts','C79_rejects','C79_same_text','C79_shared'],'What the JSON schema library finds is an oracle; sort.Slice is any sorting; result.Errors() is taken to give the slice itself and not a copy, as it does in gojsonschema. Systems other than Windows.')
c('C80','proved',['C80_json','C80_xml','C80_member','C80_left'],'A document of one user shows up in the output for another: the default is a Go map that the code fills in place. Calls that fail half-way leave a part of their values and are not in the histories; objects with defaults inside arrays and inside other objects with defaults are not covered (C19 for arrays).')
c('C81','proved',['C81_reported'],'Stated as: the answer is never a schema. That it is an error and that loading returns at all is C34, where cycles are the exception. A place of the document that is below another reference counts only once that one is replaced and is left out; reading files and URLs and checking schemas are oracles.')
c('C82','partial',['C82_document_partial','C82_any_time_partial','C82_same_answer_partial','C82_only_properties_refuted','C82_deterministic_refuted'],'Proved for transforms with one entry without operations on objects outside arrays and without defaults, when nothing that is read contains a selected object or is part of a member that is replaced (without that the output depends on the order of maps: C82_deterministic_refuted). Missing: transforms of objects that are items of arrays, several entries or operations, documents with an array in a selected place (there the first item is taken, C82_run). Members that the schema does not mention come through to the output (C82_only_properties_refuted).')
c('C83','partial',['C83_no_failures','C83_reported_partial','C83_success_partial','C83_go_files_partial','C83_lost_field','C83_close_refuted','C83_lost_refuted'],'Every failure is reported except for two kinds of calls whose results the code drops: closing a Go file, and writing a piece of an Avro schema. Without these, and without Avro and MessagePack up to Go files that could not be closed, a run that reports success has made the files of a run in which nothing fails. For every struct with fields of simple types two failures in a row (a field and the comma after it) leave the complete Avro schema of the struct without the field, and gogen-avro and the helpers are then made from that (C83_lost_refuted). gogen-avro and msgp are taken to report their own failures; reading is taken to succeed.')

c('C84','proved',['C84_run','C84_command'],'Broken means: the file is missing, cannot be decoded or has a reference to nothing, directly or through the files it refers to. Every run that ends returns an error; out-of-fuel (an endless load) is the only other possibility.')
c('C85','partial',['C85_ignored','C85_exact','C85_variant','C85_variant_type','C85_section_ignored','C85_section_exact','C85_section_variant','C85_ignored_refuted','C85_agree_refuted'],'Members whose names match no keyword in any case are ignored; with exact names the case-insensitive decoder agrees with that of the other models. Names that differ from a keyword in case only are taken for the keyword, except that a single type needs the exact name. The same is proved for transform sections (C85_section_*).')
c('C86','proved',['C86_returned','C86_exactly','C86_exactly_arrays','C86_exactly_xml'],'C86_returned holds for every schema, state and input. That nothing else is refused when writing is proved for the schemas of C16, C67 and C66. json.Marshal is modelled: what it refuses is tree_ok in Heap.v.')
c('C87','partial',['C87_shown','C87_determines_partial','C87_never_read_back','C87_blank_refuted','C87_read_back_refuted'],'What is shown: proved for every map and order. Different flags are shown differently if there are no blanks, and no = in keys; false otherwise. The text never sets the same flags when read (C87_never_read_back): keys get a hyphen.')

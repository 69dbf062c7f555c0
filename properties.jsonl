{"id": "C01", "title": "A generated $ref resolves to the definition of exactly that name", "statement": "Encoding a definition name for use in a `$ref` and resolving that `$ref` with Schema::pointer on a document that holds the definition finds that definition and no other.", "quantifier": "every definition name (any UTF-8 string), every definitions map, every definitions path made of plain segments", "why_tests_cant": "names come from user types and renames: any Unicode string; a test only tries a handful of them", "anchors": ["schemars/src/encoding.rs:encode_ref_name", "schemars/src/encoding.rs:percent_decode", "schemars/src/schema.rs:Schema::pointer", "schemars/src/generate.rs:find_ref"]}
{"id": "C02", "title": "Encoded reference names are legal URI fragments", "statement": "The encoded form of a definition name contains only characters RFC 3986 allows in a fragment, every '%' being followed by two hex digits, and contains no '/' (so it is a single JSON-pointer segment).", "quantifier": "every definition name (any UTF-8 string)", "why_tests_cant": "a single unlucky byte value breaks it; tests try a few names", "anchors": ["schemars/src/encoding.rs:encode_ref_name"]}
{"id": "C03", "title": "Percent decoding is total, exact and leaves plain text alone", "statement": "Percent decoding never panics, returns only valid UTF-8, is the identity on text without '%', replaces each '%' followed by two hex digits by that byte, and treats any other '%' literally.", "quantifier": "every UTF-8 string", "why_tests_cant": "the input is an arbitrary user string passed to Schema::pointer; slicing at byte 2 and radix parsing have rare edge cases", "anchors": ["schemars/src/encoding.rs:percent_decode"]}
{"id": "C04", "title": "pointer_mut is a lens: writes land where pointer reads, and nowhere else", "statement": "After writing a value through Schema::pointer_mut(p), Schema::pointer(p) reads that value, every pointer that diverges from p reads what it read before, and writing back the value read changes nothing; pointer_mut(p) is Some exactly when pointer(p) is Some.", "quantifier": "every schema, every pointer string (raw or '#' fragment form), every written value", "why_tests_cant": "pointer syntax and document shape are both unbounded", "anchors": ["schemars/src/schema.rs:Schema::pointer", "schemars/src/schema.rs:Schema::pointer_mut"]}
{"id": "C05", "title": "Schema edit methods behave as a finite map and boolean schemas convert faithfully", "statement": "insert/get/get_mut/remove satisfy the finite map laws over any sequence of edits; a boolean schema that is forced into object form by an edit accepts exactly the same instances as before the edit.", "quantifier": "every schema, every key, every value, every sequence of edits", "why_tests_cant": "laws over histories of edits and over every instance validated", "anchors": ["schemars/src/schema.rs:Schema::insert", "schemars/src/schema.rs:Schema::get", "schemars/src/schema.rs:Schema::remove", "schemars/src/schema.rs:Schema::ensure_object"]}
{"id": "C06", "title": "A Schema is always a boolean or an object", "statement": "Converting or deserializing a JSON value into a Schema succeeds exactly for booleans and objects and round-trips; and no sequence of safe Schema operations (apart from writing a non-schema through a value pointer) can leave a Schema holding any other kind of value, so the internal unreachable!() cannot fire.", "quantifier": "every JSON value; every sequence of Schema operations", "why_tests_cant": "an invariant over all operation histories", "anchors": ["schemars/src/schema.rs:validate", "schemars/src/schema.rs:TryFrom<Value>", "schemars/src/schema.rs:try_to_object"]}
{"id": "C07", "title": "Serializing a schema reorders keywords but loses, adds and renames nothing", "statement": "The JSON text emitted for a schema denotes the same JSON value as the schema (every key exactly once, recursively); well known keywords come first in the fixed order, definitions last, and the contents of properties maps, defaults, examples and x- extensions keep their order.", "quantifier": "every schema, of any depth", "why_tests_cant": "unbounded nesting and arbitrary keyword sets", "anchors": ["schemars/src/schema.rs:ser", "schemars/src/schema.rs:OrderedKeywordWrapper"]}
{"id": "C08", "title": "No dangling references", "statement": "Every reference returned by subschema_for while a root schema is generated resolves, in the returned document, to a definition; that definition is the one generated for the requested type.", "quantifier": "every finite or infinite family of JsonSchema implementations, every generation history on the generator, every non-degenerate definitions path", "why_tests_cant": "depends on arbitrary user implementations and on the whole call history of the generator", "anchors": ["schemars/src/generate.rs:SchemaGenerator::subschema_for", "schemars/src/generate.rs:insert_new_subschema_for", "schemars/src/generate.rs:add_definitions", "schemars/src/generate.rs:root_schema_for"]}
{"id": "C09", "title": "Types with different ids never share a definition", "statement": "During the life of a generator two types with different schema_id get different definition names, whatever their schema_names, and the definition stored under a name was produced by the type owning the name.", "quantifier": "every family of JsonSchema implementations (including clashing and adversarial names such as Foo2), every call history", "why_tests_cant": "name collisions depend on order and on the history of calls", "anchors": ["schemars/src/generate.rs:find_ref", "schemars/src/generate.rs:schema_id_to_name", "schemars/src/generate.rs:used_schema_names"]}
{"id": "C10", "title": "The name chosen is the schema name or its first free numbered variant, and the search terminates", "statement": "A newly referenced type gets its schema_name if free, otherwise schema_name followed by the least integer >= 2 that makes it unused; the search always stops.", "quantifier": "every set of used names, every schema name", "why_tests_cant": "loop over an unbounded set of used names", "anchors": ["schemars/src/generate.rs:find_ref"]}
{"id": "C11", "title": "References are stable and repeated requests are free of effects", "statement": "Once subschema_for has returned a reference for a type, every later subschema_for of that type on that generator returns the same reference, and does not run the type's implementation again nor change the definitions, unless definitions were taken.", "quantifier": "every call history", "why_tests_cant": "history property", "anchors": ["schemars/src/generate.rs:SchemaGenerator::subschema_for"]}
{"id": "C12", "title": "Definitions are written once and no placeholder survives", "statement": "A completed definition is never overwritten by later generation; when the outermost generator call returns, every definition it registered holds the generated schema rather than the temporary placeholder.", "quantifier": "every family of JsonSchema implementations (recursive, mutually recursive, nested generics), every call history", "why_tests_cant": "mutual recursion of arbitrary shape", "anchors": ["schemars/src/generate.rs:insert_new_subschema_for"]}
{"id": "C13", "title": "Generator bookkeeping is restored by every call", "statement": "The set of types being generated and the stack of root types are the same after each generator call as before it (for the calls that borrow the generator), whatever calls are nested inside.", "quantifier": "every call tree", "why_tests_cant": "nesting of calls is unbounded", "anchors": ["schemars/src/generate.rs:json_schema_internal", "schemars/src/generate.rs:root_schema_for"]}
{"id": "C14", "title": "Schema generation terminates on recursive types", "statement": "Generating a schema for a finite family of types terminates provided every reference cycle goes through a type that is not always inlined; with inline_subschemas set it terminates for every finite family whose always-inline types are acyclic.", "quantifier": "every finite family of types, every recursion pattern, every generator state", "why_tests_cant": "termination is not testable", "anchors": ["schemars/src/generate.rs:subschema_for", "schemars/src/generate.rs:json_schema_internal"]}
{"id": "C15", "title": "root_schema_for, into_root_schema_for and repetition agree", "statement": "For a generator in any state, into_root_schema_for::<T>() returns the same schema root_schema_for::<T>() would, and generating the same root twice returns the same schema.", "quantifier": "every family of types, every generator state reached by any history", "why_tests_cant": "equality of two code paths over all states", "anchors": ["schemars/src/generate.rs:root_schema_for", "schemars/src/generate.rs:into_root_schema_for"]}
{"id": "C16", "title": "\"$ref\": \"#\" denotes the root type", "statement": "In the document returned for root type T every generated reference \"#\" was requested for T itself.", "quantifier": "every family of types, every history on one generator", "why_tests_cant": "depends on what was generated earlier on the same generator", "anchors": ["schemars/src/generate.rs:find_ref", "schemars/src/generate.rs:root_schema_id_stack"]}
{"id": "C17", "title": "A cloned generator is as good as the original", "statement": "A clone of a generator returns references that resolve to the definitions of the requested types, like the original.", "quantifier": "every history before the clone and every history after", "why_tests_cant": "history property", "anchors": ["schemars/src/generate.rs:Clone for SchemaGenerator"]}
{"id": "C18", "title": "Definitions are placed at the configured path and nothing else is touched", "statement": "When a root schema is finished all definitions are found under the configured definitions path (created if missing), anything already there or elsewhere in the schema is kept.", "quantifier": "every root schema, every definitions map, every definitions path string", "why_tests_cant": "path strings and schemas unbounded", "anchors": ["schemars/src/generate.rs:add_definitions", "schemars/src/generate.rs:json_pointer_mut"]}
{"id": "C19", "title": "take_definitions empties the generator and later references are re-registered", "statement": "take_definitions returns exactly the definitions present, leaves none, and a later reference to a type gets the same name and is registered again.", "quantifier": "every history", "why_tests_cant": "history property", "anchors": ["schemars/src/generate.rs:take_definitions"]}
{"id": "C20", "title": "Inlining settings are honoured", "statement": "With inline_subschemas, or for always-inline types, subschema_for returns a reference only to break a cycle (the type is already being generated) or, never, for always-inline types; no other definitions appear.", "quantifier": "every family of types, every history", "why_tests_cant": "arbitrary nesting", "anchors": ["schemars/src/generate.rs:find_ref"]}
{"id": "C21", "title": "Exactly the needed definitions are generated", "statement": "The definitions held by the generator are exactly those of the types for which a (non-root) reference has been returned.", "quantifier": "every family of types, every history without take_definitions", "why_tests_cant": "history property", "anchors": ["schemars/src/generate.rs:subschema_for"]}
{"id": "C22", "title": "transform_subschemas visits each subschema once and touches nothing else", "statement": "transform_subschemas applies the transform to each direct subschema of the documented keywords exactly once, in order, and leaves every other part of the schema unchanged.", "quantifier": "every transform (pure or stateful), every schema", "why_tests_cant": "higher-order: quantifies over all transforms", "anchors": ["schemars/src/transform.rs:transform_subschemas"]}
{"id": "C23", "title": "RecursiveTransform reaches every subschema, parents first", "statement": "A recursive transform is applied to the schema and then to every nested subschema of the (already transformed) schema.", "quantifier": "every transform that does not deepen schemas, every schema", "why_tests_cant": "unbounded depth and arbitrary closures", "anchors": ["schemars/src/transform.rs:RecursiveTransform"]}
{"id": "C24", "title": "ReplaceBoolSchemas removes boolean subschemas and changes no validation result", "statement": "After the transform no boolean subschema remains at visited positions (except additionalProperties when so configured), and every instance is accepted or rejected as before.", "quantifier": "every schema, every instance, every interpretation of references", "why_tests_cant": "all schemas times all instances", "anchors": ["schemars/src/transform.rs:ReplaceBoolSchemas"]}
{"id": "C25", "title": "RemoveRefSiblings leaves $ref alone in its object and means the same to a validator that ignores siblings", "statement": "After the transform any visited object holding $ref holds nothing else, and a draft-07 validator (ignoring siblings of $ref) accepts exactly what a 2020-12 validator accepted before.", "quantifier": "every schema, every instance", "why_tests_cant": "all schemas times all instances", "anchors": ["schemars/src/transform.rs:RemoveRefSiblings"]}
{"id": "C26", "title": "ReplaceConstValue removes const and changes no validation result", "statement": "After the transform no visited schema has const, and every instance is accepted or rejected as before.", "quantifier": "every schema, every instance", "why_tests_cant": "all schemas times all instances", "anchors": ["schemars/src/transform.rs:ReplaceConstValue"]}
{"id": "C27", "title": "ReplacePrefixItems turns 2020-12 tuples into draft-07 tuples with the same meaning", "statement": "After the transform no visited schema has prefixItems, and a draft-07/2019-09 validator accepts exactly what a 2020-12 validator accepted before.", "quantifier": "every schema, every instance", "why_tests_cant": "all schemas times all instances", "anchors": ["schemars/src/transform.rs:ReplacePrefixItems"]}
{"id": "C28", "title": "SetSingleExample only changes examples", "statement": "After the transform no visited schema has examples, example is the first one, and validation is unaffected.", "quantifier": "every schema, every instance", "why_tests_cant": "all schemas times all instances", "anchors": ["schemars/src/transform.rs:SetSingleExample"]}
{"id": "C29", "title": "AddNullable makes an OpenAPI 3.0 validator accept null exactly when 2020-12 did", "statement": "After the transform an OpenAPI 3.0 validator (understanding nullable, not understanding type arrays) accepts exactly what a 2020-12 validator accepted before.", "quantifier": "every schema, every instance", "why_tests_cant": "all schemas times all instances", "anchors": ["schemars/src/transform.rs:AddNullable"]}
{"id": "C30", "title": "ReplaceUnevaluatedProperties never rejects what was accepted", "statement": "Every instance accepted before is accepted after the transform, and no visited schema has unevaluatedProperties.", "quantifier": "every schema, every instance", "why_tests_cant": "all schemas times all instances", "anchors": ["schemars/src/transform.rs:ReplaceUnevaluatedProperties"]}
{"id": "C31", "title": "RestrictFormats keeps exactly the formats allowed", "statement": "After the transform a visited schema has a format only if it is allowed explicitly or defined by the inferred meta schema; everything else is unchanged; with an unknown or missing $schema no format is removed by inference.", "quantifier": "every schema, every configuration", "why_tests_cant": "all schemas", "anchors": ["schemars/src/transform.rs:RestrictFormats"]}
{"id": "C32", "title": "Built-in transforms are idempotent", "statement": "Applying a built-in transform twice is the same as applying it once.", "quantifier": "every schema", "why_tests_cant": "all schemas", "anchors": ["schemars/src/transform.rs"]}
{"id": "C33", "title": "The draft-07 settings produce draft-07 documents with the same meaning", "statement": "The transforms of SchemaSettings::draft07 turn a 2020-12 schema (of the generated shape) into one a draft-07 validator treats identically.", "quantifier": "every schema of the generated shape, every instance", "why_tests_cant": "composition of transforms over all schemas", "anchors": ["schemars/src/generate.rs:SchemaSettings::draft07"]}
{"id": "C34", "title": "The OpenAPI 3 settings produce OpenAPI 3.0 schemas with the same meaning", "statement": "The transforms of SchemaSettings::openapi3 turn a 2020-12 schema (of the generated shape) into one an OpenAPI 3.0 validator treats identically.", "quantifier": "every schema of the generated shape, every instance", "why_tests_cant": "composition of transforms over all schemas", "anchors": ["schemars/src/generate.rs:SchemaSettings::openapi3"]}
{"id": "C35", "title": "Option<T> accepts exactly null and what T accepts", "statement": "The schema generated for Option<T> accepts an instance exactly if it is null or the schema generated for T accepts it.", "quantifier": "every schema for T, every instance", "why_tests_cant": "all schemas times all instances", "anchors": ["schemars/src/_private/mod.rs:allow_null", "schemars/src/json_schema_impls/core.rs:Option"]}
{"id": "C36", "title": "Flattening a schema into another accepts the merged objects", "statement": "If two object schemas with disjoint properties accept two objects then the flattened schema accepts their union.", "quantifier": "every pair of object schemas of the generated shape, every pair of objects", "why_tests_cant": "all schemas times all instances", "anchors": ["schemars/src/_private/mod.rs:flatten", "schemars/src/_private/mod.rs:json_schema_for_flatten"]}
{"id": "C37", "title": "Variant tags are enforced", "statement": "A schema to which an internal tag was added accepts exactly the objects that carry the tag value and satisfy the rest of the schema.", "quantifier": "every object schema, every instance", "why_tests_cant": "all schemas times all instances", "anchors": ["schemars/src/_private/mod.rs:apply_internal_enum_variant_tag"]}
{"id": "C38", "title": "Validation attributes only touch schemas of the matching type", "statement": "length/range/pattern attributes insert their keyword exactly when the schema allows the matching instance type, and change nothing else.", "quantifier": "every schema, every attribute value", "why_tests_cant": "all schemas", "anchors": ["schemars/src/_private/mod.rs:insert_validation_property"]}
{"id": "C39", "title": "Doc comments are split into title and description without losing text", "statement": "The title/description derived from a doc comment never panics on any UTF-8 text, is trimmed, and keeps the words of the comment.", "quantifier": "every doc string", "why_tests_cant": "all strings", "anchors": ["schemars/src/_private/rustdoc.rs:get_title_and_description"]}
{"id": "C40", "title": "contains(...) produces a pattern matching exactly strings that contain the text", "statement": "The escaped pattern, read as a regular expression, is the literal text.", "quantifier": "every string", "why_tests_cant": "all strings", "anchors": ["schemars/src/_private/regex_syntax.rs:escape", "schemars/src/_private/mod.rs:must_contain"]}
{"id": "C41", "title": "A value validates against the schema inferred from it", "statement": "The schema produced by root_schema_for_value / schema_for_value! accepts the JSON the value serializes to.", "quantifier": "every serializable value", "why_tests_cant": "all values of the serde data model", "anchors": ["schemars/src/ser.rs:Serializer"]}
{"id": "C42", "title": "Values of standard library types validate against their schemas", "statement": "The JSON serde_json produces for a value of a supported standard type is accepted by the schema generated for the type.", "quantifier": "every type built from the supported constructors, every value of it", "why_tests_cant": "unbounded type nesting and all values", "anchors": ["schemars/src/json_schema_impls"]}
{"id": "C43", "title": "Integer schemas reject out of range numbers", "statement": "The schema of a fixed width integer type accepts no integer outside the type's range for the types which carry bounds, and never a negative number for unsigned types.", "quantifier": "every integer", "why_tests_cant": "all integers", "anchors": ["schemars/src/json_schema_impls/primitives.rs", "schemars/src/json_schema_impls/nonzero.rs"]}
{"id": "C44", "title": "Map schemas constrain keys and values", "statement": "The schema of a map type accepts an object exactly if its values are accepted by the value schema and its keys have the form the key type serializes to.", "quantifier": "every key kind, every value schema, every object", "why_tests_cant": "all objects", "anchors": ["schemars/src/json_schema_impls/maps.rs"]}
{"id": "C45", "title": "schema_id determines the schema", "statement": "Two types with the same schema_id have the same schema.", "quantifier": "every pair of types built from the supported constructors and derived types", "why_tests_cant": "quantifies over pairs of types of unbounded depth", "anchors": ["schemars/src/json_schema_impls", "schemars_derive/src/lib.rs:derive_json_schema"]}
{"id": "C46", "title": "Derived structs: serialized values validate", "statement": "For a derived struct (named fields with rename, default, skip, skip_serializing_if, flatten, deny_unknown_fields) each serialized value validates against the serialize-contract schema.", "quantifier": "every struct declaration, every value", "why_tests_cant": "all declarations times all values", "anchors": ["schemars_derive/src/schema_exprs.rs:expr_for_struct"]}
{"id": "C47", "title": "Derived enums: every value matches exactly one variant schema", "statement": "For a derived enum under each of the four representations the serialized value validates against the schema (for oneOf: matches exactly one branch).", "quantifier": "every enum declaration, every value", "why_tests_cant": "all declarations times all values", "anchors": ["schemars_derive/src/schema_exprs.rs:expr_for_enum"]}
{"id": "C48", "title": "required lists exactly the mandatory fields per contract", "statement": "A property is required by the deserialize schema iff deserialization needs it, and by the serialize schema iff serialization always emits it.", "quantifier": "every struct declaration, both contracts", "why_tests_cant": "all attribute combinations and field types", "anchors": ["schemars_derive/src/schema_exprs.rs:expr_for_struct", "schemars/src/_private/mod.rs:insert_object_property"]}
{"id": "C49", "title": "schemars attributes override serde attributes", "statement": "The effective attributes are the schemars ones plus those serde ones that are neither overridden nor unset; unrelated ones are dropped.", "quantifier": "every list of attribute items", "why_tests_cant": "all attribute lists", "anchors": ["schemars_derive/src/attr/schemars_to_serde.rs:process_attrs"]}
{"id": "C50", "title": "Validation attributes: precedence and exclusivity", "statement": "When the same constraint is given by several attributes, the first one in the order schemars, validate, garde is used, and at most one of pattern, regex and contains is in force at each level.", "quantifier": "every list of schemars, validate and garde attribute items, with any nesting of inner(...)", "why_tests_cant": "all attribute lists and nestings", "anchors": ["schemars_derive/src/attr/validation.rs:ValidationAttrs"]}
{"id": "C51", "title": "Root schemas add only a title and the meta schema", "statement": "root_schema_for::<T>() returns the schema T::json_schema returned, with \"$schema\" set to the configured meta schema (left alone when none is configured), \"title\" set to T's schema name unless the schema already has a title, definitions added at the definitions path, and nothing else changed; into_root_schema_for returns the same document.", "quantifier": "every type implementation, every generator state and settings without transforms", "why_tests_cant": "all implementations, settings and generator states", "anchors": ["schemars/src/generate.rs:root_schema_for", "schemars/src/generate.rs:into_root_schema_for"]}
{"id": "C52", "title": "With the default contract, what is written is accepted", "statement": "A document generated with the default settings (deserialize contract) accepts the JSON serde_json produces for each value of the type, if the type is written as it is read: one name per field and variant, skipped in both directions or none, and a field that may be left out may be missing.", "quantifier": "every type declaration that is written as it is read, every value", "why_tests_cant": "all declarations times all values", "anchors": ["schemars_derive/src/schema_exprs.rs:expr_for_struct", "schemars_derive/src/schema_exprs.rs:expr_for_enum", "schemars/src/generate.rs:Contract"]}
{"id": "C53", "title": "Every generated document is a well-formed JSON Schema", "statement": "The document that root_schema_for::<T>() returns on a new generator, and every schema in generator.definitions(), is a well-formed draft 2020-12 schema: each keyword has a value of the shape its meta-schema asks for (schemas where schemas are expected, non-empty arrays for allOf/anyOf/oneOf/prefixItems/enum, known type names without repetition, strings for $ref), no unknown use of a keyword, distinct keys, and type/enum/const do not contradict each other. Optional keywords (unevaluatedProperties, prefixItems, patternProperties) only appear if the declarations call for them.", "quantifier": "every program of struct and enum declarations with annotations for metadata and at least one variant left per enum, every type built from them and the standard types, every contract, inlining setting, meta-schema and definitions path in $defs, definitions or below a non-keyword", "why_tests_cant": "The repository's tests validate a fixed list of documents against the meta-schema; declarations nest without bound, and flattening merges arbitrary schemas.", "anchors": ["schemars/src/_private/mod.rs:flatten", "schemars/src/_private/mod.rs:allow_null", "schemars/src/generate.rs:root_schema_for", "schemars_derive/src/schema_exprs.rs:expr_for_enum", "schemars_derive/src/schema_exprs.rs:expr_for_struct"]}
{"id": "C54", "title": "Transforms only rewrite finished root documents", "statement": "Adding transforms to SchemaSettings changes nothing but the root schemas that are returned: for every type and every generator, whatever has been generated with it before, root_schema_for returns the document that the same generator without transforms would return, with the transforms applied to it once, in the order in which they were added. definitions() and subschema_for are not affected.", "quantifier": "every program of derived and standard types, every type, every generator state, every list of (stateful) transforms", "why_tests_cant": "Tests run particular transforms on particular types with a fresh generator; the claim is about any transform functions, any type graph and any history of the generator.", "anchors": ["schemars/src/generate.rs: SchemaSettings::with_transform, SchemaGenerator::root_schema_for, subschema_for, apply_transforms, definitions"]}
{"id": "C55", "title": "The settings of other drafts describe the same values", "statement": "schemars::generate::SchemaSettings::draft07(), draft2019_09() and openapi3() produce documents which accept, for a validator of that dialect, exactly the JSON values that the 2020-12 document for the same type accepts for a 2020-12 validator; so what serde_json produces for a value of the type is accepted by them too.", "quantifier": "every program and type in the supported fragment, every JSON value, every settings with the transforms of the draft", "why_tests_cant": "Tests compare documents to snapshots or validate a few values; the claim compares two validators on all JSON values for all types.", "anchors": ["schemars/src/generate.rs: SchemaSettings::draft07, draft2019_09, openapi3, take_definitions", "schemars/src/transform.rs", "schemars/src/consts.rs"]}
{"id": "C56", "title": "Rename format strings give the formatted name", "statement": "#[schemars(rename = \"...\")] with placeholders {T} for type or const params compiles exactly when the text is a template of Rust's format! whose placeholders are generic params, and then the type's schema name is that template with every placeholder replaced by the schema name of the type param or the value of the const param, doubled braces standing for single ones; a text without braces is the name as it is.", "quantifier": "every attribute text, every list of const and type params, every value of the params", "why_tests_cant": "The texts are arbitrary strings; the macro checks them by removing doubled braces and splitting, format! by scanning, and the two must agree on every string.", "anchors": ["schemars_derive/src/name.rs: get_rename_format_type_params", "schemars_derive/src/lib.rs: derive_json_schema (schema_name)"]}
{"id": "C57", "title": "Params left out of the schema id do not influence the schema", "statement": "The schema id of an instance of a generic derived type contains the const params and only some of the type params. Two instances that agree on those have the same schema: the type params left out (used only in PhantomData or in fields skipped for both contracts) do not influence it. Every type param that a field's type mentions otherwise, and every param that the schema name mentions, is in the id.", "quantifier": "every generic declaration (struct or enum of any shape and tagging), every two instantiations of its type params, every contract, generator state and behaviour of the implementations called", "why_tests_cant": "The claim compares all pairs of instances of all declarations; if it fails for a pair, the second instance silently gets the first one's schema.", "anchors": ["schemars_derive/src/bound.rs: find_trait_bounds, FindTyParams, needs_jsonschema_bound", "schemars_derive/src/lib.rs: derive_json_schema (schema_id)"]}
{"id": "C58", "title": "Metadata attributes and doc comments take effect with a fixed precedence", "statement": "On a container, variant or field, an `extend` item for a key decides that key of the schema; otherwise `example` items give \"examples\" (in order, without values that serde cannot serialize), #[deprecated] gives \"deprecated\": true, and an explicit `title` or `description` wins over the doc comment, whose lines are joined by newlines and split into title and description; empty texts are not written. Nothing else in the schema changes, and with no metadata the schema stays exactly as it was (also `true` and `false`). Transforms run after all of this, in the order written, each once. The order of items with different names does not matter, and schemars items come before serde ones. Generating the metadata never panics on UTF-8 doc comments.", "quantifier": "Every list of attribute items of schemars and serde attributes, doc comment lines, deprecation flag and schema they are applied to, on containers, variants and fields.", "why_tests_cant": "Items can be combined, repeated and ordered in unboundedly many ways, and doc comments are arbitrary text; the tests check particular combinations.", "anchors": ["schemars_derive/src/attr/mod.rs: CommonAttrs::populate, process_meta, add_mutators, is_default", "schemars_derive/src/attr/doc.rs: get_doc", "schemars/src/_private/mod.rs: insert_metadata_property", "schemars/src/_private/rustdoc.rs: get_title_and_description"]}
{"id": "C59", "title": "Exactly the well-formed attribute items are accepted, and the schemars source wins over serde's", "statement": "The derive macro reports no error for the metadata and source items of a field, variant or container exactly if every item has a known name; title, description, with, schema_with, crate, rename, inline are written at most once and in the right form; with and schema_with are not combined; extend keys do not repeat; example strings do not look like function paths; transforms are not strings that parse; and _unstable_ref_variants is on an enum. For accepted items the schema of a field or variant comes from the schemars `with` type or `schema_with` function if there is one, else from serde's `with` path; a container's rename, crate, inline and with are what was written.", "quantifier": "Every list of items in schemars and serde attributes, every answer of the parsers for paths, expressions and types.", "why_tests_cant": "The compile-fail tests show that particular wrong items are rejected; that no accepted combination is ambiguous or silently dropped ranges over all of them.", "anchors": ["schemars_derive/src/attr/mod.rs: CommonAttrs, FieldAttrs, VariantAttrs, ContainerAttrs, AttrCtxt, Drop", "schemars_derive/src/attr/parse_meta.rs: parse_name_value_expr, parse_name_value_lit_str, require_path_only, parse_extensions", "schemars_derive/src/attr/schemars_to_serde.rs: SERDE_KEYWORDS"]}
{"id": "C60", "title": "A JsonSchema_repr enum accepts exactly the numbers of its variants", "statement": "The schema (and the document of root_schema_for) of an enum derived with JsonSchema_repr accepts a JSON value if and only if it is a number equal to the discriminant of one of the enum's variants. In particular it accepts the number serde_repr writes for every variant.", "quantifier": "Every fieldless enum with a repr of up to 64 bits, every list of discriminants, every annotation on the enum, every state of the generator, every JSON value.", "why_tests_cant": "Tests compare one schema with a snapshot; which of the infinitely many JSON values are accepted (floats with integral value, strings, out of range numbers) is not settled by it.", "anchors": ["schemars_derive/src/schema_exprs.rs: expr_for_repr", "schemars_derive/src/lib.rs: derive_json_schema_repr_wrapper"]}
{"id": "C61", "title": "Types with serde's from, try_from and into have the schema of the type they are converted from or to", "statement": "For deserialization, the schema of a type with serde(from) or serde(try_from) accepts exactly what the schema of the type it is converted from accepts; for serialization, that of a type with serde(into) accepts exactly what the schema of the type it is converted into accepts. In the mode without a conversion the attribute has no effect. The document for serialization accepts everything that is written for values of a type with serde(into).", "quantifier": "Every declaration with one or both conversions, every program of types, every generator state and contract, every JSON value.", "why_tests_cant": "Tests check a few conversions; that the other type's schema is used in exactly the right mode, whatever the type's own fields and whatever the other type, ranges over all declarations and values.", "anchors": ["schemars_derive/src/schema_exprs.rs: expr_for_container", "schemars_derive/src/ast/mod.rs: Container"]}
{"id": "C62", "title": "A deserialize schema accepts only JSON that serde reads", "statement": "Every JSON value that validates against the document generated for a type under the deserialize contract (the default) is one from which serde reads a value of the type: required fields are present, unknown fields are absent where the type denies them, every part is read by the type of the part, and enum values name a variant that can be read. The validator checks integer and IP address formats; numbers written with a zero fraction (1.0) are not used in place of integers.", "quantifier": "all types built from the modelled standard types and derived structs, tuples and enums (recursive ones included) outside the listed exceptions, all JSON values of any depth, all validators that resolve references and check formats", "why_tests_cant": "The set of accepted JSON values is infinite for every type, and a schema that is too permissive passes every test that serializes a value and validates it.", "anchors": ["schemars/src/json_schema_impls/", "schemars_derive/src/schema_exprs.rs", "schemars/src/_private/mod.rs"]}
{"id": "C63", "title": "Validation attributes on fields are enforced by the generated document", "statement": "If a JSON value validates against the document generated for a type under the deserialize contract, then every field of every struct, tuple and variant found in it, at any depth, has a value that meets the field's validation attributes: lengths count characters or items, ranges bound numbers, patterns and contains constrain strings, inner constrains the items of collections. This holds for attributes on strings, numbers, integers (with bounds inside the type), collections of these and Options of these.", "quantifier": "all derived types (recursive ones included) outside the listed exceptions, all validation attributes that narrow the field's type, all JSON values of any depth, all validators that resolve references", "why_tests_cant": "All attribute combinations on all fields of all types at all depths, against infinitely many JSON values.", "anchors": ["schemars_derive/src/attr/validation.rs", "schemars/src/_private/mod.rs: insert_validation_property, apply_inner_validation", "schemars_derive/src/schema_exprs.rs"]}
{"id": "C64", "title": "Ready-made settings and settings methods", "statement": "for_serialize gives documents that accept what serde writes, for_deserialize documents that accept only what serde reads, whatever the contract was before; with_transform applies the transform once, to the document the settings produce without it, keeping the definitions; documents of draft07(), draft2019_09(), draft2020_12() and openapi3() name their dialect in \"$schema\", also after changing the contract or inlining.", "quantifier": "all types, settings, transforms (with state), generator fuel", "why_tests_cant": "Holds for every type and for arbitrary user transforms and combinations of the methods.", "anchors": ["schemars/src/generate.rs: SchemaSettings"]}
{"id": "C65", "title": "A deserialize schema accepts every JSON value that serde reads", "statement": "If serde reads a JSON value as a value of a type, then the document generated for the type with the deserialize contract accepts that JSON value. Together with C62: for the types that both theorems cover, the document accepts a JSON value exactly if serde reads it.", "quantifier": "All programs of derived and standard types of the modelled fragment (structs with flattened structs and maps, enums of all four taggings, conversions, maps with string, character and integer keys, sets, tuples, Result, Bound, Range, Duration, ...), all settings without transforms, all JSON values, all validators that know the formats.", "why_tests_cant": "A test deserializes a few JSON values and validates them. The claim is about every type and about every JSON value of the unbounded set that serde reads.", "anchors": ["schemars/src/json_schema_impls/*.rs: json_schema", "schemars_derive/src/schema_exprs.rs: expr_for_container", "schemars/src/_private/mod.rs: new_internally_tagged_enum_variant, insert_object_property, flatten", "schemars/src/generate.rs: SchemaSettings::for_deserialize, SchemaGenerator::root_schema_for"]}
{"id": "C66", "title": "Where definitions are put and whether subschemas are inlined does not change what is accepted", "statement": "Two generators for the deserialize contract that differ in definitions_path, inline_subschemas, the meta schema or the state of the generator generate documents for the same type that accept the same JSON values, each with a validator that follows its own references.", "quantifier": "All programs of derived and standard types of the fragment that C62 and C65 share, all pairs of settings without transforms, all JSON values.", "why_tests_cant": "A test compares two documents for one type. The documents differ in shape, the claim is that they mean the same for every type and JSON value.", "anchors": ["schemars/src/generate.rs: SchemaSettings::inline_subschemas, SchemaSettings::definitions_path, SchemaSettings::meta_schema, SchemaGenerator::subschema_for, SchemaGenerator::root_schema_for"]}
{"id": "C67", "title": "The contract matters only where attributes tell writing from reading", "statement": "If every type reached from T is written as it is read (each field and variant is skipped in both directions or in none and has one name, a named field may be left out when writing exactly when it may be missing when reading, conversions go both ways through one type, and no CString, Bytes or Decimal is reached), then the schema settings for_serialize and for_deserialize lead to the same document for T.", "quantifier": "every program of derived and standard types, every type reached, every settings (meta schema, path, inlining, any transforms)", "why_tests_cant": "The contract is consulted at many places of the derive macro and of the implementations for std types, and it is part of the identity under which the generator stores definitions; a test compares the two documents for a few types only.", "anchors": ["schemars/src/generate.rs: Contract, SchemaSettings::for_serialize, for_deserialize, schema_uid", "schemars_derive/src/schema_exprs.rs: expr_for_container, expr_for_struct, expr_for_enum, NameForContract", "schemars/src/json_schema_impls: ffi.rs, bytes1.rs, decimal.rs"]}
{"id": "C68", "title": "A property's \"default\" is what serialization writes for the field's default, and its schema accepts it", "statement": "In the schema derived for a struct, the property of a field that has a default (its own serde(default) or the struct's) and can be serialized carries as \"default\" exactly the JSON that serde_json writes for the default value, under either contract; it carries none when skip_serializing_if leaves the field out for that value. The schema of the property accepts its default whenever the default is present if the field is marked required and meets the field's validation attributes.", "quantifier": "every struct with named fields (also with flattened structs), every field, type of field and default value, both contracts", "why_tests_cant": "a test fixes a struct and a default; the claim is about every declaration, every field type and every value the default expression can evaluate to", "anchors": ["schemars_derive/src/schema_exprs.rs: field_default_expr, expr_for_struct", "schemars/src/_private/mod.rs: MaybeSerializeWrapper, NoSerialize, maybe_to_value"]}
{"id": "C69", "title": "What is attached to types, fields and variants is in the document", "statement": "Every key that is attached to a derived type (title, description, deprecated, examples, extend, ...) is in the document generated for it, with the value given last; every key attached to a field is in the schema of the field's property, unless an attribute with a meaning of its own sets the same key; every key attached to a variant is in one of the alternatives that the enum's schema offers. A field that is never read is marked readOnly, one that is never written writeOnly.", "quantifier": "every derived type of any kind (structs, enums under the four taggings, repr enums, types with from or into), every metadata list, both contracts; for fields, every struct with named fields, also with flattened structs", "why_tests_cant": "tests look at a few declarations; the claim is about every combination of styles, taggings, other attributes and field types, and the metadata passes through code that rewrites the schema afterwards", "anchors": ["schemars_derive/src/ast/mod.rs: Container::add_mutators, Variant::add_mutators, Field::add_mutators", "schemars_derive/src/schema_exprs.rs: expr_for_container, expr_for_field, expr_for_struct, variant_subschemas", "schemars/src/_private/mod.rs: insert_metadata_property"]}
{"id": "C70", "title": "Titles of untagged variants are there when asked for, and change nothing else", "statement": "With SchemaSettings::untagged_enum_variant_titles, the alternative generated for a variant without a tag has the variant's name under the contract as its title, unless the variant has a title of its own, which is kept like everything else attached to it. Titles do not change what the document means: values of the type still validate against it, and under the deserialize contract it accepts exactly the JSON that the document without titles accepts.", "quantifier": "all programs of derived types, all enums and all their variants without a tag, both contracts, all values and all JSON inputs, all settings without transforms", "why_tests_cant": "The repository has one snapshot of one enum with the setting on. That an alternative has the right title for every enum, contract, renaming and set of attributes, and that no value of any type is accepted or rejected because of it, quantifies over all programs and inputs.", "anchors": ["schemars/src/generate.rs: SchemaSettings::untagged_enum_variant_titles", "schemars_derive/src/schema_exprs.rs: expr_for_untagged_enum_variant (557-599)", "schemars_derive/src/ast/mod.rs: Variant::name, Variant::add_mutators"]}

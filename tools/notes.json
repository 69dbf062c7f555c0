{
 "C01": {
  "plan": "`encoding.rs` byte by byte over Rust strings (UTF-8 byte lists); `$ref` resolution = percent-decode the fragment, then RFC 6901. Induction over the name.",
  "note": "Proved for every name without a byte below 0x10; C01_ref_exact and C01_lossy_iff say exactly where the reference leads for every name, so the restriction is sharp. Refuted in general: such bytes are written with one hex digit (`%A`), so the reference dangles or reaches another definition."
 },
 "C02": {
  "plan": "RFC 3986 fragment grammar as a separate predicate (`SchemaSpec`).",
  "note": "Proved for every name without a byte below 0x10 (sharp: refuted otherwise). The reference is one pointer segment for every name."
 },
 "C03": {
  "plan": "`percent_decode` against an independent RFC 3986 decoder on bytes plus UTF-8 validity.",
  "note": "Equal to the RFC decoder on every string without `%+h`; on those it deviates (finding: `%+5` is decoded because from_str_radix accepts a sign). Totality and validity of the result for every string."
 },
 "C04": {
  "plan": "`pointer`, `pointer_mut` and `json_pointer_mut` over JSON trees; lens laws by induction over the tokens.",
  "note": "All lens laws proved for every schema and pointer. The sentence of the documentation that `pointer` returns None for boolean schemas is refuted (`pointer(\"\")`)."
 },
 "C05": {
  "plan": "Every edit method of `Schema` as a function; histories as lists of operations refining a finite map with a flag for boolean schemas; boolean conversion against the validator.",
  "note": "Complete."
 },
 "C06": {
  "plan": "`TryFrom<Value>`, Deserialize, and histories of all `&mut` methods with panics as explicit results.",
  "note": "Holds for every history that does not write through the root pointer; refuted for `pointer_mut(\"\")`, which lets safe code store null and later calls panic."
 },
 "C07": {
  "plan": "`OrderedKeywordWrapper` as a function to a list of key/value pairs; permutation and order by induction on the value.",
  "note": "Complete."
 },
 "C08": {
  "plan": "Root documents of `root_schema_for` for arbitrary implementations (free programs over the generator API) and arbitrary call histories; every `$ref` returned resolves in the document.",
  "note": "Without transforms (C08_references_resolve_partial), with any list of the seven transforms schemars ships when definitions lie under \"$defs\" or \"definitions\" (C08_transformed_references_resolve_partial: the reference leads to the definition as the same transforms leave it), and with definitions elsewhere, as in the OpenAPI settings (C08_foreign_references_resolve_partial). Missing: transforms written by the user, names with bytes below 0x10 (false there, C01), a definitions path blocked by the root schema (false there, C18)."
 },
 "C09": {
  "plan": "Trace of every reference handed out, with the type asked for; invariant of the generator over arbitrary histories, with clones, takes and nested roots.",
  "note": "Complete."
 },
 "C10": {
  "plan": "Name search as a function with explicit termination; pigeonhole.",
  "note": "Complete."
 },
 "C11": {
  "plan": "Same trace; `C11_repeat_no_effect` quantifies over arbitrary implementations to show none is run.",
  "note": "Complete."
 },
 "C12": {
  "plan": "Invariant over histories: each definition is what an implementation returned.",
  "note": "Complete."
 },
 "C13": {
  "plan": "Pending and root stacks before and after every program.",
  "note": "Complete."
 },
 "C14": {
  "plan": "Fuelled interpreter; lexicographic measure (types not yet generated, inline depth). The statement's proviso (no cycle of direct calls) is necessary: C14_inline_recursion_diverges.",
  "note": "Complete."
 },
 "C15": {
  "plan": "`root_schema_for` and `into_root_schema_for` as programs; replay lemma for plain implementations.",
  "note": "Agreement of the two is complete. Repetition is proved for implementations that use subschema_for, direct calls and settings; it is refuted for an implementation that embeds a root schema."
 },
 "C16": {
  "plan": "Trace of `#` references against the stack of roots.",
  "note": "Proved for references asked for while this root is generated; refuted for a generator used for two roots (a definition left by the first keeps `#`)."
 },
 "C17": {
  "plan": "`Clone` as in generate.rs: definitions are copied, the id map is not.",
  "note": "Refuted in general (finding: the clone hands out a wrong `$ref`). Proved when schema names tell types apart, and for clones of an empty generator."
 },
 "C18": {
  "plan": "`add_schema_definitions`/`definitions_path_stripped` on JSON.",
  "note": "All proved with the side condition that the path starts with `/` (after `#`) and is not blocked; both conditions are sharp (refuted otherwise: all definitions are dropped silently). Path spellings covered."
 },
 "C19": {
  "plan": "`take_definitions` in arbitrary histories.",
  "note": "Complete."
 },
 "C20": {
  "plan": "Trace of references with the set of running implementations.",
  "note": "Complete."
 },
 "C21": {
  "plan": "Reachability from the requested types = the definitions of the document.",
  "note": "Complete."
 },
 "C22": {
  "plan": "`transform_subschemas` with a stateful visitor, relational specification of replacing direct subschemas.",
  "note": "The three positive theorems are unrestricted and cover the property as stated (the documented keywords). C22_all_subschemas_refuted records that four further schema-valued keywords are not visited.",
  "status": "proved"
 },
 "C23": {
  "plan": "RecursiveTransform with fuel, relational specification.",
  "note": "Complete under the termination condition of C23_terminates; C23_always_returns_refuted shows a transform for which there is no result.",
  "status": "proved"
 },
 "C24": {
  "plan": "ReplaceBoolSchemas on arbitrary schemas against the validator.",
  "note": "Complete. The refutation is about the option skip_additional_properties keeping more than documented.",
  "status": "proved"
 },
 "C25": {
  "plan": "RemoveRefSiblings against a validator that ignores siblings of `$ref`.",
  "note": "Meaning preserved for schemas with a string `$ref`, an array `allOf` beside it and no schema in unvisited places; each condition is shown necessary."
 },
 "C26": {
  "plan": "ReplaceConstValue against the validator.",
  "note": "Meaning preserved when `const` and `enum` do not stand together (necessary: refuted)."
 },
 "C27": {
  "plan": "ReplacePrefixItems against 2020-12 and draft-07 validators.",
  "note": "Condition: arrays described in the 2020-12 way (necessary: refuted)."
 },
 "C28": {
  "plan": "SetSingleExample.",
  "note": "Complete."
 },
 "C29": {
  "plan": "AddNullable against the OpenAPI 3.0 validator.",
  "note": "Condition nullable_ok (necessary: refuted for a `const` beside `type: null`); several remaining types stay an array (refuted for OpenAPI)."
 },
 "C30": {
  "plan": "ReplaceUnevaluatedProperties; validity of evaluated properties by an annotation-collecting validator.",
  "note": "Proved for positive positions and literally named properties; refuted for references, patternProperties and nested occurrences."
 },
 "C31": {
  "plan": "RestrictFormats.",
  "note": "Complete but for the documented behaviour with a missing `$schema`, which is refuted (all formats are removed)."
 },
 "C32": {
  "plan": "Each transform composed with itself.",
  "note": "Five of eight idempotent without condition; three under a condition, each refuted without it."
 },
 "C33": {
  "plan": "The transform lists of draft07/draft2019_09 settings, schemas and whole documents with references.",
  "note": "Condition shape07; C53 and Drafts.v prove that generated documents meet it (C55). unevaluatedProperties only gives one direction."
 },
 "C34": {
  "plan": "The transform list of openapi3.",
  "note": "Condition shape_oas (what OpenAPI 3.0 can express). Refuted: tuples; definitions under `components` are not transformed."
 },
 "C35": {
  "plan": "`allow_null` against the validator with references interpreted by an arbitrary environment.",
  "note": "Exact for every schema without the three excluded shapes; each exclusion is refuted by a counterexample."
 },
 "C36": {
  "plan": "`flatten` and `prepare`/`for_flatten` against the validator, including an exact description of what a struct with a flattened enum accepts.",
  "note": "Conditions: no contradictory keywords (mergeable), or struct-like schemas, or a flattened externally tagged enum with undocumented variants (C36_flattened_enum, exact). Refuted for two flattened maps."
 },
 "C37": {
  "plan": "`apply_internal_enum_variant_tag` against the validator.",
  "note": "Complete."
 },
 "C38": {
  "plan": "`insert_validation_property`, `apply_inner_validation`, ValidationAttrs::add_mutators against the validator.",
  "note": "Refuted for `format` on other types and for schemas without a `type` (references)."
 },
 "C39": {
  "plan": "`rustdoc.rs` on bytes, slicing panics explicit.",
  "note": "Complete."
 },
 "C40": {
  "plan": "`regex_syntax::escape` and an ECMA-262 regex semantics (parser and matcher) as specification.",
  "note": "Matching complete; validity under the `u` flag refuted for texts with # & - ~."
 },
 "C41": {
  "plan": "`ser.rs` over the serde data model, to_json as specification.",
  "note": "Conditions: finite floats and map keys that need no JSON escaping; both necessary (refuted)."
 },
 "C42": {
  "plan": "Deep embedding of types; the implementations of the standard types as programs; serde's serialization as specification; induction over typed values and over derivations of schemas.",
  "note": "Either contract; conditions: see `std`, `weak_keys_free` and `plain_settings`. Refuted: dead Weak, NaN, sets whose elements coincide in JSON."
 },
 "C43": {
  "plan": "Integer implementations against the validator.",
  "note": "Complete."
 },
 "C44": {
  "plan": "Map implementation against the validator, key alternatives.",
  "note": "Refuted: NonZero unsigned keys, bool keys, definition names that need percent encoding."
 },
 "C45": {
  "plan": "Two types with equal ids yield equal schemas: simulation over the generator (equal ids → bisimilar programs).",
  "note": "Conditions: distinct items have distinct ids, all generic parameters appear in the schema name. Refuted: const parameters, unused type parameters, same path, ArrayVec (whose id is its name: `ArrayVec<a::T, 2>` and `ArrayVec<b::T, 2>` have one id)."
 },
 "C46": {
  "plan": "Derived structs, deserialization of attributes to an item description, the derive's schema expression as a program.",
  "note": "Either contract (for deserialize: types written as they are read, see C52). Types of other crates (uuid, url, chrono, jiff, either, arrayvec, bytes, decimals, semver), types with from/into conversions and JsonSchema_repr enums are included. Fields may have validation attributes; the values considered meet them (Serde.v: `checks`). Fields may flatten structs and enums (externally tagged with unit variants without attributes, internally tagged with unit and struct variants, or adjacently tagged; no untagged variants), or one string-keyed map and nothing else. Missing: flattened untagged enums, flattened internally tagged enums with newtype variants, and a map flattened next to other flattened fields. Refuted: skipped tuple elements, skipped flattened fields, schemars(required) on an Option, a flattened map with a key that is the name of an omitted field, a flattened enum with a documented unit variant, a flattened untagged enum around a struct that denies unknown fields."
 },
 "C47": {
  "plan": "Derived enums, all four representations.",
  "note": "Either contract (for deserialize: types written as they are read, see C52); refuted: skipped newtype content, an enum inside an internally tagged variant."
 },
 "C48": {
  "plan": "Both contracts; key sets of serialized values and completeness for serde's deserializer as specification.",
  "note": "Structs with named fields, struct variants of enums in each representation, and structs flattened into either. Missing: flattened maps and enums, the content of newtype variants, `alias`. Refuted: Weak, types converted with serde(from = \"Option<..>\"), skipped flattened structs. C48_deserialize_presets_partial, C48_serialize_presets_partial: structs in the documents of the ready-made settings with their transforms."
 },
 "C49": {
  "plan": "`schemars_to_serde.rs` on lists of attributes.",
  "note": "Complete."
 },
 "C50": {
  "plan": "`validation.rs` on lists of meta items.",
  "note": "Complete."
 },
 "C51": {
  "plan": "`root_schema_for` after any history.",
  "note": "Complete: settings without transforms, and a definitions path that does not denote the root itself (`//`)."
 },
 "C52": {
  "plan": "The soundness proof of C42, C46 and C47 for an arbitrary contract, with the agreement of the two directions as condition for Deserialize.",
  "note": "Same fragment as C46/C47 (`supported`). Refuted without each condition: two names, a field left out, a field or variant that is only written. Types with conversions are included if they are converted from and into the same type (see C61_into_only_refuted)."
 },
 "C53": {
  "plan": "Wellformed.v is the specification (keyword shapes, from the meta-schemas). Induction over the derivation of a schema (derives_inv): each body turns well-formed answers into a well-formed schema, with lemmas for flatten, allow_null, the tagging helpers and insert_object_property; then the root object and add_definitions.",
  "note": "C53_wellformed_partial. C53_required_once_partial, C53_required_once_definition_partial, C53_required_once_variant_partial: no name is in \"required\" twice, for structs and struct variants (root and definitions) in which no two fields have a property of the same name; refuted by C53_required_twice_refuted when a flattened struct repeats a name. Missing: declarations whose metadata contains keywords, settings with transforms (see C33 and C54). Validation attributes must have numbers as bounds of ranges and non-negative integers as bounds of lengths (C53_negative_length_refuted). Findings: an enum whose variants are all skipped gives \"oneOf\": [] or \"enum\": [], which is not a schema (C53_no_variants_left_refuted, C53_no_names_left_refuted). C53_required_once_presets_partial: the same for the ready-made settings with their transforms.",
  "status": "partial"
 },
 "C54": {
  "plan": "A simulation between two runs that differ only in the transforms, by induction on the generation (Independent.v); Properties_Drafts.v states the result for arbitrary generators.",
  "note": "For all programs built from the modelled types; generic user-written JsonSchema implementations that call root_schema_for themselves are outside (for those the document would be transformed twice).",
  "status": "proved"
 },
 "C55": {
  "plan": "Compose C54 (the document is the transformed plain document), C53 (the plain document is well formed, which gives the shape hypotheses of C34's pipelines) and C33/C34 (each pipeline keeps the meaning of such schemas); the two readings of references are shown to be equivalent.",
  "note": "Partial: types with flattened fields under deny_unknown_fields (unevaluatedProperties) are left out for all three, and types whose schemas use prefixItems or patternProperties for OpenAPI; for OpenAPI the definitions are those of take_definitions(true), since those inside the document stay untransformed (C34_components_refuted). Definitions must be placed directly under $defs or definitions for draft-07 and 2019-09.",
  "status": "partial"
 },
 "C56": {
  "plan": "Model the macro's checks literally (str::replace, split, split_once). Specify the template syntax of format! as tokens with a writer, independent of the macro. Show that removing doubled braces and splitting recovers exactly the placeholders of any template, that templates are read in one way only, and that the derive model's names are the rendered templates.",
  "note": "Findings: a doubled closing brace in a text without an opening brace stays doubled in the name, and a lone one is accepted there (C56_closing_brace_refuted); the macro's own check accepts texts that are no templates, which only format! rejects (C56_check_alone_refuted). Placeholders with format specs ({T:>5}) are outside the specification: the macro rejects them.",
  "status": "proved"
 },
 "C57": {
  "plan": "Model syn types, the visitor and generic declarations whose fields have syntactic types; a type's meaning is an arbitrary compositional function. Prove that instances that agree on the visited params differ only in dead fields and variants, and that such declarations run alike on every generator.",
  "note": "Proved for declarations without schema_with functions, type macros or variant-level with attributes that depend on params and without skipped newtype fields; for each of these the claim is false: C57_schema_with_refuted, C57_macro_refuted, C57_variant_with_refuted, C57_skipped_newtype_refuted, C57_from_refuted for a from or into type that mentions a param no field mentions, and C57_own_phantom_refuted for a user's own type named PhantomData.",
  "status": "partial"
 },
 "C58": {
  "plan": "Model the attribute items, CommonAttrs and its statements. Collect the items by name, and prove what each keyword of the result holds from a table of what the attributes say about a keyword.",
  "note": "An example that serde_json cannot serialize is silently left out, and may leave an empty \"examples\" (C58_example_dropped_refuted). The Rust expressions are abstract: their text, JSON value and effect as a transform are given. Statements are run by common_mutators; the derive model of Types.v uses the effect of title, description and deprecated only.",
  "status": "proved"
 },
 "C59": {
  "plan": "Model the handlers with their errors; prove by induction over the items that the error list is empty exactly if a condition on the items of each name holds, and what the accepted items amount to.",
  "note": "The errors of the validation items (range, length, ...) are not part of this statement: only their names are. `!inline` and `!_unstable_ref_variants` are excluded by no_unset (they are treated in C49). A transform written as a string that does not parse as an expression is accepted and ignored (C59_ignored_transform_refuted).",
  "status": "proved"
 },
 "C60": {
  "plan": "repr_schema in Types.v; characterise validity of the type and enum keywords, then that annotations, title and $schema do not change it.",
  "note": "The annotations must be annotations (no extend with an asserting keyword) and for the document there are no transforms."
 },
 "C61": {
  "plan": "DConv in Types.v calls the other type's implementation; every implementation returns a schema (TypesSchema.v), so annotations leave validity alone; the last part is C46 with Serde.v's account of into.",
  "note": "With into alone the document for deserialization describes the type's own fields and so rejects what is written (C61_into_only_refuted); this is what the attribute says, and C52 excludes it."
 },
 "C62": {
  "plan": "Specify what serde reads as an inductive relation (Reads.v), prove for one level of every implementation that its schema accepts only what is read if the schemas of the parts do (ReadsStep.v), then lift to documents with references by lexicographic induction on the depth of the JSON value and on the types read from the same value (ReadsDoc.v).",
  "note": "Validation attributes are covered where they narrow the field's type (`narrows`; see C63). Flattened structs (also inside an Option) are covered where no two fields look at the same key, as are newtype variants of internally tagged enums around a struct that ignores unknown fields. A flattened map is covered if its keys are strings, it comes after the other flattened fields, these are structs without flattened fields of their own, and its value type is not an empty enum, a conversion or a newtype (`solid`). Missing: flattened enums, a flattened Option beside a flattened map, flattened fields of structs that deny unknown fields, maps with keys other than strings, 128-bit integers, Result, Bound, Range, Duration, SystemTime, OsString, CString, TimeDelta, semver and decimal types. Refuted without the exceptions: 1.0 for an integer, integer and char map keys, contents of an adjacently tagged unit variant, a further key beside those of Duration, Range, Result and Bound, a TimeDelta out of range, a flattened map before a flattened struct, a flattened map of values of an empty enum (its schema stops nothing), and validators that do not check formats.",
  "status": "partial"
 },
 "C63": {
  "plan": "Extend the reading relation (Reads.v) so that fields must meet their attributes; show that on the schemas of the covered types the inserted keywords keep what the schema said (ReadsChecks.v: narrow_keeps) and enforce the attribute (ValidationField.v: mutators_enforce); then C62's induction.",
  "note": "C63_validation_enforced_partial, C63_struct_fields_partial. Missing: the types C62 leaves out and attributes that do not narrow the type. Refuted: an attribute on a field whose schema is a reference has no effect (C63_reference_refuted); range bounds replace the bounds of the integer type (C63_range_replaces_bounds_refuted).",
  "status": "partial"
 },
 "C64": {
  "plan": "Compose with C46/C47 (values_validate), C62 and the simulation between generators with different transforms (Independent.v); each transform leaves \"$schema\" alone.",
  "note": "The contract theorems are partial as C46 and C62 are; C64_with_transform and C64_meta_schema cover all modelled types.",
  "status": "partial"
 },
 "C65": {
  "plan": "Accepts.v names the types considered; AcceptsStep.v shows for one type that its schema accepts what serde reads if the schemas of its parts do; AcceptsDoc.v closes this under references, by induction on the depth of the JSON value and on the relation `passes` between types that are read from the same value.",
  "note": "Partial: flattened enums and Options, flattened fields of structs that deny unknown fields, enum keys, types converted from an Option with serde(from), Decimal, OsString and CString are not covered. Weak from null, sets from repeated elements, `required` on Options, flattened Options of another type and unit variants with a tag where unknown fields are denied are refuted, and so are names given with serde(alias), which the derive macro does not look at.",
  "status": "partial"
 },
 "C66": {
  "plan": "Corollary of C62 and C65: both documents accept exactly what serde reads.",
  "note": "Partial: the fragment is that of C62 and C65. Refuted for validation attributes on fields of derived types: they have an effect only where the schema of the type is inlined.",
  "status": "partial"
 },
 "C67": {
  "plan": "Two generators that differ in the contract are run side by side; the simulation maps each identity (id, contract) to its mirror image. Structural induction over the programs of all implementations, then over the depth of the recursion.",
  "note": "Each condition is shown necessary: C67_option_differs, C67_default_differs, C67_names_differs, C67_types_differs."
 },
 "C68": {
  "plan": "Model field_default_expr and maybe_to_value (Defaults.v) over the serialization model; show by the derivation invariant of C48 that the property of a field ends up as the field's schema with the default inserted; for acceptance, put the default into an existing value of the struct, validate it by C46 and read off the check of the \"properties\" keyword.",
  "note": "C68_default_partial: the property of the field has what value_json gives as \"default\". C68_definition_partial: the same for the structs in definitions. C68_variant_partial: the same for struct variants (in definitions: C69_variant_field_definition_partial). C68_default_accepted_partial: the schema of the property accepts it, for defaults that fit the field. Missing: structs with flattened enums or maps, serialize_with, and fields whose name a later field has again. C68_required_refuted (finding): serde(default) with schemars(required) on an Option gives a null default that the schema of the property refuses. C68_presets_partial: the document has the default also under the ready-made settings with their transforms.",
  "status": "partial"
 },
 "C69": {
  "plan": "Show that inserting a list gives its last values and that later inserts of other keys keep them; follow the continuation of the derived implementation for every style and tagging (Metadata.v, a postcondition that needs nothing of the subschemas), and for fields use the invariant of C68.",
  "note": "C69_type_partial, C69_field_partial, C69_variant_partial: for the root type of the document under settings without transforms. C69_definition_partial: all of this for the types in definitions. C69_variant_field_partial, C69_variant_field_definition_partial: the fields of struct variants. C69_tuple_partial, C69_tuple_definition_partial: the fields of newtype and tuple structs. C69_tuple_variant_partial, C69_tuple_variant_definition_partial: the fields of newtype and tuple variants. C69_presets, C69_type_presets_partial, C69_field_presets_partial, C69_variant_presets_partial, C69_definition_presets_partial (definitions; not for the OpenAPI settings): the same in the documents of the ready-made settings with their transforms, except for the keywords the transforms are about. Missing: transforms written by the user; the elements of tuples under transforms. C69_flattened_refuted (finding): nothing of what is attached to a flattened field is in the document.",
  "status": "partial"
 },
 "C70": {
  "plan": "The derived code under the setting is that of the declarations with the title put before the other annotations of each variant without a tag (Titles.v). Presence follows from C69 for those declarations. For the meaning: serialization gives the same values (induction on values), what C46, C62 and C65 ask of declarations carries over, and what serde reads is the same (mutual induction on the reading relation, TitlesReads.v).",
  "note": "C70_titles_partial: for the enum of the root; C70_definition_partial: for the enums in definitions. C70_values_validate_partial: for the types of C46 and C47. C70_same_json_accepted_partial: for the types of C62 and C65. C70_presets_partial: the ready-made settings with their transforms. Missing: transforms written by the user.",
  "status": "partial"
 }
}
# Formal model of schemars 1.2.0 in Rocq (Coq 8.16.1)

Everything is in `rocq/theories`. The pinned source is `/repo` (read as text, never built).
This file is assembled by `tools/design.py` from `tools/design_head.md` and the per-property
plans in `tools/notes.json`.

## Layout

| Files | Contents |
|---|---|
| `Json.v`, `JsonFacts.v` | JSON values, numbers, sorted maps (serde_json without `preserve_order`) |
| `Utf8.v`, `Encoding.v`, `Pointer.v` | UTF-8, `encoding.rs`, `Value::pointer`, `json_pointer_mut`, `add_definitions` |
| `SchemaApi.v`, `SchemaSer.v` | `schema.rs`: the methods of `Schema`, the ordered serializer |
| `SchemaSpec.v` | SPECIFICATION: finite maps with a boolean state, RFC 3986 and RFC 6901 |
| `Validate.v` | SPECIFICATION: JSON Schema validation (2020-12, 2019-09, draft-07, OpenAPI 3.0), independent of the code; references are interpreted by an arbitrary predicate `R` |
| `ValidateKw.v`, `ValidateRefs.v`, `ValidateFacts.v` | facts about the specification, and the construction of an `R` that is right for a given document |
| `Settings.v` | `generate.rs`: the ready-made settings (draft07, draft2019_09, draft2020_12, openapi3) and the builder methods |
| `Generate.v` | `generate.rs`: the generator, running arbitrary `JsonSchema` implementations (`prog`) |
| `GenerateSpec.v` | SPECIFICATION of histories: traces, reachability, frames |
| `Derivation.v` | what generated schemas are made of, without the generator |
| `Transform.v` (+ `TransformSpec.v`) | `transform.rs` |
| `Private.v`, `Rustdoc.v`, `RegexSyntax.v` | `_private/mod.rs`, `rustdoc.rs`, `regex_syntax.rs`; the ECMA-262 regular expression semantics is a SPECIFICATION inside `RegexSyntax.v` |
| `SerValue.v` | `ser.rs`; `to_json` is the SPECIFICATION of serde_json's serializer |
| `Types.v` | `json_schema_impls/*` and the schema expressions of `schemars_derive` |
| `Serde.v` | SPECIFICATION: the values of a type and what serde's derived `Serialize` writes; `checks` says which texts and which field values (validation attributes) count as proper |
| `Reads.v` | SPECIFICATION: the JSON values from which serde's `Deserialize` makes a value of a type |
| `Accepts.v` | SPECIFICATION: the types for which it is shown that schemas accept all that serde reads |
| `Attrs.v`, `ValidationAttrs.v`, `CommonAttrs.v` | `schemars_derive/src/attr/*` (serde override, validation items, metadata and source items) |
| `NameFormat.v`, `GenericParams.v` | `schemars_derive/src/name.rs`, `bound.rs`; the SPECIFICATION of `format!` templates is at the top of `NameFormatProofs.v` |
| `*Proofs.v`, `*Facts.v`, `Sound*.v`, `Type*.v`, `Required*.v`, … | lemmas |
| `Properties_*.v` | the property theorems only, each followed by `Print Assumptions` and an `Example` meeting its hypotheses |

Naming: `Cnn_…` proves property Cnn (or a named part of it) for everything it quantifies over;
`Cnn_…_partial` proves it under extra hypotheses; `Cnn_…_refuted` is a proved counterexample: the
English sentence is false of the code, so this is a finding.

## Modelling decisions

* Rust strings are Coq byte strings with `utf8_valid` where the code relies on it.
* `serde_json::Map` is a list of pairs sorted by key, without duplicates (`preserve_order` off).
  Numbers are integers or dyadic rationals `m * 2^e`, unbounded, so
  the model admits more numbers than the code, never fewer.
* A type implementing `JsonSchema` is an element of an arbitrary Coq type with a name, an id, the
  inline flag and a `prog`: a free program over the generator's public methods. Nothing is assumed
  about it (no purity, no agreement between id and name), so theorems C08–C21 hold for hand-written
  implementations too.
* Recursion of implementations is run with fuel; `C14_fuel_irrelevant` shows the result does not
  depend on it and C14 that it suffices.
* Panics are explicit results (`option`/error values) in the models of `schema.rs`, `rustdoc.rs`
  and `encoding.rs`.
* Transforms have a state (they are `FnMut`): the model threads it.
* The derive macro is modelled as the function from the *parsed* item (attributes after
  `schemars_to_serde`, serde_derive_internals' renaming already applied to names) to the program
  that its generated code is. Token generation, spans and hygiene are not modelled.
* `Serde.v` states what serde and serde_json write, `Reads.v` what they read. Their sources are not in
  `/repo`; the specifications follow their documentation and are part of the trusted base of C41, C42,
  C46–C48 (writing) and C62 (reading). The same goes for the types of other crates (`Uuid`, `TimeDelta`, …).

## What is modelled and what is not

Modelled: `encoding.rs`; `schema.rs` (all methods, `From`, `TryFrom`, Serialize, Deserialize);
`generate.rs` (all of it but `Debug`, the builder methods of `SchemaSettings`, and `dyn` cloning of
transforms, which the model does by value); `transform.rs` (all transforms);
`_private/mod.rs`, `rustdoc.rs`, `regex_syntax.rs`; `ser.rs`; `json_schema_impls/{array, atomic,
core, ffi, maps, nonzero_*, primitives, sequences, serdejson, std_time, tuple, wrapper}` and those of other crates (`arrayvec07`, `bytes1`, `chrono04`, `either1`,
`indexmap2`, `jiff02`, `decimal`, `semver1`, `smallvec1`, `smol_str`, `url2`, `uuid1`) for the
types that are constructors of `rty` (`Types.v`); in `schemars_derive`: `schemars_to_serde.rs`,
`validation.rs`, `name.rs`, `bound.rs` (but not the trait bounds it adds), and `schema_exprs.rs` for structs and enums with the attributes listed at the
records of `Types.v` (`transparent` gives the expression of a newtype struct and is represented as
one; a container's `with` is a conversion both ways).

Not modelled: `schemars_derive`'s
parsing of tokens, `with`/`schema_with` on fields and variants
(other than as opaque types), remote derive;
the macros `schema_for!`, `json_schema!`; feature `preserve_order`.

## Trusted base

* Coq 8.16.1's kernel (including `vm_compute`, used in examples and refutations only on closed
  computations).
* `Print Assumptions` stands after each property theorem and prints "Closed under the global
  context" for every one of them: no axiom is used, none is added. (The libraries loaded contain
  the seven constants of `Coq.ssr.ssrunder`, which no theorem uses.)
* The faithfulness of the definitions that carry a comment with lines of `/repo`. Tested by
  `seeded/LOG.jsonl`: realistic bugs put into the model and the theorems that then fail.
* The SPECIFICATION files above.


## Properties

### C01 A generated $ref resolves to the definition of exactly that name

Encoding a definition name for use in a `$ref` and resolving that `$ref` with Schema::pointer on a document that holds the definition finds that definition and no other. (For: every definition name (any UTF-8 string), every definitions map, every definitions path made of plain segments.)

* Model and method: `encoding.rs` byte by byte over Rust strings (UTF-8 byte lists); `$ref` resolution = percent-decode the fragment, then RFC 6901. Induction over the name.
* Status: **partial**. Proved for every name without a byte below 0x10; C01_ref_exact and C01_lossy_iff say exactly where the reference leads for every name, so the restriction is sharp. Refuted in general: such bytes are written with one hex digit (`%A`), so the reference dangles or reaches another definition.
* Theorems: `Properties_Schema.C01_ref_resolves_partial`, `Properties_Schema.C01_encoding_injective`, `Properties_Schema.C01_ref_exact`, `Properties_Schema.C01_lossy_iff`, `Properties_Schema.C01_ref_resolves_refuted`, `Properties_Schema.C01_ref_crosstalk_refuted`

### C02 Encoded reference names are legal URI fragments

The encoded form of a definition name contains only characters RFC 3986 allows in a fragment, every '%' being followed by two hex digits, and contains no '/' (so it is a single JSON-pointer segment). (For: every definition name (any UTF-8 string).)

* Model and method: RFC 3986 fragment grammar as a separate predicate (`SchemaSpec`).
* Status: **partial**. Proved for every name without a byte below 0x10 (sharp: refuted otherwise). The reference is one pointer segment for every name.
* Theorems: `Properties_Schema.C02_valid_fragment_partial`, `Properties_Schema.C02_single_segment`, `Properties_Schema.C02_valid_fragment_refuted`

### C03 Percent decoding is total, exact and leaves plain text alone

Percent decoding never panics, returns only valid UTF-8, is the identity on text without '%', replaces each '%' followed by two hex digits by that byte, and treats any other '%' literally. (For: every UTF-8 string.)

* Model and method: `percent_decode` against an independent RFC 3986 decoder on bytes plus UTF-8 validity.
* Status: **partial**. Equal to the RFC decoder on every string without `%+h`; on those it deviates (finding: `%+5` is decoded because from_str_radix accepts a sign). Totality and validity of the result for every string.
* Theorems: `Properties_Schema.C03_percent_decode_partial`, `Properties_Schema.C03_decoded_is_utf8`, `Properties_Schema.C03_identity_without_percent`, `Properties_Schema.C03_percent_decode_refuted`

### C04 pointer_mut is a lens: writes land where pointer reads, and nowhere else

After writing a value through Schema::pointer_mut(p), Schema::pointer(p) reads that value, every pointer that diverges from p reads what it read before, and writing back the value read changes nothing; pointer_mut(p) is Some exactly when pointer(p) is Some. (For: every schema, every pointer string (raw or '#' fragment form), every written value.)

* Model and method: `pointer`, `pointer_mut` and `json_pointer_mut` over JSON trees; lens laws by induction over the tokens.
* Status: **partial**. All lens laws proved for every schema and pointer. The sentence of the documentation that `pointer` returns None for boolean schemas is refuted (`pointer("")`).
* Theorems: `Properties_Schema.C04_write_then_read`, `Properties_Schema.C04_write_back`, `Properties_Schema.C04_mut_iff_shared`, `Properties_Schema.C04_frame`, `Properties_Schema.C04_bool_schema_none_refuted`

### C05 Schema edit methods behave as a finite map and boolean schemas convert faithfully

insert/get/get_mut/remove satisfy the finite map laws over any sequence of edits; a boolean schema that is forced into object form by an edit accepts exactly the same instances as before the edit. (For: every schema, every key, every value, every sequence of edits.)

* Model and method: Every edit method of `Schema` as a function; histories as lists of operations refining a finite map with a flag for boolean schemas; boolean conversion against the validator.
* Status: **proved**. Complete.
* Theorems: `Properties_Schema.C05_history_refines_map`, `Properties_Transform.C05_bool_conversion_faithful`

### C06 A Schema is always a boolean or an object

Converting or deserializing a JSON value into a Schema succeeds exactly for booleans and objects and round-trips; and no sequence of safe Schema operations (apart from writing a non-schema through a value pointer) can leave a Schema holding any other kind of value, so the internal unreachable!() cannot fire. (For: every JSON value; every sequence of Schema operations.)

* Model and method: `TryFrom<Value>`, Deserialize, and histories of all `&mut` methods with panics as explicit results.
* Status: **partial**. Holds for every history that does not write through the root pointer; refuted for `pointer_mut("")`, which lets safe code store null and later calls panic.
* Theorems: `Properties_Schema.C06_try_from_exact`, `Properties_Schema.C06_invariant_partial`, `Properties_Schema.C06_invariant_refuted`

### C07 Serializing a schema reorders keywords but loses, adds and renames nothing

The JSON text emitted for a schema denotes the same JSON value as the schema (every key exactly once, recursively); well known keywords come first in the fixed order, definitions last, and the contents of properties maps, defaults, examples and x- extensions keep their order. (For: every schema, of any depth.)

* Model and method: `OrderedKeywordWrapper` as a function to a list of key/value pairs; permutation and order by induction on the value.
* Status: **proved**. Complete.
* Theorems: `Properties_Schema.C07_serialize_lossless`, `Properties_Schema.C07_serialize_order`

### C08 No dangling references

Every reference returned by subschema_for while a root schema is generated resolves, in the returned document, to a definition; that definition is the one generated for the requested type. (For: every finite or infinite family of JsonSchema implementations, every generation history on the generator, every non-degenerate definitions path.)

* Model and method: Root documents of `root_schema_for` for arbitrary implementations (free programs over the generator API) and arbitrary call histories; every `$ref` returned resolves in the document.
* Status: **partial**. Without transforms (C08_references_resolve_partial), with any list of the seven transforms schemars ships when definitions lie under "$defs" or "definitions" (C08_transformed_references_resolve_partial: the reference leads to the definition as the same transforms leave it), and with definitions elsewhere, as in the OpenAPI settings (C08_foreign_references_resolve_partial). Missing: transforms written by the user, names with bytes below 0x10 (false there, C01), a definitions path blocked by the root schema (false there, C18).
* Theorems: `Properties_Generate.C08_references_resolve_partial`, `Properties_Refs.C08_transformed_references_resolve_partial`, `Properties_Refs.C08_foreign_references_resolve_partial`

### C09 Types with different ids never share a definition

During the life of a generator two types with different schema_id get different definition names, whatever their schema_names, and the definition stored under a name was produced by the type owning the name. (For: every family of JsonSchema implementations (including clashing and adversarial names such as Foo2), every call history.)

* Model and method: Trace of every reference handed out, with the type asked for; invariant of the generator over arbitrary histories, with clones, takes and nested roots.
* Status: **proved**. Complete.
* Theorems: `Properties_Generate.C09_distinct_types_distinct_definitions`, `Properties_Generate.C09_definition_belongs_to_owner`

### C10 The name chosen is the schema name or its first free numbered variant, and the search terminates

A newly referenced type gets its schema_name if free, otherwise schema_name followed by the least integer >= 2 that makes it unused; the search always stops. (For: every set of used names, every schema name.)

* Model and method: Name search as a function with explicit termination; pigeonhole.
* Status: **proved**. Complete.
* Theorems: `Properties_Generate.C10_name_choice`, `Properties_Generate.C10_search_terminates`, `Properties_Generate.C10_new_reference`

### C11 References are stable and repeated requests are free of effects

Once subschema_for has returned a reference for a type, every later subschema_for of that type on that generator returns the same reference, and does not run the type's implementation again nor change the definitions, unless definitions were taken. (For: every call history.)

* Model and method: Same trace; `C11_repeat_no_effect` quantifies over arbitrary implementations to show none is run.
* Status: **proved**. Complete.
* Theorems: `Properties_Generate.C11_references_stable`, `Properties_Generate.C11_repeat_no_effect`

### C12 Definitions are written once and no placeholder survives

A completed definition is never overwritten by later generation; when the outermost generator call returns, every definition it registered holds the generated schema rather than the temporary placeholder. (For: every family of JsonSchema implementations (recursive, mutually recursive, nested generics), every call history.)

* Model and method: Invariant over histories: each definition is what an implementation returned.
* Status: **proved**. Complete.
* Theorems: `Properties_Generate.C12_definitions_written_once`, `Properties_Generate.C12_no_placeholder`

### C13 Generator bookkeeping is restored by every call

The set of types being generated and the stack of root types are the same after each generator call as before it (for the calls that borrow the generator), whatever calls are nested inside. (For: every call tree.)

* Model and method: Pending and root stacks before and after every program.
* Status: **proved**. Complete.
* Theorems: `Properties_Generate.C13_bookkeeping_restored`, `Properties_Generate.C13_implementations_restore`

### C14 Schema generation terminates on recursive types

Generating a schema for a finite family of types terminates provided every reference cycle goes through a type that is not always inlined; with inline_subschemas set it terminates for every finite family whose always-inline types are acyclic. (For: every finite family of types, every recursion pattern, every generator state.)

* Model and method: Fuelled interpreter; lexicographic measure (types not yet generated, inline depth). The statement's proviso (no cycle of direct calls) is necessary: C14_inline_recursion_diverges.
* Status: **proved**. Complete.
* Theorems: `Properties_Generate.C14_generation_terminates`, `Properties_Generate.C14_finitely_many_ids`, `Properties_Generate.C14_fuel_irrelevant`, `Properties_Generate.C14_inline_recursion_diverges`

### C15 root_schema_for, into_root_schema_for and repetition agree

For a generator in any state, into_root_schema_for::<T>() returns the same schema root_schema_for::<T>() would, and generating the same root twice returns the same schema. (For: every family of types, every generator state reached by any history.)

* Model and method: `root_schema_for` and `into_root_schema_for` as programs; replay lemma for plain implementations.
* Status: **partial**. Agreement of the two is complete. Repetition is proved for implementations that use subschema_for, direct calls and settings; it is refuted for an implementation that embeds a root schema.
* Theorems: `Properties_Generate.C15_into_root_agrees`, `Properties_Generate.C15_root_twice_partial`, `Properties_Generate.C15_replay`, `Properties_Generate.C15_root_twice_refuted`

### C16 "$ref": "#" denotes the root type

In the document returned for root type T every generated reference "#" was requested for T itself. (For: every family of types, every history on one generator.)

* Model and method: Trace of `#` references against the stack of roots.
* Status: **partial**. Proved for references asked for while this root is generated; refuted for a generator used for two roots (a definition left by the first keeps `#`).
* Theorems: `Properties_Generate.C16_hash_is_root_partial`, `Properties_Generate.C16_hash_is_root_refuted`

### C17 A cloned generator is as good as the original

A clone of a generator returns references that resolve to the definitions of the requested types, like the original. (For: every history before the clone and every history after.)

* Model and method: `Clone` as in generate.rs: definitions are copied, the id map is not.
* Status: **partial**. Refuted in general (finding: the clone hands out a wrong `$ref`). Proved when schema names tell types apart, and for clones of an empty generator.
* Theorems: `Properties_Generate.C17_clone_refuted`, `Properties_Generate.C17_clone_partial`, `Properties_Generate.C17_clone_of_empty`

### C18 Definitions are placed at the configured path and nothing else is touched

When a root schema is finished all definitions are found under the configured definitions path (created if missing), anything already there or elsewhere in the schema is kept. (For: every root schema, every definitions map, every definitions path string.)

* Model and method: `add_schema_definitions`/`definitions_path_stripped` on JSON.
* Status: **partial**. All proved with the side condition that the path starts with `/` (after `#`) and is not blocked; both conditions are sharp (refuted otherwise: all definitions are dropped silently). Path spellings covered.
* Theorems: `Properties_Root.C18_path_spellings`, `Properties_Schema.C18_definitions_placed`, `Properties_Schema.C18_rest_untouched`, `Properties_Schema.C18_no_definitions`, `Properties_Schema.C18_definitions_placed_refuted`, `Properties_Schema.C18_blocked_refuted`

### C19 take_definitions empties the generator and later references are re-registered

take_definitions returns exactly the definitions present, leaves none, and a later reference to a type gets the same name and is registered again. (For: every history.)

* Model and method: `take_definitions` in arbitrary histories.
* Status: **proved**. Complete.
* Theorems: `Properties_Generate.C19_take_returns_all`, `Properties_Generate.C19_reregistered`

### C20 Inlining settings are honoured

With inline_subschemas, or for always-inline types, subschema_for returns a reference only to break a cycle (the type is already being generated) or, never, for always-inline types; no other definitions appear. (For: every family of types, every history.)

* Model and method: Trace of references with the set of running implementations.
* Status: **proved**. Complete.
* Theorems: `Properties_Generate.C20_references_only_for_cycles`, `Properties_Generate.C20_no_other_definitions`, `Properties_Generate.C20_inlined`

### C21 Exactly the needed definitions are generated

The definitions held by the generator are exactly those of the types for which a (non-root) reference has been returned. (For: every family of types, every history without take_definitions.)

* Model and method: Reachability from the requested types = the definitions of the document.
* Status: **proved**. Complete.
* Theorems: `Properties_Generate.C21_exactly_the_needed_definitions`

### C22 transform_subschemas visits each subschema once and touches nothing else

transform_subschemas applies the transform to each direct subschema of the documented keywords exactly once, in order, and leaves every other part of the schema unchanged. (For: every transform (pure or stateful), every schema.)

* Model and method: `transform_subschemas` with a stateful visitor, relational specification of replacing direct subschemas.
* Status: **proved**. The three positive theorems are unrestricted and cover the property as stated (the documented keywords). C22_all_subschemas_refuted records that four further schema-valued keywords are not visited.
* Theorems: `Properties_Transform.C22_visits_each_once`, `Properties_Transform.C22_leaf`, `Properties_Transform.C22_visits_exactly`, `Properties_Transform.C22_all_subschemas_refuted`

### C23 RecursiveTransform reaches every subschema, parents first

A recursive transform is applied to the schema and then to every nested subschema of the (already transformed) schema. (For: every transform that does not deepen schemas, every schema.)

* Model and method: RecursiveTransform with fuel, relational specification.
* Status: **proved**. Complete under the termination condition of C23_terminates; C23_always_returns_refuted shows a transform for which there is no result.
* Theorems: `Properties_Transform.C23_recursive_spec`, `Properties_Transform.C23_terminates`, `Properties_Transform.C23_reaches_parents_first`, `Properties_Transform.C23_always_returns_refuted`

### C24 ReplaceBoolSchemas removes boolean subschemas and changes no validation result

After the transform no boolean subschema remains at visited positions (except additionalProperties when so configured), and every instance is accepted or rejected as before. (For: every schema, every instance, every interpretation of references.)

* Model and method: ReplaceBoolSchemas on arbitrary schemas against the validator.
* Status: **proved**. Complete. The refutation is about the option skip_additional_properties keeping more than documented.
* Theorems: `Properties_Transform.C24_same_meaning`, `Properties_Transform.C24_no_bool_schema_left`, `Properties_Transform.C24_no_bool_schema_left_skip`, `Properties_Transform.C24_only_bools_change`, `Properties_Transform.C24_skip_only_additional_properties_refuted`

### C25 RemoveRefSiblings leaves $ref alone in its object and means the same to a validator that ignores siblings

After the transform any visited object holding $ref holds nothing else, and a draft-07 validator (ignoring siblings of $ref) accepts exactly what a 2020-12 validator accepted before. (For: every schema, every instance.)

* Model and method: RemoveRefSiblings against a validator that ignores siblings of `$ref`.
* Status: **partial**. Meaning preserved for schemas with a string `$ref`, an array `allOf` beside it and no schema in unvisited places; each condition is shown necessary.
* Theorems: `Properties_Transform.C25_same_meaning_partial`, `Properties_Transform.C25_ref_alone`, `Properties_Transform.C25_only_refs_change`, `Properties_Transform.C25_same_meaning_refuted`, `Properties_Transform.C25_hidden_refuted`

### C26 ReplaceConstValue removes const and changes no validation result

After the transform no visited schema has const, and every instance is accepted or rejected as before. (For: every schema, every instance.)

* Model and method: ReplaceConstValue against the validator.
* Status: **partial**. Meaning preserved when `const` and `enum` do not stand together (necessary: refuted).
* Theorems: `Properties_Transform.C26_same_meaning_partial`, `Properties_Transform.C26_no_const_left`, `Properties_Transform.C26_only_const_changes`, `Properties_Transform.C26_same_meaning_refuted`

### C27 ReplacePrefixItems turns 2020-12 tuples into draft-07 tuples with the same meaning

After the transform no visited schema has prefixItems, and a draft-07/2019-09 validator accepts exactly what a 2020-12 validator accepted before. (For: every schema, every instance.)

* Model and method: ReplacePrefixItems against 2020-12 and draft-07 validators.
* Status: **partial**. Condition: arrays described in the 2020-12 way (necessary: refuted).
* Theorems: `Properties_Transform.C27_same_meaning_partial`, `Properties_Transform.C27_no_prefix_left_partial`, `Properties_Transform.C27_only_items_change`, `Properties_Transform.C27_same_meaning_refuted`

### C28 SetSingleExample only changes examples

After the transform no visited schema has examples, example is the first one, and validation is unaffected. (For: every schema, every instance.)

* Model and method: SetSingleExample.
* Status: **proved**. Complete.
* Theorems: `Properties_Transform.C28_same_meaning`, `Properties_Transform.C28_no_examples_left`, `Properties_Transform.C28_only_examples_change`

### C29 AddNullable makes an OpenAPI 3.0 validator accept null exactly when 2020-12 did

After the transform an OpenAPI 3.0 validator (understanding nullable, not understanding type arrays) accepts exactly what a 2020-12 validator accepted before. (For: every schema, every instance.)

* Model and method: AddNullable against the OpenAPI 3.0 validator.
* Status: **partial**. Condition nullable_ok (necessary: refuted for a `const` beside `type: null`); several remaining types stay an array (refuted for OpenAPI).
* Theorems: `Properties_Transform.C29_same_meaning_partial`, `Properties_Transform.C29_no_null_type_left_partial`, `Properties_Transform.C29_only_null_types_change`, `Properties_Transform.C29_same_meaning_refuted`, `Properties_Transform.C29_single_type_refuted`

### C30 ReplaceUnevaluatedProperties never rejects what was accepted

Every instance accepted before is accepted after the transform, and no visited schema has unevaluatedProperties. (For: every schema, every instance.)

* Model and method: ReplaceUnevaluatedProperties; validity of evaluated properties by an annotation-collecting validator.
* Status: **partial**. Proved for positive positions and literally named properties; refuted for references, patternProperties and nested occurrences.
* Theorems: `Properties_Transform.C30_accepts_partial`, `Properties_Transform.C30_no_uneval_left_partial`, `Properties_Transform.C30_only_uneval_changes`, `Properties_Transform.C30_accepts_refuted`, `Properties_Transform.C30_patterns_refuted`, `Properties_Transform.C30_no_uneval_left_refuted`

### C31 RestrictFormats keeps exactly the formats allowed

After the transform a visited schema has a format only if it is allowed explicitly or defined by the inferred meta schema; everything else is unchanged; with an unknown or missing $schema no format is removed by inference. (For: every schema, every configuration.)

* Model and method: RestrictFormats.
* Status: **partial**. Complete but for the documented behaviour with a missing `$schema`, which is refuted (all formats are removed).
* Theorems: `Properties_Transform.C31_exactly`, `Properties_Transform.C31_only_permitted_left`, `Properties_Transform.C31_only_formats_removed`, `Properties_Transform.C31_same_meaning`, `Properties_Transform.C31_unknown_meta_schema`, `Properties_Transform.C31_missing_meta_schema_refuted`

### C32 Built-in transforms are idempotent

Applying a built-in transform twice is the same as applying it once. (For: every schema.)

* Model and method: Each transform composed with itself.
* Status: **partial**. Five of eight idempotent without condition; three under a condition, each refuted without it.
* Theorems: `Properties_Transform.C32_replace_bool`, `Properties_Transform.C32_remove_ref_siblings`, `Properties_Transform.C32_set_single_example`, `Properties_Transform.C32_replace_const`, `Properties_Transform.C32_replace_prefix_partial`, `Properties_Transform.C32_add_nullable_partial`, `Properties_Transform.C32_replace_uneval_partial`, `Properties_Transform.C32_restrict_formats`, `Properties_Transform.C32_replace_uneval_refuted`, `Properties_Transform.C32_replace_prefix_refuted`, `Properties_Transform.C32_add_nullable_refuted`

### C33 The draft-07 settings produce draft-07 documents with the same meaning

The transforms of SchemaSettings::draft07 turn a 2020-12 schema (of the generated shape) into one a draft-07 validator treats identically. (For: every schema of the generated shape, every instance.)

* Model and method: The transform lists of draft07/draft2019_09 settings, schemas and whole documents with references.
* Status: **partial**. Condition shape07; C53 and Drafts.v prove that generated documents meet it (C55). unevaluatedProperties only gives one direction.
* Theorems: `Properties_Transform.C33_draft07_same_meaning_partial`, `Properties_Transform.C33_draft07_accepts_partial`, `Properties_Transform.C33_draft2019_same_meaning_partial`, `Properties_Transform.C33_draft07_document_partial`, `Properties_Transform.C33_draft2019_document_partial`

### C34 The OpenAPI 3 settings produce OpenAPI 3.0 schemas with the same meaning

The transforms of SchemaSettings::openapi3 turn a 2020-12 schema (of the generated shape) into one an OpenAPI 3.0 validator treats identically. (For: every schema of the generated shape, every instance.)

* Model and method: The transform list of openapi3.
* Status: **partial**. Condition shape_oas (what OpenAPI 3.0 can express). Refuted: tuples; definitions under `components` are not transformed.
* Theorems: `Properties_Transform.C34_same_meaning_partial`, `Properties_Transform.C34_accepts_partial`, `Properties_Transform.C34_same_meaning_refuted`, `Properties_Transform.C34_components_refuted`

### C35 Option<T> accepts exactly null and what T accepts

The schema generated for Option<T> accepts an instance exactly if it is null or the schema generated for T accepts it. (For: every schema for T, every instance.)

* Model and method: `allow_null` against the validator with references interpreted by an arbitrary environment.
* Status: **partial**. Exact for every schema without the three excluded shapes; each exclusion is refuted by a counterexample.
* Theorems: `Properties_Private.C35_option_exact_partial`, `Properties_Private.C35_other_keywords`, `Properties_Private.C35_option_of_reference`, `Properties_Private.C35_const_null_refuted`, `Properties_Private.C35_not_refuted`, `Properties_Private.C35_const_enum_refuted`

### C36 Flattening a schema into another accepts the merged objects

If two object schemas with disjoint properties accept two objects then the flattened schema accepts their union. (For: every pair of object schemas of the generated shape, every pair of objects.)

* Model and method: `flatten` and `prepare`/`for_flatten` against the validator, including an exact description of what a struct with a flattened enum accepts.
* Status: **partial**. Conditions: no contradictory keywords (mergeable), or struct-like schemas, or a flattened externally tagged enum with undocumented variants (C36_flattened_enum, exact). Refuted for two flattened maps.
* Theorems: `Properties_Flatten.C36_both_partial`, `Properties_Flatten.C36_union_partial`, `Properties_Flatten.C36_structs`, `Properties_Flatten.C36_map`, `Properties_Flatten.C36_prepared_struct`, `Properties_Flatten.C36_prepared_unit_enum`, `Properties_Flatten.C36_flattened_enum`, `Properties_Flatten.C36_flattened_enum_value`, `Properties_Flatten.C36_two_maps_refuted`

### C37 Variant tags are enforced

A schema to which an internal tag was added accepts exactly the objects that carry the tag value and satisfy the rest of the schema. (For: every object schema, every instance.)

* Model and method: `apply_internal_enum_variant_tag` against the validator.
* Status: **proved**. Complete.
* Theorems: `Properties_Private.C37_tag_enforced`, `Properties_Private.C37_tag_struct`, `Properties_Private.C37_tag_unit`

### C38 Validation attributes only touch schemas of the matching type

length/range/pattern attributes insert their keyword exactly when the schema allows the matching instance type, and change nothing else. (For: every schema, every attribute value.)

* Model and method: `insert_validation_property`, `apply_inner_validation`, ValidationAttrs::add_mutators against the validator.
* Status: **partial**. Refuted for `format` on other types and for schemas without a `type` (references).
* Theorems: `Properties_Private.C38_inserted_exactly`, `Properties_Private.C38_nothing_else`, `Properties_Private.C38_attribute_meaning_partial`, `Properties_Private.C38_format_refuted`, `Properties_Private.C38_reference_refuted`

### C39 Doc comments are split into title and description without losing text

The title/description derived from a doc comment never panics on any UTF-8 text, is trimmed, and keeps the words of the comment. (For: every doc string.)

* Model and method: `rustdoc.rs` on bytes, slicing panics explicit.
* Status: **proved**. Complete.
* Theorems: `Properties_Text.C39_split`, `Properties_Text.C39_white_space`

### C40 contains(...) produces a pattern matching exactly strings that contain the text

The escaped pattern, read as a regular expression, is the literal text. (For: every string.)

* Model and method: `regex_syntax::escape` and an ECMA-262 regex semantics (parser and matcher) as specification.
* Status: **partial**. Matching complete; validity under the `u` flag refuted for texts with # & - ~.
* Theorems: `Properties_Text.C40_contains`, `Properties_Text.C40_injective`, `Properties_Text.C40_unicode_partial`, `Properties_Text.C40_unicode_refuted`

### C41 A value validates against the schema inferred from it

The schema produced by root_schema_for_value / schema_for_value! accepts the JSON the value serializes to. (For: every serializable value.)

* Model and method: `ser.rs` over the serde data model, to_json as specification.
* Status: **partial**. Conditions: finite floats and map keys that need no JSON escaping; both necessary (refuted).
* Theorems: `Properties_Ser.C41_accepts_own_value_partial`, `Properties_Ser.C41_example`, `Properties_Ser.C41_sequences`, `Properties_Ser.C41_tuples`, `Properties_Ser.C41_structs`, `Properties_Ser.C41_maps`, `Properties_Ser.C41_option_monotone`, `Properties_Ser.C41_title`, `Properties_Ser.C41_nan_refuted`, `Properties_Ser.C41_escaped_key_refuted`

### C42 Values of standard library types validate against their schemas

The JSON serde_json produces for a value of a supported standard type is accepted by the schema generated for the type. (For: every type built from the supported constructors, every value of it.)

* Model and method: Deep embedding of types; the implementations of the standard types as programs; serde's serialization as specification; induction over typed values and over derivations of schemas.
* Status: **partial**. Either contract; conditions: see `std`, `weak_keys_free` and `plain_settings`. Refuted: dead Weak, NaN, sets whose elements coincide in JSON.
* Theorems: `Properties_Sound.C42_standard_values_validate_partial`, `Properties_Sound.C42_dead_weak_refuted`, `Properties_Sound.C42_nan_refuted`, `Properties_Sound.C42_set_duplicates_refuted`

### C43 Integer schemas reject out of range numbers

The schema of a fixed width integer type accepts no integer outside the type's range for the types which carry bounds, and never a negative number for unsigned types. (For: every integer.)

* Model and method: Integer implementations against the validator.
* Status: **proved**. Complete.
* Theorems: `Properties_Types.C43_out_of_range_rejected`, `Properties_Types.C43_exact_range`, `Properties_Types.C43_in_range_accepted`, `Properties_Types.C43_nonzero`, `Properties_Types.C43_wide_types_unbounded`

### C44 Map schemas constrain keys and values

The schema of a map type accepts an object exactly if its values are accepted by the value schema and its keys have the form the key type serializes to. (For: every key kind, every value schema, every object.)

* Model and method: Map implementation against the validator, key alternatives.
* Status: **partial**. Refuted: NonZero unsigned keys, bool keys, definition names that need percent encoding.
* Theorems: `Properties_Types.C44_map_meaning`, `Properties_Types.C44_integer_keys`, `Properties_Types.C44_integer_keys_admitted`, `Properties_Types.C44_string_keys`, `Properties_Types.C44_enum_keys`, `Properties_Types.C44_nonzero_keys_refuted`, `Properties_Types.C44_bool_keys_refuted`, `Properties_Types.C44_encoded_name_refuted`

### C45 schema_id determines the schema

Two types with the same schema_id have the same schema. (For: every pair of types built from the supported constructors and derived types.)

* Model and method: Two types with equal ids yield equal schemas: simulation over the generator (equal ids → bisimilar programs).
* Status: **partial**. Conditions: distinct items have distinct ids, all generic parameters appear in the schema name. Refuted: const parameters, unused type parameters, same path, ArrayVec (whose id is its name: `ArrayVec<a::T, 2>` and `ArrayVec<b::T, 2>` have one id).
* Theorems: `Properties_Id.C45_id_determines_schema_partial`, `Properties_Id.C45_const_parameters_refuted`, `Properties_Id.C45_type_parameters_refuted`, `Properties_Id.C45_same_path_refuted`, `Properties_Id.C45_arrayvec_refuted`

### C46 Derived structs: serialized values validate

For a derived struct (named fields with rename, default, skip, skip_serializing_if, flatten, deny_unknown_fields) each serialized value validates against the serialize-contract schema. (For: every struct declaration, every value.)

* Model and method: Derived structs, deserialization of attributes to an item description, the derive's schema expression as a program.
* Status: **partial**. Either contract (for deserialize: types written as they are read, see C52). Types of other crates (uuid, url, chrono, jiff, either, arrayvec, bytes, decimals, semver), types with from/into conversions and JsonSchema_repr enums are included. Fields may have validation attributes; the values considered meet them (Serde.v: `checks`). Fields may flatten structs and enums (externally tagged with unit variants without attributes, internally tagged with unit and struct variants, or adjacently tagged; no untagged variants), or one string-keyed map and nothing else. Missing: flattened untagged enums, flattened internally tagged enums with newtype variants, and a map flattened next to other flattened fields. Refuted: skipped tuple elements, skipped flattened fields, schemars(required) on an Option, a flattened map with a key that is the name of an omitted field, a flattened enum with a documented unit variant, a flattened untagged enum around a struct that denies unknown fields.
* Theorems: `Properties_Sound.C46_struct_values_validate_partial`, `Properties_Sound.C46_skipped_element_refuted`, `Properties_Sound.C46_skipped_flatten_refuted`, `Properties_Sound.C46_required_none_refuted`, `Properties_Sound.C46_flattened_map_key_refuted`, `Properties_Sound.C46_flattened_documented_unit_refuted`, `Properties_Sound.C46_flattened_untagged_refuted`

### C47 Derived enums: every value matches exactly one variant schema

For a derived enum under each of the four representations the serialized value validates against the schema (for oneOf: matches exactly one branch). (For: every enum declaration, every value.)

* Model and method: Derived enums, all four representations.
* Status: **partial**. Either contract (for deserialize: types written as they are read, see C52); refuted: skipped newtype content, an enum inside an internally tagged variant.
* Theorems: `Properties_Sound.C47_enum_values_validate_partial`, `Properties_Sound.C47_skipped_newtype_refuted`, `Properties_Sound.C47_tagged_enum_refuted`

### C48 required lists exactly the mandatory fields per contract

A property is required by the deserialize schema iff deserialization needs it, and by the serialize schema iff serialization always emits it. (For: every struct declaration, both contracts.)

* Model and method: Both contracts; key sets of serialized values and completeness for serde's deserializer as specification.
* Status: **partial**. Structs with named fields, struct variants of enums in each representation, and structs flattened into either. Missing: flattened maps and enums, the content of newtype variants, `alias`. Refuted: Weak, types converted with serde(from = "Option<..>"), skipped flattened structs. C48_deserialize_presets_partial, C48_serialize_presets_partial: structs in the documents of the ready-made settings with their transforms.
* Theorems: `Properties_DraftMeta.C48_deserialize_presets_partial`, `Properties_DraftMeta.C48_serialize_presets_partial`, `Properties_Required.C48_properties_partial`, `Properties_Required.C48_deserialize_required_partial`, `Properties_Required.C48_serialize_required_partial`, `Properties_Required.C48_weak_refuted`, `Properties_Required.C48_converted_refuted`, `Properties_Required.C48_skipped_flatten_refuted`, `Properties_RequiredEnum.C48_variant_properties_partial`, `Properties_RequiredEnum.C48_variant_deserialize_partial`, `Properties_RequiredEnum.C48_variant_serialize_partial`, `Properties_RequiredEnum.C48_variant_weak_refuted`

### C49 schemars attributes override serde attributes

The effective attributes are the schemars ones plus those serde ones that are neither overridden nor unset; unrelated ones are dropped. (For: every list of attribute items.)

* Model and method: `schemars_to_serde.rs` on lists of attributes.
* Status: **proved**. Complete.
* Theorems: `Properties_Attrs.C49_effective_items`, `Properties_Attrs.C49_override`, `Properties_Attrs.C49_unset`, `Properties_Attrs.C49_inherit`, `Properties_Attrs.C49_with_kept`, `Properties_Attrs.C49_other_attributes`, `Properties_Attrs.C49_errors`, `Properties_Attrs.C49_idempotent`

### C50 Validation attributes: precedence and exclusivity

When the same constraint is given by several attributes, the first one in the order schemars, validate, garde is used, and at most one of pattern, regex and contains is in force at each level. (For: every list of schemars, validate and garde attribute items, with any nesting of inner(...).)

* Model and method: `validation.rs` on lists of meta items.
* Status: **proved**. Complete.
* Theorems: `Properties_Private.C50_length_precedence`, `Properties_Private.C50_range_precedence`, `Properties_Private.C50_exclusive`

### C51 Root schemas add only a title and the meta schema

root_schema_for::<T>() returns the schema T::json_schema returned, with "$schema" set to the configured meta schema (left alone when none is configured), "title" set to T's schema name unless the schema already has a title, definitions added at the definitions path, and nothing else changed; into_root_schema_for returns the same document. (For: every type implementation, every generator state and settings without transforms.)

* Model and method: `root_schema_for` after any history.
* Status: **proved**. Complete: settings without transforms, and a definitions path that does not denote the root itself (`//`).
* Theorems: `Properties_Root.C51_root_schema_for`, `Properties_Root.C51_into_root_schema_for`, `Properties_Root.C51_into_same`

### C52 With the default contract, what is written is accepted

A document generated with the default settings (deserialize contract) accepts the JSON serde_json produces for each value of the type, if the type is written as it is read: one name per field and variant, skipped in both directions or none, and a field that may be left out may be missing. (For: every type declaration that is written as it is read, every value.)

* Model and method: The soundness proof of C42, C46 and C47 for an arbitrary contract, with the agreement of the two directions as condition for Deserialize.
* Status: **partial**. Same fragment as C46/C47 (`supported`). Refuted without each condition: two names, a field left out, a field or variant that is only written. Types with conversions are included if they are converted from and into the same type (see C61_into_only_refuted).
* Theorems: `Properties_Contract.C52_default_contract_accepts_partial`, `Properties_Contract.C52_two_names_refuted`, `Properties_Contract.C52_left_out_refuted`, `Properties_Contract.C52_only_written_refuted`, `Properties_Contract.C52_only_written_variant_refuted`

### C53 Every generated document is a well-formed JSON Schema

The document that root_schema_for::<T>() returns on a new generator, and every schema in generator.definitions(), is a well-formed draft 2020-12 schema: each keyword has a value of the shape its meta-schema asks for (schemas where schemas are expected, non-empty arrays for allOf/anyOf/oneOf/prefixItems/enum, known type names without repetition, strings for $ref), no unknown use of a keyword, distinct keys, and type/enum/const do not contradict each other. Optional keywords (unevaluatedProperties, prefixItems, patternProperties) only appear if the declarations call for them. (For: every program of struct and enum declarations with annotations for metadata and at least one variant left per enum, every type built from them and the standard types, every contract, inlining setting, meta-schema and definitions path in $defs, definitions or below a non-keyword.)

* Model and method: Wellformed.v is the specification (keyword shapes, from the meta-schemas). Induction over the derivation of a schema (derives_inv): each body turns well-formed answers into a well-formed schema, with lemmas for flatten, allow_null, the tagging helpers and insert_object_property; then the root object and add_definitions.
* Status: **partial**. C53_wellformed_partial. C53_required_once_partial, C53_required_once_definition_partial, C53_required_once_variant_partial: no name is in "required" twice, for structs and struct variants (root and definitions) in which no two fields have a property of the same name; refuted by C53_required_twice_refuted when a flattened struct repeats a name. Missing: declarations whose metadata contains keywords, settings with transforms (see C33 and C54). Validation attributes must have numbers as bounds of ranges and non-negative integers as bounds of lengths (C53_negative_length_refuted). Findings: an enum whose variants are all skipped gives "oneOf": [] or "enum": [], which is not a schema (C53_no_variants_left_refuted, C53_no_names_left_refuted). C53_required_once_presets_partial: the same for the ready-made settings with their transforms.
* Theorems: `Properties_DraftMeta.C53_required_once_presets_partial`, `Properties_RequiredOnce.C53_required_once_partial`, `Properties_RequiredOnce.C53_required_once_definition_partial`, `Properties_VariantFields.C53_required_once_variant_partial`, `Properties_Wellformed.C53_wellformed_partial`, `Properties_Wellformed.C53_no_variants_left_refuted`, `Properties_Wellformed.C53_no_names_left_refuted`, `Properties_Wellformed.C53_required_twice_refuted`, `Properties_Wellformed.C53_negative_length_refuted`

### C54 Transforms only rewrite finished root documents

Adding transforms to SchemaSettings changes nothing but the root schemas that are returned: for every type and every generator, whatever has been generated with it before, root_schema_for returns the document that the same generator without transforms would return, with the transforms applied to it once, in the order in which they were added. definitions() and subschema_for are not affected. (For: every program of derived and standard types, every type, every generator state, every list of (stateful) transforms.)

* Model and method: A simulation between two runs that differ only in the transforms, by induction on the generation (Independent.v); Properties_Drafts.v states the result for arbitrary generators.
* Status: **proved**. For all programs built from the modelled types; generic user-written JsonSchema implementations that call root_schema_for themselves are outside (for those the document would be transformed twice).
* Theorems: `Properties_Drafts.C54_transforms_last`, `Properties_Drafts.C54_subschemas`

### C55 The settings of other drafts describe the same values

schemars::generate::SchemaSettings::draft07(), draft2019_09() and openapi3() produce documents which accept, for a validator of that dialect, exactly the JSON values that the 2020-12 document for the same type accepts for a 2020-12 validator; so what serde_json produces for a value of the type is accepted by them too. (For: every program and type in the supported fragment, every JSON value, every settings with the transforms of the draft.)

* Model and method: Compose C54 (the document is the transformed plain document), C53 (the plain document is well formed, which gives the shape hypotheses of C34's pipelines) and C33/C34 (each pipeline keeps the meaning of such schemas); the two readings of references are shown to be equivalent.
* Status: **partial**. Partial: types with flattened fields under deny_unknown_fields (unevaluatedProperties) are left out for all three, and types whose schemas use prefixItems or patternProperties for OpenAPI; for OpenAPI the definitions are those of take_definitions(true), since those inside the document stay untransformed (C34_components_refuted). Definitions must be placed directly under $defs or definitions for draft-07 and 2019-09.
* Theorems: `Properties_Drafts.C55_draft07_same_instances_partial`, `Properties_Drafts.C55_draft2019_same_instances_partial`, `Properties_Drafts.C55_draft07_values_partial`, `Properties_Drafts.C55_draft2019_values_partial`, `Properties_Drafts.C55_openapi3_same_instances_partial`

### C56 Rename format strings give the formatted name

#[schemars(rename = "...")] with placeholders {T} for type or const params compiles exactly when the text is a template of Rust's format! whose placeholders are generic params, and then the type's schema name is that template with every placeholder replaced by the schema name of the type param or the value of the const param, doubled braces standing for single ones; a text without braces is the name as it is. (For: every attribute text, every list of const and type params, every value of the params.)

* Model and method: Model the macro's checks literally (str::replace, split, split_once). Specify the template syntax of format! as tokens with a writer, independent of the macro. Show that removing doubled braces and splitting recovers exactly the placeholders of any template, that templates are read in one way only, and that the derive model's names are the rendered templates.
* Status: **proved**. Findings: a doubled closing brace in a text without an opening brace stays doubled in the name, and a lone one is accepted there (C56_closing_brace_refuted); the macro's own check accepts texts that are no templates, which only format! rejects (C56_check_alone_refuted). Placeholders with format specs ({T:>5}) are outside the specification: the macro rejects them.
* Theorems: `Properties_Name.C56_template_renders`, `Properties_Name.C56_only_templates`, `Properties_Name.C56_rejects_exactly`, `Properties_Name.C56_plain`, `Properties_Name.C56_adt_name`, `Properties_Name.C56_closing_brace_refuted`, `Properties_Name.C56_check_alone_refuted`

### C57 Params left out of the schema id do not influence the schema

The schema id of an instance of a generic derived type contains the const params and only some of the type params. Two instances that agree on those have the same schema: the type params left out (used only in PhantomData or in fields skipped for both contracts) do not influence it. Every type param that a field's type mentions otherwise, and every param that the schema name mentions, is in the id. (For: every generic declaration (struct or enum of any shape and tagging), every two instantiations of its type params, every contract, generator state and behaviour of the implementations called.)

* Model and method: Model syn types, the visitor and generic declarations whose fields have syntactic types; a type's meaning is an arbitrary compositional function. Prove that instances that agree on the visited params differ only in dead fields and variants, and that such declarations run alike on every generator.
* Status: **partial**. Proved for declarations without schema_with functions, type macros or variant-level with attributes that depend on params and without skipped newtype fields; for each of these the claim is false: C57_schema_with_refuted, C57_macro_refuted, C57_variant_with_refuted, C57_skipped_newtype_refuted, C57_from_refuted for a from or into type that mentions a param no field mentions, and C57_own_phantom_refuted for a user's own type named PhantomData.
* Theorems: `Properties_Generic.C57_irrelevant_params_partial`, `Properties_Generic.C57_relevant_bounds`, `Properties_Generic.C57_used_params`, `Properties_Generic.C57_schema_with_refuted`, `Properties_Generic.C57_macro_refuted`, `Properties_Generic.C57_skipped_newtype_refuted`, `Properties_Generic.C57_variant_with_refuted`, `Properties_Generic.C57_own_phantom_refuted`, `Properties_Generic.C57_from_refuted`

### C58 Metadata attributes and doc comments take effect with a fixed precedence

On a container, variant or field, an `extend` item for a key decides that key of the schema; otherwise `example` items give "examples" (in order, without values that serde cannot serialize), #[deprecated] gives "deprecated": true, and an explicit `title` or `description` wins over the doc comment, whose lines are joined by newlines and split into title and description; empty texts are not written. Nothing else in the schema changes, and with no metadata the schema stays exactly as it was (also `true` and `false`). Transforms run after all of this, in the order written, each once. The order of items with different names does not matter, and schemars items come before serde ones. Generating the metadata never panics on UTF-8 doc comments. (For: Every list of attribute items of schemars and serde attributes, doc comment lines, deprecation flag and schema they are applied to, on containers, variants and fields.)

* Model and method: Model the attribute items, CommonAttrs and its statements. Collect the items by name, and prove what each keyword of the result holds from a table of what the attributes say about a keyword.
* Status: **proved**. An example that serde_json cannot serialize is silently left out, and may leave an empty "examples" (C58_example_dropped_refuted). The Rust expressions are abstract: their text, JSON value and effect as a transform are given. Statements are run by common_mutators; the derive model of Types.v uses the effect of title, description and deprecated only.
* Theorems: `Properties_Common.C58_metadata`, `Properties_Common.C58_transforms_last`, `Properties_Common.C58_runs`, `Properties_Common.C58_doc_lines`, `Properties_Common.C58_order`, `Properties_Common.C58_example_dropped_refuted`

### C59 Exactly the well-formed attribute items are accepted, and the schemars source wins over serde's

The derive macro reports no error for the metadata and source items of a field, variant or container exactly if every item has a known name; title, description, with, schema_with, crate, rename, inline are written at most once and in the right form; with and schema_with are not combined; extend keys do not repeat; example strings do not look like function paths; transforms are not strings that parse; and _unstable_ref_variants is on an enum. For accepted items the schema of a field or variant comes from the schemars `with` type or `schema_with` function if there is one, else from serde's `with` path; a container's rename, crate, inline and with are what was written. (For: Every list of items in schemars and serde attributes, every answer of the parsers for paths, expressions and types.)

* Model and method: Model the handlers with their errors; prove by induction over the items that the error list is empty exactly if a condition on the items of each name holds, and what the accepted items amount to.
* Status: **proved**. The errors of the validation items (range, length, ...) are not part of this statement: only their names are. `!inline` and `!_unstable_ref_variants` are excluded by no_unset (they are treated in C49). A transform written as a string that does not parse as an expression is accepted and ignored (C59_ignored_transform_refuted).
* Theorems: `Properties_Common.C59_field_items`, `Properties_Common.C59_variant_items`, `Properties_Common.C59_container_items`, `Properties_Common.C59_source`, `Properties_Common.C59_ignored_transform_refuted`

### C60 A JsonSchema_repr enum accepts exactly the numbers of its variants

The schema (and the document of root_schema_for) of an enum derived with JsonSchema_repr accepts a JSON value if and only if it is a number equal to the discriminant of one of the enum's variants. In particular it accepts the number serde_repr writes for every variant. (For: Every fieldless enum with a repr of up to 64 bits, every list of discriminants, every annotation on the enum, every state of the generator, every JSON value.)

* Model and method: repr_schema in Types.v; characterise validity of the type and enum keywords, then that annotations, title and $schema do not change it.
* Status: **proved**. The annotations must be annotations (no extend with an asserting keyword) and for the document there are no transforms.
* Theorems: `Properties_Convert.C60_repr_exact`, `Properties_Convert.C60_repr_document`, `Properties_Convert.C60_repr_values`

### C61 Types with serde's from, try_from and into have the schema of the type they are converted from or to

For deserialization, the schema of a type with serde(from) or serde(try_from) accepts exactly what the schema of the type it is converted from accepts; for serialization, that of a type with serde(into) accepts exactly what the schema of the type it is converted into accepts. In the mode without a conversion the attribute has no effect. The document for serialization accepts everything that is written for values of a type with serde(into). (For: Every declaration with one or both conversions, every program of types, every generator state and contract, every JSON value.)

* Model and method: DConv in Types.v calls the other type's implementation; every implementation returns a schema (TypesSchema.v), so annotations leave validity alone; the last part is C46 with Serde.v's account of into.
* Status: **partial**. With into alone the document for deserialization describes the type's own fields and so rejects what is written (C61_into_only_refuted); this is what the attribute says, and C52 excludes it.
* Theorems: `Properties_Convert.C61_converted`, `Properties_Convert.C61_other_mode`, `Properties_Convert.C61_written_values`, `Properties_Convert.C61_into_only_refuted`

### C62 A deserialize schema accepts only JSON that serde reads

Every JSON value that validates against the document generated for a type under the deserialize contract (the default) is one from which serde reads a value of the type: required fields are present, unknown fields are absent where the type denies them, every part is read by the type of the part, and enum values name a variant that can be read. The validator checks integer and IP address formats; numbers written with a zero fraction (1.0) are not used in place of integers. (For: all types built from the modelled standard types and derived structs, tuples and enums (recursive ones included) outside the listed exceptions, all JSON values of any depth, all validators that resolve references and check formats.)

* Model and method: Specify what serde reads as an inductive relation (Reads.v), prove for one level of every implementation that its schema accepts only what is read if the schemas of the parts do (ReadsStep.v), then lift to documents with references by lexicographic induction on the depth of the JSON value and on the types read from the same value (ReadsDoc.v).
* Status: **partial**. Validation attributes are covered where they narrow the field's type (`narrows`; see C63). Flattened structs (also inside an Option) are covered where no two fields look at the same key, as are newtype variants of internally tagged enums around a struct that ignores unknown fields. A flattened map is covered if its keys are strings, it comes after the other flattened fields, these are structs without flattened fields of their own, and its value type is not an empty enum, a conversion or a newtype (`solid`). Missing: flattened enums, a flattened Option beside a flattened map, flattened fields of structs that deny unknown fields, maps with keys other than strings, 128-bit integers, Result, Bound, Range, Duration, SystemTime, OsString, CString, TimeDelta, semver and decimal types. Refuted without the exceptions: 1.0 for an integer, integer and char map keys, contents of an adjacently tagged unit variant, a further key beside those of Duration, Range, Result and Bound, a TimeDelta out of range, a flattened map before a flattened struct, a flattened map of values of an empty enum (its schema stops nothing), and validators that do not check formats.
* Theorems: `Properties_Reads.C62_accepted_json_is_read_partial`, `Properties_Reads.C62_integral_float_refuted`, `Properties_Reads.C62_integer_key_refuted`, `Properties_Reads.C62_char_key_refuted`, `Properties_Reads.C62_adjacent_content_refuted`, `Properties_Reads.C62_map_first_refuted`, `Properties_Reads.C62_void_map_refuted`, `Properties_Reads.C62_unknown_key_refuted`, `Properties_Reads.C62_time_delta_refuted`, `Properties_Reads.C62_unchecked_formats_refuted`

### C63 Validation attributes on fields are enforced by the generated document

If a JSON value validates against the document generated for a type under the deserialize contract, then every field of every struct, tuple and variant found in it, at any depth, has a value that meets the field's validation attributes: lengths count characters or items, ranges bound numbers, patterns and contains constrain strings, inner constrains the items of collections. This holds for attributes on strings, numbers, integers (with bounds inside the type), collections of these and Options of these. (For: all derived types (recursive ones included) outside the listed exceptions, all validation attributes that narrow the field's type, all JSON values of any depth, all validators that resolve references.)

* Model and method: Extend the reading relation (Reads.v) so that fields must meet their attributes; show that on the schemas of the covered types the inserted keywords keep what the schema said (ReadsChecks.v: narrow_keeps) and enforce the attribute (ValidationField.v: mutators_enforce); then C62's induction.
* Status: **partial**. C63_validation_enforced_partial, C63_struct_fields_partial. Missing: the types C62 leaves out and attributes that do not narrow the type. Refuted: an attribute on a field whose schema is a reference has no effect (C63_reference_refuted); range bounds replace the bounds of the integer type (C63_range_replaces_bounds_refuted).
* Theorems: `Properties_Enforce.C63_validation_enforced_partial`, `Properties_Enforce.C63_struct_fields_partial`, `Properties_Enforce.C63_reference_refuted`, `Properties_Enforce.C63_range_replaces_bounds_refuted`

### C64 Ready-made settings and settings methods

for_serialize gives documents that accept what serde writes, for_deserialize documents that accept only what serde reads, whatever the contract was before; with_transform applies the transform once, to the document the settings produce without it, keeping the definitions; documents of draft07(), draft2019_09(), draft2020_12() and openapi3() name their dialect in "$schema", also after changing the contract or inlining. (For: all types, settings, transforms (with state), generator fuel.)

* Model and method: Compose with C46/C47 (values_validate), C62 and the simulation between generators with different transforms (Independent.v); each transform leaves "$schema" alone.
* Status: **partial**. The contract theorems are partial as C46 and C62 are; C64_with_transform and C64_meta_schema cover all modelled types.
* Theorems: `Properties_Settings.C64_for_serialize_partial`, `Properties_Settings.C64_for_deserialize_partial`, `Properties_Settings.C64_with_transform`, `Properties_Settings.C64_meta_schema`

### C65 A deserialize schema accepts every JSON value that serde reads

If serde reads a JSON value as a value of a type, then the document generated for the type with the deserialize contract accepts that JSON value. Together with C62: for the types that both theorems cover, the document accepts a JSON value exactly if serde reads it. (For: All programs of derived and standard types of the modelled fragment (structs with flattened structs and maps, enums of all four taggings, conversions, maps with string, character and integer keys, sets, tuples, Result, Bound, Range, Duration, ...), all settings without transforms, all JSON values, all validators that know the formats.)

* Model and method: Accepts.v names the types considered; AcceptsStep.v shows for one type that its schema accepts what serde reads if the schemas of its parts do; AcceptsDoc.v closes this under references, by induction on the depth of the JSON value and on the relation `passes` between types that are read from the same value.
* Status: **partial**. Partial: flattened enums and Options, flattened fields of structs that deny unknown fields, enum keys, types converted from an Option with serde(from), Decimal, OsString and CString are not covered. Weak from null, sets from repeated elements, `required` on Options, flattened Options of another type and unit variants with a tag where unknown fields are denied are refuted, and so are names given with serde(alias), which the derive macro does not look at.
* Theorems: `Properties_Accepts.C65_read_json_is_accepted_partial`, `Properties_Accepts.C65_exactly_what_serde_reads_partial`, `Properties_Accepts.C65_weak_null_refuted`, `Properties_Accepts.C65_repeated_element_refuted`, `Properties_Accepts.C65_required_option_refuted`, `Properties_Accepts.C65_flattened_option_refuted`, `Properties_Accepts.C65_adjacent_null_refuted`, `Properties_Accepts.C65_internal_unit_refuted`, `Properties_Accepts.C65_alias_refuted`

### C66 Where definitions are put and whether subschemas are inlined does not change what is accepted

Two generators for the deserialize contract that differ in definitions_path, inline_subschemas, the meta schema or the state of the generator generate documents for the same type that accept the same JSON values, each with a validator that follows its own references. (For: All programs of derived and standard types of the fragment that C62 and C65 share, all pairs of settings without transforms, all JSON values.)

* Model and method: Corollary of C62 and C65: both documents accept exactly what serde reads.
* Status: **partial**. Partial: the fragment is that of C62 and C65. Refuted for validation attributes on fields of derived types: they have an effect only where the schema of the type is inlined.
* Theorems: `Properties_Accepts.C66_settings_do_not_change_what_is_accepted_partial`, `Properties_Accepts.C66_validation_attributes_refuted`

### C67 The contract matters only where attributes tell writing from reading

If every type reached from T is written as it is read (each field and variant is skipped in both directions or in none and has one name, a named field may be left out when writing exactly when it may be missing when reading, conversions go both ways through one type, and no CString, Bytes or Decimal is reached), then the schema settings for_serialize and for_deserialize lead to the same document for T. (For: every program of derived and standard types, every type reached, every settings (meta schema, path, inlining, any transforms).)

* Model and method: Two generators that differ in the contract are run side by side; the simulation maps each identity (id, contract) to its mirror image. Structural induction over the programs of all implementations, then over the depth of the recursion.
* Status: **proved**. Each condition is shown necessary: C67_option_differs, C67_default_differs, C67_names_differs, C67_types_differs.
* Theorems: `Properties_Both.C67_one_document`, `Properties_Both.C67_option_differs`, `Properties_Both.C67_default_differs`, `Properties_Both.C67_names_differs`, `Properties_Both.C67_types_differs`

### C68 A property's "default" is what serialization writes for the field's default, and its schema accepts it

In the schema derived for a struct, the property of a field that has a default (its own serde(default) or the struct's) and can be serialized carries as "default" exactly the JSON that serde_json writes for the default value, under either contract; it carries none when skip_serializing_if leaves the field out for that value. The schema of the property accepts its default whenever the default is present if the field is marked required and meets the field's validation attributes. (For: every struct with named fields (also with flattened structs), every field, type of field and default value, both contracts.)

* Model and method: Model field_default_expr and maybe_to_value (Defaults.v) over the serialization model; show by the derivation invariant of C48 that the property of a field ends up as the field's schema with the default inserted; for acceptance, put the default into an existing value of the struct, validate it by C46 and read off the check of the "properties" keyword.
* Status: **partial**. C68_default_partial: the property of the field has what value_json gives as "default". C68_definition_partial: the same for the structs in definitions. C68_variant_partial: the same for struct variants (in definitions: C69_variant_field_definition_partial). C68_default_accepted_partial: the schema of the property accepts it, for defaults that fit the field. Missing: structs with flattened enums or maps, serialize_with, and fields whose name a later field has again. C68_required_refuted (finding): serde(default) with schemars(required) on an Option gives a null default that the schema of the property refuses. C68_presets_partial: the document has the default also under the ready-made settings with their transforms.
* Theorems: `Properties_Default.C68_default_partial`, `Properties_Default.C68_definition_partial`, `Properties_Default.C68_default_accepted_partial`, `Properties_Default.C68_required_refuted`, `Properties_DraftMeta.C68_presets_partial`, `Properties_VariantFields.C68_variant_partial`

### C69 What is attached to types, fields and variants is in the document

Every key that is attached to a derived type (title, description, deprecated, examples, extend, ...) is in the document generated for it, with the value given last; every key attached to a field is in the schema of the field's property, unless an attribute with a meaning of its own sets the same key; every key attached to a variant is in one of the alternatives that the enum's schema offers. A field that is never read is marked readOnly, one that is never written writeOnly. (For: every derived type of any kind (structs, enums under the four taggings, repr enums, types with from or into), every metadata list, both contracts; for fields, every struct with named fields, also with flattened structs.)

* Model and method: Show that inserting a list gives its last values and that later inserts of other keys keep them; follow the continuation of the derived implementation for every style and tagging (Metadata.v, a postcondition that needs nothing of the subschemas), and for fields use the invariant of C68.
* Status: **partial**. C69_type_partial, C69_field_partial, C69_variant_partial: for the root type of the document under settings without transforms. C69_definition_partial: all of this for the types in definitions. C69_variant_field_partial, C69_variant_field_definition_partial: the fields of struct variants. C69_tuple_partial, C69_tuple_definition_partial: the fields of newtype and tuple structs. C69_tuple_variant_partial, C69_tuple_variant_definition_partial: the fields of newtype and tuple variants. C69_presets, C69_type_presets_partial, C69_field_presets_partial, C69_variant_presets_partial, C69_definition_presets_partial (definitions; not for the OpenAPI settings): the same in the documents of the ready-made settings with their transforms, except for the keywords the transforms are about. Missing: transforms written by the user; the elements of tuples under transforms. C69_flattened_refuted (finding): nothing of what is attached to a flattened field is in the document.
* Theorems: `Properties_DefinitionMeta.C69_definition_presets_partial`, `Properties_DraftMeta.C69_presets`, `Properties_DraftMeta.C69_type_presets_partial`, `Properties_DraftMeta.C69_field_presets_partial`, `Properties_DraftMeta.C69_variant_presets_partial`, `Properties_Metadata.C69_type_partial`, `Properties_Metadata.C69_definition_partial`, `Properties_Metadata.C69_field_partial`, `Properties_Metadata.C69_variant_partial`, `Properties_Metadata.C69_flattened_refuted`, `Properties_TupleFields.C69_tuple_partial`, `Properties_TupleFields.C69_tuple_definition_partial`, `Properties_TupleVariants.C69_tuple_variant_partial`, `Properties_TupleVariants.C69_tuple_variant_definition_partial`, `Properties_VariantFields.C69_variant_field_partial`, `Properties_VariantFields.C69_variant_field_definition_partial`

### C70 Titles of untagged variants are there when asked for, and change nothing else

With SchemaSettings::untagged_enum_variant_titles, the alternative generated for a variant without a tag has the variant's name under the contract as its title, unless the variant has a title of its own, which is kept like everything else attached to it. Titles do not change what the document means: values of the type still validate against it, and under the deserialize contract it accepts exactly the JSON that the document without titles accepts. (For: all programs of derived types, all enums and all their variants without a tag, both contracts, all values and all JSON inputs, all settings without transforms.)

* Model and method: The derived code under the setting is that of the declarations with the title put before the other annotations of each variant without a tag (Titles.v). Presence follows from C69 for those declarations. For the meaning: serialization gives the same values (induction on values), what C46, C62 and C65 ask of declarations carries over, and what serde reads is the same (mutual induction on the reading relation, TitlesReads.v).
* Status: **partial**. C70_titles_partial: for the enum of the root; C70_definition_partial: for the enums in definitions. C70_values_validate_partial: for the types of C46 and C47. C70_same_json_accepted_partial: for the types of C62 and C65. C70_presets_partial: the ready-made settings with their transforms. Missing: transforms written by the user.
* Theorems: `Properties_DraftMeta.C70_presets_partial`, `Properties_Titles.C70_titles_partial`, `Properties_Titles.C70_definition_partial`, `Properties_Titles.C70_values_validate_partial`, `Properties_Titles.C70_same_json_accepted_partial`

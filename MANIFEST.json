{
 "claims": [
  {
   "property": "C01",
   "status": "partial",
   "theorems": [
    "Verif.Properties_Schema.C01_ref_resolves_partial",
    "Verif.Properties_Schema.C01_encoding_injective",
    "Verif.Properties_Schema.C01_ref_exact",
    "Verif.Properties_Schema.C01_lossy_iff",
    "Verif.Properties_Schema.C01_ref_resolves_refuted",
    "Verif.Properties_Schema.C01_ref_crosstalk_refuted"
   ],
   "note": "Proved for every name without a byte below 0x10; C01_ref_exact and C01_lossy_iff say exactly where the reference leads for every name, so the restriction is sharp. Refuted in general: such bytes are written with one hex digit (`%A`), so the reference dangles or reaches another definition."
  },
  {
   "property": "C02",
   "status": "partial",
   "theorems": [
    "Verif.Properties_Schema.C02_valid_fragment_partial",
    "Verif.Properties_Schema.C02_single_segment",
    "Verif.Properties_Schema.C02_valid_fragment_refuted"
   ],
   "note": "Proved for every name without a byte below 0x10 (sharp: refuted otherwise). The reference is one pointer segment for every name."
  },
  {
   "property": "C03",
   "status": "partial",
   "theorems": [
    "Verif.Properties_Schema.C03_percent_decode_partial",
    "Verif.Properties_Schema.C03_decoded_is_utf8",
    "Verif.Properties_Schema.C03_identity_without_percent",
    "Verif.Properties_Schema.C03_percent_decode_refuted"
   ],
   "note": "Equal to the RFC decoder on every string without `%+h`; on those it deviates (finding: `%+5` is decoded because from_str_radix accepts a sign). Totality and validity of the result for every string."
  },
  {
   "property": "C04",
   "status": "partial",
   "theorems": [
    "Verif.Properties_Schema.C04_write_then_read",
    "Verif.Properties_Schema.C04_write_back",
    "Verif.Properties_Schema.C04_mut_iff_shared",
    "Verif.Properties_Schema.C04_frame",
    "Verif.Properties_Schema.C04_bool_schema_none_refuted"
   ],
   "note": "All lens laws proved for every schema and pointer. The sentence of the documentation that `pointer` returns None for boolean schemas is refuted (`pointer(\"\")`)."
  },
  {
   "property": "C05",
   "status": "proved",
   "theorems": [
    "Verif.Properties_Schema.C05_history_refines_map",
    "Verif.Properties_Transform.C05_bool_conversion_faithful"
   ],
   "note": "Complete."
  },
  {
   "property": "C06",
   "status": "partial",
   "theorems": [
    "Verif.Properties_Schema.C06_try_from_exact",
    "Verif.Properties_Schema.C06_invariant_partial",
    "Verif.Properties_Schema.C06_invariant_refuted"
   ],
   "note": "Holds for every history that does not write through the root pointer; refuted for `pointer_mut(\"\")`, which lets safe code store null and later calls panic."
  },
  {
   "property": "C07",
   "status": "proved",
   "theorems": [
    "Verif.Properties_Schema.C07_serialize_lossless",
    "Verif.Properties_Schema.C07_serialize_order"
   ],
   "note": "Complete."
  },
  {
   "property": "C08",
   "status": "partial",
   "theorems": [
    "Verif.Properties_Generate.C08_references_resolve_partial",
    "Verif.Properties_Refs.C08_transformed_references_resolve_partial",
    "Verif.Properties_Refs.C08_foreign_references_resolve_partial"
   ],
   "note": "Without transforms (C08_references_resolve_partial), with any list of the seven transforms schemars ships when definitions lie under \"$defs\" or \"definitions\" (C08_transformed_references_resolve_partial: the reference leads to the definition as the same transforms leave it), and with definitions elsewhere, as in the OpenAPI settings (C08_foreign_references_resolve_partial). Missing: transforms written by the user, names with bytes below 0x10 (false there, C01), a definitions path blocked by the root schema (false there, C18)."
  },
  {
   "property": "C09",
   "status": "proved",
   "theorems": [
    "Verif.Properties_Generate.C09_distinct_types_distinct_definitions",
    "Verif.Properties_Generate.C09_definition_belongs_to_owner"
   ],
   "note": "Complete."
  },
  {
   "property": "C10",
   "status": "proved",
   "theorems": [
    "Verif.Properties_Generate.C10_name_choice",
    "Verif.Properties_Generate.C10_search_terminates",
    "Verif.Properties_Generate.C10_new_reference"
   ],
   "note": "Complete."
  },
  {
   "property": "C11",
   "status": "proved",
   "theorems": [
    "Verif.Properties_Generate.C11_references_stable",
    "Verif.Properties_Generate.C11_repeat_no_effect"
   ],
   "note": "Complete."
  },
  {
   "property": "C12",
   "status": "proved",
   "theorems": [
    "Verif.Properties_Generate.C12_definitions_written_once",
    "Verif.Properties_Generate.C12_no_placeholder"
   ],
   "note": "Complete."
  },
  {
   "property": "C13",
   "status": "proved",
   "theorems": [
    "Verif.Properties_Generate.C13_bookkeeping_restored",
    "Verif.Properties_Generate.C13_implementations_restore"
   ],
   "note": "Complete."
  },
  {
   "property": "C14",
   "status": "proved",
   "theorems": [
    "Verif.Properties_Generate.C14_generation_terminates",
    "Verif.Properties_Generate.C14_finitely_many_ids",
    "Verif.Properties_Generate.C14_fuel_irrelevant",
    "Verif.Properties_Generate.C14_inline_recursion_diverges"
   ],
   "note": "Complete."
  },
  {
   "property": "C15",
   "status": "partial",
   "theorems": [
    "Verif.Properties_Generate.C15_into_root_agrees",
    "Verif.Properties_Generate.C15_root_twice_partial",
    "Verif.Properties_Generate.C15_replay",
    "Verif.Properties_Generate.C15_root_twice_refuted"
   ],
   "note": "Agreement of the two is complete. Repetition is proved for implementations that use subschema_for, direct calls and settings; it is refuted for an implementation that embeds a root schema."
  },
  {
   "property": "C16",
   "status": "partial",
   "theorems": [
    "Verif.Properties_Generate.C16_hash_is_root_partial",
    "Verif.Properties_Generate.C16_hash_is_root_refuted"
   ],
   "note": "Proved for references asked for while this root is generated; refuted for a generator used for two roots (a definition left by the first keeps `#`)."
  },
  {
   "property": "C17",
   "status": "partial",
   "theorems": [
    "Verif.Properties_Generate.C17_clone_refuted",
    "Verif.Properties_Generate.C17_clone_partial",
    "Verif.Properties_Generate.C17_clone_of_empty"
   ],
   "note": "Refuted in general (finding: the clone hands out a wrong `$ref`). Proved when schema names tell types apart, and for clones of an empty generator."
  },
  {
   "property": "C18",
   "status": "partial",
   "theorems": [
    "Verif.Properties_Root.C18_path_spellings",
    "Verif.Properties_Schema.C18_definitions_placed",
    "Verif.Properties_Schema.C18_rest_untouched",
    "Verif.Properties_Schema.C18_no_definitions",
    "Verif.Properties_Schema.C18_definitions_placed_refuted",
    "Verif.Properties_Schema.C18_blocked_refuted"
   ],
   "note": "All proved with the side condition that the path starts with `/` (after `#`) and is not blocked; both conditions are sharp (refuted otherwise: all definitions are dropped silently). Path spellings covered."
  },
  {
   "property": "C19",
   "status": "proved",
   "theorems": [
    "Verif.Properties_Generate.C19_take_returns_all",
    "Verif.Properties_Generate.C19_reregistered"
   ],
   "note": "Complete."
  },
  {
   "property": "C20",
   "status": "proved",
   "theorems": [
    "Verif.Properties_Generate.C20_references_only_for_cycles",
    "Verif.Properties_Generate.C20_no_other_definitions",
    "Verif.Properties_Generate.C20_inlined"
   ],
   "note": "Complete."
  },
  {
   "property": "C21",
   "status": "proved",
   "theorems": [
    "Verif.Properties_Generate.C21_exactly_the_needed_definitions"
   ],
   "note": "Complete."
  },
  {
   "property": "C22",
   "status": "proved",
   "theorems": [
    "Verif.Properties_Transform.C22_visits_each_once",
    "Verif.Properties_Transform.C22_leaf",
    "Verif.Properties_Transform.C22_visits_exactly",
    "Verif.Properties_Transform.C22_all_subschemas_refuted"
   ],
   "note": "The three positive theorems are unrestricted and cover the property as stated (the documented keywords). C22_all_subschemas_refuted records that four further schema-valued keywords are not visited."
  },
  {
   "property": "C23",
   "status": "proved",
   "theorems": [
    "Verif.Properties_Transform.C23_recursive_spec",
    "Verif.Properties_Transform.C23_terminates",
    "Verif.Properties_Transform.C23_reaches_parents_first",
    "Verif.Properties_Transform.C23_always_returns_refuted"
   ],
   "note": "Complete under the termination condition of C23_terminates; C23_always_returns_refuted shows a transform for which there is no result."
  },
  {
   "property": "C24",
   "status": "proved",
   "theorems": [
    "Verif.Properties_Transform.C24_same_meaning",
    "Verif.Properties_Transform.C24_no_bool_schema_left",
    "Verif.Properties_Transform.C24_no_bool_schema_left_skip",
    "Verif.Properties_Transform.C24_only_bools_change",
    "Verif.Properties_Transform.C24_skip_only_additional_properties_refuted"
   ],
   "note": "Complete. The refutation is about the option skip_additional_properties keeping more than documented."
  },
  {
   "property": "C25",
   "status": "partial",
   "theorems": [
    "Verif.Properties_Transform.C25_same_meaning_partial",
    "Verif.Properties_Transform.C25_ref_alone",
    "Verif.Properties_Transform.C25_only_refs_change",
    "Verif.Properties_Transform.C25_same_meaning_refuted",
    "Verif.Properties_Transform.C25_hidden_refuted"
   ],
   "note": "Meaning preserved for schemas with a string `$ref`, an array `allOf` beside it and no schema in unvisited places; each condition is shown necessary."
  },
  {
   "property": "C26",
   "status": "partial",
   "theorems": [
    "Verif.Properties_Transform.C26_same_meaning_partial",
    "Verif.Properties_Transform.C26_no_const_left",
    "Verif.Properties_Transform.C26_only_const_changes",
    "Verif.Properties_Transform.C26_same_meaning_refuted"
   ],
   "note": "Meaning preserved when `const` and `enum` do not stand together (necessary: refuted)."
  },
  {
   "property": "C27",
   "status": "partial",
   "theorems": [
    "Verif.Properties_Transform.C27_same_meaning_partial",
    "Verif.Properties_Transform.C27_no_prefix_left_partial",
    "Verif.Properties_Transform.C27_only_items_change",
    "Verif.Properties_Transform.C27_same_meaning_refuted"
   ],
   "note": "Condition: arrays described in the 2020-12 way (necessary: refuted)."
  },
  {
   "property": "C28",
   "status": "proved",
   "theorems": [
    "Verif.Properties_Transform.C28_same_meaning",
    "Verif.Properties_Transform.C28_no_examples_left",
    "Verif.Properties_Transform.C28_only_examples_change"
   ],
   "note": "Complete."
  },
  {
   "property": "C29",
   "status": "partial",
   "theorems": [
    "Verif.Properties_Transform.C29_same_meaning_partial",
    "Verif.Properties_Transform.C29_no_null_type_left_partial",
    "Verif.Properties_Transform.C29_only_null_types_change",
    "Verif.Properties_Transform.C29_same_meaning_refuted",
    "Verif.Properties_Transform.C29_single_type_refuted"
   ],
   "note": "Condition nullable_ok (necessary: refuted for a `const` beside `type: null`); several remaining types stay an array (refuted for OpenAPI)."
  },
  {
   "property": "C30",
   "status": "partial",
   "theorems": [
    "Verif.Properties_Transform.C30_accepts_partial",
    "Verif.Properties_Transform.C30_no_uneval_left_partial",
    "Verif.Properties_Transform.C30_only_uneval_changes",
    "Verif.Properties_Transform.C30_accepts_refuted",
    "Verif.Properties_Transform.C30_patterns_refuted",
    "Verif.Properties_Transform.C30_no_uneval_left_refuted"
   ],
   "note": "Proved for positive positions and literally named properties; refuted for references, patternProperties and nested occurrences."
  },
  {
   "property": "C31",
   "status": "partial",
   "theorems": [
    "Verif.Properties_Transform.C31_exactly",
    "Verif.Properties_Transform.C31_only_permitted_left",
    "Verif.Properties_Transform.C31_only_formats_removed",
    "Verif.Properties_Transform.C31_same_meaning",
    "Verif.Properties_Transform.C31_unknown_meta_schema",
    "Verif.Properties_Transform.C31_missing_meta_schema_refuted"
   ],
   "note": "Complete but for the documented behaviour with a missing `$schema`, which is refuted (all formats are removed)."
  },
  {
   "property": "C32",
   "status": "partial",
   "theorems": [
    "Verif.Properties_Transform.C32_replace_bool",
    "Verif.Properties_Transform.C32_remove_ref_siblings",
    "Verif.Properties_Transform.C32_set_single_example",
    "Verif.Properties_Transform.C32_replace_const",
    "Verif.Properties_Transform.C32_replace_prefix_partial",
    "Verif.Properties_Transform.C32_add_nullable_partial",
    "Verif.Properties_Transform.C32_replace_uneval_partial",
    "Verif.Properties_Transform.C32_restrict_formats",
    "Verif.Properties_Transform.C32_replace_uneval_refuted",
    "Verif.Properties_Transform.C32_replace_prefix_refuted",
    "Verif.Properties_Transform.C32_add_nullable_refuted"
   ],
   "note": "Five of eight idempotent without condition; three under a condition, each refuted without it."
  },
  {
   "property": "C33",
   "status": "partial",
   "theorems": [
    "Verif.Properties_Transform.C33_draft07_same_meaning_partial",
    "Verif.Properties_Transform.C33_draft07_accepts_partial",
    "Verif.Properties_Transform.C33_draft2019_same_meaning_partial",
    "Verif.Properties_Transform.C33_draft07_document_partial",
    "Verif.Properties_Transform.C33_draft2019_document_partial"
   ],
   "note": "Condition shape07; C53 and Drafts.v prove that generated documents meet it (C55). unevaluatedProperties only gives one direction."
  },
  {
   "property": "C34",
   "status": "partial",
   "theorems": [
    "Verif.Properties_Transform.C34_same_meaning_partial",
    "Verif.Properties_Transform.C34_accepts_partial",
    "Verif.Properties_Transform.C34_same_meaning_refuted",
    "Verif.Properties_Transform.C34_components_refuted"
   ],
   "note": "Condition shape_oas (what OpenAPI 3.0 can express). Refuted: tuples; definitions under `components` are not transformed."
  },
  {
   "property": "C35",
   "status": "partial",
   "theorems": [
    "Verif.Properties_Private.C35_option_exact_partial",
    "Verif.Properties_Private.C35_other_keywords",
    "Verif.Properties_Private.C35_option_of_reference",
    "Verif.Properties_Private.C35_const_null_refuted",
    "Verif.Properties_Private.C35_not_refuted",
    "Verif.Properties_Private.C35_const_enum_refuted"
   ],
   "note": "Exact for every schema without the three excluded shapes; each exclusion is refuted by a counterexample."
  },
  {
   "property": "C36",
   "status": "partial",
   "theorems": [
    "Verif.Properties_Flatten.C36_both_partial",
    "Verif.Properties_Flatten.C36_union_partial",
    "Verif.Properties_Flatten.C36_structs",
    "Verif.Properties_Flatten.C36_map",
    "Verif.Properties_Flatten.C36_prepared_struct",
    "Verif.Properties_Flatten.C36_prepared_unit_enum",
    "Verif.Properties_Flatten.C36_flattened_enum",
    "Verif.Properties_Flatten.C36_flattened_enum_value",
    "Verif.Properties_Flatten.C36_two_maps_refuted"
   ],
   "note": "Conditions: no contradictory keywords (mergeable), or struct-like schemas, or a flattened externally tagged enum with undocumented variants (C36_flattened_enum, exact). Refuted for two flattened maps."
  },
  {
   "property": "C37",
   "status": "proved",
   "theorems": [
    "Verif.Properties_Private.C37_tag_enforced",
    "Verif.Properties_Private.C37_tag_struct",
    "Verif.Properties_Private.C37_tag_unit"
   ],
   "note": "Complete."
  },
  {
   "property": "C38",
   "status": "partial",
   "theorems": [
    "Verif.Properties_Private.C38_inserted_exactly",
    "Verif.Properties_Private.C38_nothing_else",
    "Verif.Properties_Private.C38_attribute_meaning_partial",
    "Verif.Properties_Private.C38_format_refuted",
    "Verif.Properties_Private.C38_reference_refuted"
   ],
   "note": "Refuted for `format` on other types and for schemas without a `type` (references)."
  },
  {
   "property": "C39",
   "status": "proved",
   "theorems": [
    "Verif.Properties_Text.C39_split",
    "Verif.Properties_Text.C39_white_space"
   ],
   "note": "Complete."
  },
  {
   "property": "C40",
   "status": "partial",
   "theorems": [
    "Verif.Properties_Text.C40_contains",
    "Verif.Properties_Text.C40_injective",
    "Verif.Properties_Text.C40_unicode_partial",
    "Verif.Properties_Text.C40_unicode_refuted"
   ],
   "note": "Matching complete; validity under the `u` flag refuted for texts with # & - ~."
  },
  {
   "property": "C41",
   "status": "partial",
   "theorems": [
    "Verif.Properties_Ser.C41_accepts_own_value_partial",
    "Verif.Properties_Ser.C41_example",
    "Verif.Properties_Ser.C41_sequences",
    "Verif.Properties_Ser.C41_tuples",
    "Verif.Properties_Ser.C41_structs",
    "Verif.Properties_Ser.C41_maps",
    "Verif.Properties_Ser.C41_option_monotone",
    "Verif.Properties_Ser.C41_title",
    "Verif.Properties_Ser.C41_nan_refuted",
    "Verif.Properties_Ser.C41_escaped_key_refuted"
   ],
   "note": "Conditions: finite floats and map keys that need no JSON escaping; both necessary (refuted)."
  },
  {
   "property": "C42",
   "status": "partial",
   "theorems": [
    "Verif.Properties_Sound.C42_standard_values_validate_partial",
    "Verif.Properties_Sound.C42_dead_weak_refuted",
    "Verif.Properties_Sound.C42_nan_refuted",
    "Verif.Properties_Sound.C42_set_duplicates_refuted"
   ],
   "note": "Either contract; conditions: see `std`, `weak_keys_free` and `plain_settings`. Refuted: dead Weak, NaN, sets whose elements coincide in JSON."
  },
  {
   "property": "C43",
   "status": "proved",
   "theorems": [
    "Verif.Properties_Types.C43_out_of_range_rejected",
    "Verif.Properties_Types.C43_exact_range",
    "Verif.Properties_Types.C43_in_range_accepted",
    "Verif.Properties_Types.C43_nonzero",
    "Verif.Properties_Types.C43_wide_types_unbounded"
   ],
   "note": "Complete."
  },
  {
   "property": "C44",
   "status": "partial",
   "theorems": [
    "Verif.Properties_Types.C44_map_meaning",
    "Verif.Properties_Types.C44_integer_keys",
    "Verif.Properties_Types.C44_integer_keys_admitted",
    "Verif.Properties_Types.C44_string_keys",
    "Verif.Properties_Types.C44_enum_keys",
    "Verif.Properties_Types.C44_nonzero_keys_refuted",
    "Verif.Properties_Types.C44_bool_keys_refuted",
    "Verif.Properties_Types.C44_encoded_name_refuted"
   ],
   "note": "Refuted: NonZero unsigned keys, bool keys, definition names that need percent encoding."
  },
  {
   "property": "C45",
   "status": "partial",
   "theorems": [
    "Verif.Properties_Id.C45_id_determines_schema_partial",
    "Verif.Properties_Id.C45_const_parameters_refuted",
    "Verif.Properties_Id.C45_type_parameters_refuted",
    "Verif.Properties_Id.C45_same_path_refuted",
    "Verif.Properties_Id.C45_arrayvec_refuted"
   ],
   "note": "Conditions: distinct items have distinct ids, all generic parameters appear in the schema name. Refuted: const parameters, unused type parameters, same path, ArrayVec (whose id is its name: `ArrayVec<a::T, 2>` and `ArrayVec<b::T, 2>` have one id)."
  },
  {
   "property": "C46",
   "status": "partial",
   "theorems": [
    "Verif.Properties_Sound.C46_struct_values_validate_partial",
    "Verif.Properties_Sound.C46_skipped_element_refuted",
    "Verif.Properties_Sound.C46_skipped_flatten_refuted",
    "Verif.Properties_Sound.C46_required_none_refuted",
    "Verif.Properties_Sound.C46_flattened_map_key_refuted",
    "Verif.Properties_Sound.C46_flattened_documented_unit_refuted",
    "Verif.Properties_Sound.C46_flattened_untagged_refuted"
   ],
   "note": "Either contract (for deserialize: types written as they are read, see C52). Types of other crates (uuid, url, chrono, jiff, either, arrayvec, bytes, decimals, semver), types with from/into conversions and JsonSchema_repr enums are included. Fields may have validation attributes; the values considered meet them (Serde.v: `checks`). Fields may flatten structs and enums (externally tagged with unit variants without attributes, internally tagged with unit and struct variants, or adjacently tagged; no untagged variants), or one string-keyed map and nothing else. Missing: flattened untagged enums, flattened internally tagged enums with newtype variants, and a map flattened next to other flattened fields. Refuted: skipped tuple elements, skipped flattened fields, schemars(required) on an Option, a flattened map with a key that is the name of an omitted field, a flattened enum with a documented unit variant, a flattened untagged enum around a struct that denies unknown fields."
  },
  {
   "property": "C47",
   "status": "partial",
   "theorems": [
    "Verif.Properties_Sound.C47_enum_values_validate_partial",
    "Verif.Properties_Sound.C47_skipped_newtype_refuted",
    "Verif.Properties_Sound.C47_tagged_enum_refuted"
   ],
   "note": "Either contract (for deserialize: types written as they are read, see C52); refuted: skipped newtype content, an enum inside an internally tagged variant."
  },
  {
   "property": "C48",
   "status": "partial",
   "theorems": [
    "Verif.Properties_DraftMeta.C48_deserialize_presets_partial",
    "Verif.Properties_DraftMeta.C48_serialize_presets_partial",
    "Verif.Properties_Required.C48_properties_partial",
    "Verif.Properties_Required.C48_deserialize_required_partial",
    "Verif.Properties_Required.C48_serialize_required_partial",
    "Verif.Properties_Required.C48_weak_refuted",
    "Verif.Properties_Required.C48_converted_refuted",
    "Verif.Properties_Required.C48_skipped_flatten_refuted",
    "Verif.Properties_RequiredEnum.C48_variant_properties_partial",
    "Verif.Properties_RequiredEnum.C48_variant_deserialize_partial",
    "Verif.Properties_RequiredEnum.C48_variant_serialize_partial",
    "Verif.Properties_RequiredEnum.C48_variant_weak_refuted"
   ],
   "note": "Structs with named fields, struct variants of enums in each representation, and structs flattened into either. Missing: flattened maps and enums, the content of newtype variants, `alias`. Refuted: Weak, types converted with serde(from = \"Option<..>\"), skipped flattened structs. C48_deserialize_presets_partial, C48_serialize_presets_partial: structs in the documents of the ready-made settings with their transforms."
  },
  {
   "property": "C49",
   "status": "proved",
   "theorems": [
    "Verif.Properties_Attrs.C49_effective_items",
    "Verif.Properties_Attrs.C49_override",
    "Verif.Properties_Attrs.C49_unset",
    "Verif.Properties_Attrs.C49_inherit",
    "Verif.Properties_Attrs.C49_with_kept",
    "Verif.Properties_Attrs.C49_other_attributes",
    "Verif.Properties_Attrs.C49_errors",
    "Verif.Properties_Attrs.C49_idempotent"
   ],
   "note": "Complete."
  },
  {
   "property": "C50",
   "status": "proved",
   "theorems": [
    "Verif.Properties_Private.C50_length_precedence",
    "Verif.Properties_Private.C50_range_precedence",
    "Verif.Properties_Private.C50_exclusive"
   ],
   "note": "Complete."
  },
  {
   "property": "C51",
   "status": "proved",
   "theorems": [
    "Verif.Properties_Root.C51_root_schema_for",
    "Verif.Properties_Root.C51_into_root_schema_for",
    "Verif.Properties_Root.C51_into_same"
   ],
   "note": "Complete: settings without transforms, and a definitions path that does not denote the root itself (`//`)."
  },
  {
   "property": "C52",
   "status": "partial",
   "theorems": [
    "Verif.Properties_Contract.C52_default_contract_accepts_partial",
    "Verif.Properties_Contract.C52_two_names_refuted",
    "Verif.Properties_Contract.C52_left_out_refuted",
    "Verif.Properties_Contract.C52_only_written_refuted",
    "Verif.Properties_Contract.C52_only_written_variant_refuted"
   ],
   "note": "Same fragment as C46/C47 (`supported`). Refuted without each condition: two names, a field left out, a field or variant that is only written. Types with conversions are included if they are converted from and into the same type (see C61_into_only_refuted)."
  },
  {
   "property": "C53",
   "status": "partial",
   "theorems": [
    "Verif.Properties_DraftMeta.C53_required_once_presets_partial",
    "Verif.Properties_RequiredOnce.C53_required_once_partial",
    "Verif.Properties_RequiredOnce.C53_required_once_definition_partial",
    "Verif.Properties_VariantFields.C53_required_once_variant_partial",
    "Verif.Properties_Wellformed.C53_wellformed_partial",
    "Verif.Properties_Wellformed.C53_no_variants_left_refuted",
    "Verif.Properties_Wellformed.C53_no_names_left_refuted",
    "Verif.Properties_Wellformed.C53_required_twice_refuted",
    "Verif.Properties_Wellformed.C53_negative_length_refuted"
   ],
   "note": "C53_wellformed_partial. C53_required_once_partial, C53_required_once_definition_partial, C53_required_once_variant_partial: no name is in \"required\" twice, for structs and struct variants (root and definitions) in which no two fields have a property of the same name; refuted by C53_required_twice_refuted when a flattened struct repeats a name. Missing: declarations whose metadata contains keywords, settings with transforms (see C33 and C54). Validation attributes must have numbers as bounds of ranges and non-negative integers as bounds of lengths (C53_negative_length_refuted). Findings: an enum whose variants are all skipped gives \"oneOf\": [] or \"enum\": [], which is not a schema (C53_no_variants_left_refuted, C53_no_names_left_refuted). C53_required_once_presets_partial: the same for the ready-made settings with their transforms."
  },
  {
   "property": "C54",
   "status": "proved",
   "theorems": [
    "Verif.Properties_Drafts.C54_transforms_last",
    "Verif.Properties_Drafts.C54_subschemas"
   ],
   "note": "For all programs built from the modelled types; generic user-written JsonSchema implementations that call root_schema_for themselves are outside (for those the document would be transformed twice)."
  },
  {
   "property": "C55",
   "status": "partial",
   "theorems": [
    "Verif.Properties_Drafts.C55_draft07_same_instances_partial",
    "Verif.Properties_Drafts.C55_draft2019_same_instances_partial",
    "Verif.Properties_Drafts.C55_draft07_values_partial",
    "Verif.Properties_Drafts.C55_draft2019_values_partial",
    "Verif.Properties_Drafts.C55_openapi3_same_instances_partial"
   ],
   "note": "Partial: types with flattened fields under deny_unknown_fields (unevaluatedProperties) are left out for all three, and types whose schemas use prefixItems or patternProperties for OpenAPI; for OpenAPI the definitions are those of take_definitions(true), since those inside the document stay untransformed (C34_components_refuted). Definitions must be placed directly under $defs or definitions for draft-07 and 2019-09."
  },
  {
   "property": "C56",
   "status": "proved",
   "theorems": [
    "Verif.Properties_Name.C56_template_renders",
    "Verif.Properties_Name.C56_only_templates",
    "Verif.Properties_Name.C56_rejects_exactly",
    "Verif.Properties_Name.C56_plain",
    "Verif.Properties_Name.C56_adt_name",
    "Verif.Properties_Name.C56_closing_brace_refuted",
    "Verif.Properties_Name.C56_check_alone_refuted"
   ],
   "note": "Findings: a doubled closing brace in a text without an opening brace stays doubled in the name, and a lone one is accepted there (C56_closing_brace_refuted); the macro's own check accepts texts that are no templates, which only format! rejects (C56_check_alone_refuted). Placeholders with format specs ({T:>5}) are outside the specification: the macro rejects them."
  },
  {
   "property": "C57",
   "status": "partial",
   "theorems": [
    "Verif.Properties_Generic.C57_irrelevant_params_partial",
    "Verif.Properties_Generic.C57_relevant_bounds",
    "Verif.Properties_Generic.C57_used_params",
    "Verif.Properties_Generic.C57_schema_with_refuted",
    "Verif.Properties_Generic.C57_macro_refuted",
    "Verif.Properties_Generic.C57_skipped_newtype_refuted",
    "Verif.Properties_Generic.C57_variant_with_refuted",
    "Verif.Properties_Generic.C57_own_phantom_refuted",
    "Verif.Properties_Generic.C57_from_refuted"
   ],
   "note": "Proved for declarations without schema_with functions, type macros or variant-level with attributes that depend on params and without skipped newtype fields; for each of these the claim is false: C57_schema_with_refuted, C57_macro_refuted, C57_variant_with_refuted, C57_skipped_newtype_refuted, C57_from_refuted for a from or into type that mentions a param no field mentions, and C57_own_phantom_refuted for a user's own type named PhantomData."
  },
  {
   "property": "C58",
   "status": "proved",
   "theorems": [
    "Verif.Properties_Common.C58_metadata",
    "Verif.Properties_Common.C58_transforms_last",
    "Verif.Properties_Common.C58_runs",
    "Verif.Properties_Common.C58_doc_lines",
    "Verif.Properties_Common.C58_order",
    "Verif.Properties_Common.C58_example_dropped_refuted"
   ],
   "note": "An example that serde_json cannot serialize is silently left out, and may leave an empty \"examples\" (C58_example_dropped_refuted). The Rust expressions are abstract: their text, JSON value and effect as a transform are given. Statements are run by common_mutators; the derive model of Types.v uses the effect of title, description and deprecated only."
  },
  {
   "property": "C59",
   "status": "proved",
   "theorems": [
    "Verif.Properties_Common.C59_field_items",
    "Verif.Properties_Common.C59_variant_items",
    "Verif.Properties_Common.C59_container_items",
    "Verif.Properties_Common.C59_source",
    "Verif.Properties_Common.C59_ignored_transform_refuted"
   ],
   "note": "The errors of the validation items (range, length, ...) are not part of this statement: only their names are. `!inline` and `!_unstable_ref_variants` are excluded by no_unset (they are treated in C49). A transform written as a string that does not parse as an expression is accepted and ignored (C59_ignored_transform_refuted)."
  },
  {
   "property": "C60",
   "status": "proved",
   "theorems": [
    "Verif.Properties_Convert.C60_repr_exact",
    "Verif.Properties_Convert.C60_repr_document",
    "Verif.Properties_Convert.C60_repr_values"
   ],
   "note": "The annotations must be annotations (no extend with an asserting keyword) and for the document there are no transforms."
  },
  {
   "property": "C61",
   "status": "partial",
   "theorems": [
    "Verif.Properties_Convert.C61_converted",
    "Verif.Properties_Convert.C61_other_mode",
    "Verif.Properties_Convert.C61_written_values",
    "Verif.Properties_Convert.C61_into_only_refuted"
   ],
   "note": "With into alone the document for deserialization describes the type's own fields and so rejects what is written (C61_into_only_refuted); this is what the attribute says, and C52 excludes it."
  },
  {
   "property": "C62",
   "status": "partial",
   "theorems": [
    "Verif.Properties_Reads.C62_accepted_json_is_read_partial",
    "Verif.Properties_Reads.C62_integral_float_refuted",
    "Verif.Properties_Reads.C62_integer_key_refuted",
    "Verif.Properties_Reads.C62_char_key_refuted",
    "Verif.Properties_Reads.C62_adjacent_content_refuted",
    "Verif.Properties_Reads.C62_map_first_refuted",
    "Verif.Properties_Reads.C62_void_map_refuted",
    "Verif.Properties_Reads.C62_unknown_key_refuted",
    "Verif.Properties_Reads.C62_time_delta_refuted",
    "Verif.Properties_Reads.C62_unchecked_formats_refuted"
   ],
   "note": "Validation attributes are covered where they narrow the field's type (`narrows`; see C63). Flattened structs (also inside an Option) are covered where no two fields look at the same key, as are newtype variants of internally tagged enums around a struct that ignores unknown fields. A flattened map is covered if its keys are strings, it comes after the other flattened fields, these are structs without flattened fields of their own, and its value type is not an empty enum, a conversion or a newtype (`solid`). Missing: flattened enums, a flattened Option beside a flattened map, flattened fields of structs that deny unknown fields, maps with keys other than strings, 128-bit integers, Result, Bound, Range, Duration, SystemTime, OsString, CString, TimeDelta, semver and decimal types. Refuted without the exceptions: 1.0 for an integer, integer and char map keys, contents of an adjacently tagged unit variant, a further key beside those of Duration, Range, Result and Bound, a TimeDelta out of range, a flattened map before a flattened struct, a flattened map of values of an empty enum (its schema stops nothing), and validators that do not check formats."
  },
  {
   "property": "C63",
   "status": "partial",
   "theorems": [
    "Verif.Properties_Enforce.C63_validation_enforced_partial",
    "Verif.Properties_Enforce.C63_struct_fields_partial",
    "Verif.Properties_Enforce.C63_reference_refuted",
    "Verif.Properties_Enforce.C63_range_replaces_bounds_refuted"
   ],
   "note": "C63_validation_enforced_partial, C63_struct_fields_partial. Missing: the types C62 leaves out and attributes that do not narrow the type. Refuted: an attribute on a field whose schema is a reference has no effect (C63_reference_refuted); range bounds replace the bounds of the integer type (C63_range_replaces_bounds_refuted)."
  },
  {
   "property": "C64",
   "status": "partial",
   "theorems": [
    "Verif.Properties_Settings.C64_for_serialize_partial",
    "Verif.Properties_Settings.C64_for_deserialize_partial",
    "Verif.Properties_Settings.C64_with_transform",
    "Verif.Properties_Settings.C64_meta_schema"
   ],
   "note": "The contract theorems are partial as C46 and C62 are; C64_with_transform and C64_meta_schema cover all modelled types."
  },
  {
   "property": "C65",
   "status": "partial",
   "theorems": [
    "Verif.Properties_Accepts.C65_read_json_is_accepted_partial",
    "Verif.Properties_Accepts.C65_exactly_what_serde_reads_partial",
    "Verif.Properties_Accepts.C65_weak_null_refuted",
    "Verif.Properties_Accepts.C65_repeated_element_refuted",
    "Verif.Properties_Accepts.C65_required_option_refuted",
    "Verif.Properties_Accepts.C65_flattened_option_refuted",
    "Verif.Properties_Accepts.C65_adjacent_null_refuted",
    "Verif.Properties_Accepts.C65_internal_unit_refuted",
    "Verif.Properties_Accepts.C65_alias_refuted"
   ],
   "note": "Partial: flattened enums and Options, flattened fields of structs that deny unknown fields, enum keys, types converted from an Option with serde(from), Decimal, OsString and CString are not covered. Weak from null, sets from repeated elements, `required` on Options, flattened Options of another type and unit variants with a tag where unknown fields are denied are refuted, and so are names given with serde(alias), which the derive macro does not look at."
  },
  {
   "property": "C66",
   "status": "partial",
   "theorems": [
    "Verif.Properties_Accepts.C66_settings_do_not_change_what_is_accepted_partial",
    "Verif.Properties_Accepts.C66_validation_attributes_refuted"
   ],
   "note": "Partial: the fragment is that of C62 and C65. Refuted for validation attributes on fields of derived types: they have an effect only where the schema of the type is inlined."
  },
  {
   "property": "C67",
   "status": "proved",
   "theorems": [
    "Verif.Properties_Both.C67_one_document",
    "Verif.Properties_Both.C67_option_differs",
    "Verif.Properties_Both.C67_default_differs",
    "Verif.Properties_Both.C67_names_differs",
    "Verif.Properties_Both.C67_types_differs"
   ],
   "note": "Each condition is shown necessary: C67_option_differs, C67_default_differs, C67_names_differs, C67_types_differs."
  },
  {
   "property": "C68",
   "status": "partial",
   "theorems": [
    "Verif.Properties_Default.C68_default_partial",
    "Verif.Properties_Default.C68_definition_partial",
    "Verif.Properties_Default.C68_default_accepted_partial",
    "Verif.Properties_Default.C68_required_refuted",
    "Verif.Properties_DraftMeta.C68_presets_partial",
    "Verif.Properties_VariantFields.C68_variant_partial"
   ],
   "note": "C68_default_partial: the property of the field has what value_json gives as \"default\". C68_definition_partial: the same for the structs in definitions. C68_variant_partial: the same for struct variants (in definitions: C69_variant_field_definition_partial). C68_default_accepted_partial: the schema of the property accepts it, for defaults that fit the field. Missing: structs with flattened enums or maps, serialize_with, and fields whose name a later field has again. C68_required_refuted (finding): serde(default) with schemars(required) on an Option gives a null default that the schema of the property refuses. C68_presets_partial: the document has the default also under the ready-made settings with their transforms."
  },
  {
   "property": "C69",
   "status": "partial",
   "theorems": [
    "Verif.Properties_DefinitionMeta.C69_definition_presets_partial",
    "Verif.Properties_DraftMeta.C69_presets",
    "Verif.Properties_DraftMeta.C69_type_presets_partial",
    "Verif.Properties_DraftMeta.C69_field_presets_partial",
    "Verif.Properties_DraftMeta.C69_variant_presets_partial",
    "Verif.Properties_Metadata.C69_type_partial",
    "Verif.Properties_Metadata.C69_definition_partial",
    "Verif.Properties_Metadata.C69_field_partial",
    "Verif.Properties_Metadata.C69_variant_partial",
    "Verif.Properties_Metadata.C69_flattened_refuted",
    "Verif.Properties_TupleFields.C69_tuple_partial",
    "Verif.Properties_TupleFields.C69_tuple_definition_partial",
    "Verif.Properties_TupleVariants.C69_tuple_variant_partial",
    "Verif.Properties_TupleVariants.C69_tuple_variant_definition_partial",
    "Verif.Properties_VariantFields.C69_variant_field_partial",
    "Verif.Properties_VariantFields.C69_variant_field_definition_partial"
   ],
   "note": "C69_type_partial, C69_field_partial, C69_variant_partial: for the root type of the document under settings without transforms. C69_definition_partial: all of this for the types in definitions. C69_variant_field_partial, C69_variant_field_definition_partial: the fields of struct variants. C69_tuple_partial, C69_tuple_definition_partial: the fields of newtype and tuple structs. C69_tuple_variant_partial, C69_tuple_variant_definition_partial: the fields of newtype and tuple variants. C69_presets, C69_type_presets_partial, C69_field_presets_partial, C69_variant_presets_partial, C69_definition_presets_partial (definitions; not for the OpenAPI settings): the same in the documents of the ready-made settings with their transforms, except for the keywords the transforms are about. Missing: transforms written by the user; the elements of tuples under transforms. C69_flattened_refuted (finding): nothing of what is attached to a flattened field is in the document."
  },
  {
   "property": "C70",
   "status": "partial",
   "theorems": [
    "Verif.Properties_DraftMeta.C70_presets_partial",
    "Verif.Properties_Titles.C70_titles_partial",
    "Verif.Properties_Titles.C70_definition_partial",
    "Verif.Properties_Titles.C70_values_validate_partial",
    "Verif.Properties_Titles.C70_same_json_accepted_partial"
   ],
   "note": "C70_titles_partial: for the enum of the root; C70_definition_partial: for the enums in definitions. C70_values_validate_partial: for the types of C46 and C47. C70_same_json_accepted_partial: for the types of C62 and C65. C70_presets_partial: the ready-made settings with their transforms. Missing: transforms written by the user."
  }
 ]
}

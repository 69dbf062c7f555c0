# Formal model of schemars 1.2.0 in Rocq (Coq 8.16.1)

Everything is in `rocq/theories`. The pinned source is `/repo` (read as text, never built).
This file is assembled by `tools/design.py` from `tools/design_head.md` and the per-property
plans in `tools/notes.json`.

## Layout

| Files | Contents |
|---|---|
| `Json.v`, `JsonFacts.v` | JSON values, numbers, sorted maps (serde_json without `preserve_order`) |
| `Utf8.v`, `Encoding.v`, `Pointer.v` | UTF-8, `encoding.rs`, `Value::pointer`, `json_pointer_mut`, `add_definitions` |
| `SchemaApi.v`, `SchemaSer.v` | `schema.rs`: the methods of `Schema`, the ordered serializer |
| `SchemaSpec.v` | SPECIFICATION: finite maps with a boolean state, RFC 3986 and RFC 6901 |
| `Validate.v` | SPECIFICATION: JSON Schema validation (2020-12, 2019-09, draft-07, OpenAPI 3.0), independent of the code; references are interpreted by an arbitrary predicate `R` |
| `ValidateKw.v`, `ValidateRefs.v`, `ValidateFacts.v` | facts about the specification, and the construction of an `R` that is right for a given document |
| `Settings.v` | `generate.rs`: the ready-made settings (draft07, draft2019_09, draft2020_12, openapi3) and the builder methods |
| `Generate.v` | `generate.rs`: the generator, running arbitrary `JsonSchema` implementations (`prog`) |
| `GenerateSpec.v` | SPECIFICATION of histories: traces, reachability, frames |
| `Derivation.v` | what generated schemas are made of, without the generator |
| `Transform.v` (+ `TransformSpec.v`) | `transform.rs` |
| `Private.v`, `Rustdoc.v`, `RegexSyntax.v` | `_private/mod.rs`, `rustdoc.rs`, `regex_syntax.rs`; the ECMA-262 regular expression semantics is a SPECIFICATION inside `RegexSyntax.v` |
| `SerValue.v` | `ser.rs`; `to_json` is the SPECIFICATION of serde_json's serializer |
| `Types.v` | `json_schema_impls/*` and the schema expressions of `schemars_derive` |
| `Serde.v` | SPECIFICATION: the values of a type and what serde's derived `Serialize` writes; `checks` says which texts and which field values (validation attributes) count as proper |
| `Reads.v` | SPECIFICATION: the JSON values from which serde's `Deserialize` makes a value of a type |
| `Accepts.v` | SPECIFICATION: the types for which it is shown that schemas accept all that serde reads |
| `Attrs.v`, `ValidationAttrs.v`, `CommonAttrs.v` | `schemars_derive/src/attr/*` (serde override, validation items, metadata and source items) |
| `NameFormat.v`, `GenericParams.v` | `schemars_derive/src/name.rs`, `bound.rs`; the SPECIFICATION of `format!` templates is at the top of `NameFormatProofs.v` |
| `*Proofs.v`, `*Facts.v`, `Sound*.v`, `Type*.v`, `Required*.v`, … | lemmas |
| `Properties_*.v` | the property theorems only, each followed by `Print Assumptions` and an `Example` meeting its hypotheses |

Naming: `Cnn_…` proves property Cnn (or a named part of it) for everything it quantifies over;
`Cnn_…_partial` proves it under extra hypotheses; `Cnn_…_refuted` is a proved counterexample: the
English sentence is false of the code, so this is a finding.

## Modelling decisions

* Rust strings are Coq byte strings with `utf8_valid` where the code relies on it.
* `serde_json::Map` is a list of pairs sorted by key, without duplicates (`preserve_order` off).
  Numbers are integers or dyadic rationals `m * 2^e`, unbounded, so
  the model admits more numbers than the code, never fewer.
* A type implementing `JsonSchema` is an element of an arbitrary Coq type with a name, an id, the
  inline flag and a `prog`: a free program over the generator's public methods. Nothing is assumed
  about it (no purity, no agreement between id and name), so theorems C08–C21 hold for hand-written
  implementations too.
* Recursion of implementations is run with fuel; `C14_fuel_irrelevant` shows the result does not
  depend on it and C14 that it suffices.
* Panics are explicit results (`option`/error values) in the models of `schema.rs`, `rustdoc.rs`
  and `encoding.rs`.
* Transforms have a state (they are `FnMut`): the model threads it.
* The derive macro is modelled as the function from the *parsed* item (attributes after
  `schemars_to_serde`, serde_derive_internals' renaming already applied to names) to the program
  that its generated code is. Token generation, spans and hygiene are not modelled.
* `Serde.v` states what serde and serde_json write, `Reads.v` what they read. Their sources are not in
  `/repo`; the specifications follow their documentation and are part of the trusted base of C41, C42,
  C46–C48 (writing) and C62 (reading). The same goes for the types of other crates (`Uuid`, `TimeDelta`, …).

## What is modelled and what is not

Modelled: `encoding.rs`; `schema.rs` (all methods, `From`, `TryFrom`, Serialize, Deserialize);
`generate.rs` (all of it but `Debug`, the builder methods of `SchemaSettings`, and `dyn` cloning of
transforms, which the model does by value); `transform.rs` (all transforms);
`_private/mod.rs`, `rustdoc.rs`, `regex_syntax.rs`; `ser.rs`; `json_schema_impls/{array, atomic,
core, ffi, maps, nonzero_*, primitives, sequences, serdejson, std_time, tuple, wrapper}` and those of other crates (`arrayvec07`, `bytes1`, `chrono04`, `either1`,
`indexmap2`, `jiff02`, `decimal`, `semver1`, `smallvec1`, `smol_str`, `url2`, `uuid1`) for the
types that are constructors of `rty` (`Types.v`); in `schemars_derive`: `schemars_to_serde.rs`,
`validation.rs`, `name.rs`, `bound.rs` (but not the trait bounds it adds), and `schema_exprs.rs` for structs and enums with the attributes listed at the
records of `Types.v` (`transparent` gives the expression of a newtype struct and is represented as
one; a container's `with` is a conversion both ways).

Not modelled: `schemars_derive`'s
parsing of tokens, `with`/`schema_with` on fields and variants
(other than as opaque types), remote derive;
the macros `schema_for!`, `json_schema!`; feature `preserve_order`.

## Trusted base

* Coq 8.16.1's kernel (including `vm_compute`, used in examples and refutations only on closed
  computations).
* `Print Assumptions` stands after each property theorem and prints "Closed under the global
  context" for every one of them: no axiom is used, none is added. (The libraries loaded contain
  the seven constants of `Coq.ssr.ssrunder`, which no theorem uses.)
* The faithfulness of the definitions that carry a comment with lines of `/repo`. Tested by
  `seeded/LOG.jsonl`: realistic bugs put into the model and the theorems that then fail.
* The SPECIFICATION files above.


# Formal model of pydantic-core in Rocq (Coq 8.16.1)

## Trusted base

* Coq's kernel (coqc 8.16.1; `coqchk` re-checks the .vo files).
* Axioms: none of our own.  `Print Assumptions` is printed under every property
  theorem; the expected answer is "Closed under the global context" everywhere.
  Any standard library axiom that appears is listed in the section
  "Assumptions" at the end of this file.
* The hand translation Rust -> Gallina.  Every definition in a model file cites
  the file and lines it models, and says what was simplified.
* External code that the model does not open is listed under "External code";
  each item is a universally quantified argument of the theorems (usually a
  field of `env` in Interp.v or SerBase.v) or a definition written from the
  item's documentation.
* What is and what is not modelled is listed under "Coverage of the source".

## Conventions

* `theories/<Area>.v` holds the model of an area (definitions only),
  `<Area>Spec.v` the independent specification (when it is more than a line),
  `<Area>Proofs.v` lemmas, `<Area>Props.v` the property theorems, each closed
  by `exact lemma.` with `Print Assumptions` and an `Example` showing the
  hypotheses are met by a concrete non-trivial case.
* Theorems named `..._refuted` exhibit an input for which the plain English
  statement is false of the code (a finding).
* Theorems named `..._partial` prove part of a property; the missing part is
  written next to them and in MANIFEST.json.
* Strings are lists of Unicode code points (`N`); byte strings lists of bytes.
* `&mut` state is passed and returned; panics are explicit results; recursion
  that Rust does not bound structurally takes fuel with an explicit
  out-of-fuel result that every statement excludes.
* Validators are modelled as functions `input -> state -> result * state`.
  Combinators (list, dict, union, ...) are modelled as functions of the child
  validators, so their theorems quantify over *all* child behaviours; the
  interpreter `Interp.v` ties the knot for a schema data type, and global
  theorems (conformance, strict-implies-lax, ...) are by induction there.

## Plan per property

| id | what is modelled | files | how it is proved |
|----|------------------|-------|------------------|
| C01, C02 | RecursionStack (array of 16, then set), RecursionGuard scopes | RecGuard | refinement to a stack, induction over operation lists and scope trees |
| C03 | definition-ref validation over a heap of objects | RecGuard | well-founded measure (unvisited pairs) |
| C04, C05, C07 | shared.rs string cleaning, jiter int grammar | IntParse | independent grammar, equivalence by list induction |
| C06, C08, C09 | float_as_int, int.rs, float.rs constraints | Numbers, Float64 | exact dyadic arithmetic, reflection to Z |
| C10, C11 | lookup_key.rs | LookupKey | induction on paths and JSON trees |
| C12-C17, C60 | return_enums.rs loops, list/set/frozenset/dict validators, allow_partial | Collections | induction on the input, arbitrary item validator |
| C18-C20 | model_fields.rs | ModelFields | induction on the field list, arbitrary child validators |
| C21, C61 | typed_dict.rs | TypedDict | induction; refutation by computation |
| C22-C25 | union.rs, exactness, fields-set counts; for C25 every validator | Union; Interp, BooksSpec.v | induction on choices, arbitrary choices; C25 for whole schemas by induction on the schema and the recursion fuel (BooksProofs.v), for schemas that never omit and never carry on after an error of a part with a smart union in it; without smart unions for every schema and every result (SolidProofs.v) |
| C26 | tagged unions | TaggedUnion | case analysis over arbitrary choices |
| C27, C41, C42 | default, nullable, chain, json-or-python, lax-or-strict, custom-error and function wrappers | Wrappers | case analysis over arbitrary children |
| C28 | the interpreter run twice, strict and not | Strict* | a relation between the two runs, induction on the schema and on fuel |
| C29 | the interpreter | Conform* | an independent inductive relation `conforms`, induction on the schema and on fuel |
| C30 | the interpreter run on its own output | Stable* | inductive relation "strict validation gives it back" |
| C31 | the interpreter's line errors | Locate* | inductive relation "the path leads to the value", postcondition of every loop |
| C32 | the interpreter | Interp* | invariant "no empty error list" |
| C33, C34 | the interpreter run twice (JSON/Python; dirty/fresh state) | Rel* | simulation relation between the two runs |
| C35 | definitions.rs builder as a state machine | Defs | invariant over operation lists |
| C36 | literal.rs | Literal | list induction |
| C37 | tuple.rs | Tuple | list induction |
| C38, C39 | arguments.rs, dataclass.rs | Arguments | induction on parameters; CPython's binding rule as specification |
| C40 | validate_assignment of models and dataclasses | Assign | case analysis over object states |
| C43 | generator.rs as a state machine | Generator | induction over next() calls |
| C44 | tools.rs on UTF-8 byte strings | Truncate, Utf8 | arithmetic on boundaries |
| C45, C46 | filter.rs | Filter | case analysis, induction on nested filters |
| C47-C50, C57, C58 | serializer interpreter: 26 kinds of serializer, inference of unknown values, warnings | SerBase, Ser, SerFields* | induction on fuel and values (SerInd), a state invariant for warnings |
| C51 | serializer then validator | RoundTrip* | induction on the schema, forward lemmas of the loops |
| C52 | ser.rs writer; RFC 8259 as a relation | JsonText* | induction on JSON trees; unambiguity of the grammar |
| C53 | config.rs hex/base64 | BytesCodec | list induction |
| C54, C55, C59 | datetime.rs arithmetic, TzInfo | TimeDelta, TzInfo | lia / nia over Z |
| C56 | decimal.rs digit counting | DecDigits | lia |
| C62 | model.rs, dataclass.rs on instances | Classes | case analysis over arbitrary inner validators |
| C63 | enum_.rs, literal.rs lookups | Enum | refinement to equality of values, case analysis |
| C64 | arguments_v3.rs | Arguments3 | characterisation of the accepted signatures, equality with the model of arguments.rs, trace theorem, Python binding |
| C65 | errors/types.rs, validation_exception.rs (`__reduce__`, from_exception_data), location.rs | ErrTable (generated from types.rs), ErrReport | the context of a raised error gives its fields back; dictionaries updated with themselves |
| C66 | types.rs (templates, render_message), value_exception.rs (format_message) | ErrReport | sequential replacement equals simultaneous substitution; the 101 rows of the table are checked by computation inside general lemmas |
| C67 | validation_exception.rs (errors, json, display, error_count) | ErrReport | equality of each report with a function of `errors()` |
| C68 | date.rs, datetime.rs, time.rs, the date and time readers of the inputs | Dates | case analysis over the readers; comparison functions refined to numbers of days and microseconds |
| C69 | timedelta.rs | Deltas | refinement to numbers of microseconds, on top of C54 |
| C70 | validators/url.rs | Url | refinement to the first of a list of errors, and a completed URL component by component |
| C71 | validators/url.rs (multi-host) | Url | the scan is equivalent to a relational specification of host lists |
| C72 | url.rs | Url | round trip, by refinement of string surgery to a plain concatenation |
| C73 | url.rs (build) | Url | from C72 |
| C74 | uuid.rs (validator and serializer) | Uuid | the parser accepts exactly a grammar of forms; round trip over base 256 and base 16 |
| C75 | complex.rs (validator and serializer) | Complex | case analysis; round trip for any float printer and reader that fit together |
| C76 | json.rs (validator and serializer), validate_json in mod.rs | JsonCall | equality of runs with the inner validator arbitrary; round trip from C52 |
| C77 | call.rs | JsonCall | case analysis over a function acting on a world |
| C78 | callable.rs, is_subclass.rs | JsonCall | case analysis |
| C79 | datetime_etc.rs | DateText | a decoder of the texts, proved to invert them; the validators of Dates on the text |
| C80 | timedelta.rs (serializer), TimedeltaMode in config.rs | DeltaText, Round64 | a left-to-right meaning of ISO 8601 texts; error bounds on rationals from C55 |
| C81 | generator.rs (serializer), ExtraOwned in extra.rs | SerGen | induction on what the generator does; equality with the list serializer of Ser |
| C82 | function.rs (wrap serializers, SerializationCallable) | SerWrap | induction on the program of the function |
| C83 | decimal.rs (validator and serializer), validate_decimal | DecVal (with DecDigits) | reading back the text by cases; rational numbers; exactness of the quotient |
| C84 | common/prebuilt.rs, validators/prebuilt.rs, the config of classes | Prebuilt | invariant of the stored validators over histories of definitions; induction on schemas |
| C85 | CombinedSerializer::build for the schemas of Interp.v, joined with Ser.v | SerOf, SerOfSpec, SerOfCalm, SerOfProofs | conformance (C29) implies what the serializer expects, by induction on the fragment; no warnings by induction on that and on the levels of the recursion guard |
| C86 | build_validator and the `build` functions behind it, schema_or_config, DefinitionsBuilder | Core, CoreSpec, CoreTable, CoreProofs 1-4, CoreTableProofs | induction on core schemas: a Hoare-style triple for each build step (when it succeeds, what it declares and uses, what it gives) |
| C87 | the options in Extra and every validator that reads them; configs | OptsSpec, OptsCoreSpec, OptsProofs, OptsCoreProofs | every combinator commutes with taking the options from the state into the schema (a simulation); building commutes with putting them into the configs |
| C88 | the interpreter run twice (strings mode/Python mode), validate_strings | Rel*, StringsProps | the simulation relation of C33 with a mode for inputs made of strings; C33 gives agreement with JSON |
| C89 | serialize_as_any: the flipping mode, class serializers, inference | SerAny*, Ser.v | two runs with schemas (and own serializers of classes) that differ in the classes they name are equal, by induction over schemas and recursion levels, the mode saying when the schema must be that of the same class; what is written against an inductive specification |
| C90 | every validator of Interp.v on two schemas | Loose* | an accepting run of a schema is mirrored by the looser one with equal value and state, by induction over the recursion levels and the derivation of looser; that no validator inside refuses with anything but line errors (so that handlers do not tell the two apart) is proved beside it |
| C91 | simple, float, string and literal serializers | SerScalarProps, Ser.v | evaluation of the serializer on each kind of value; for literals the three lookup tables against membership in the list of expected values |
| C92 | every validator that reads a mapping, and all that pass inputs on | OrderProps, OrderSpec.v, OrderProofs*.v | relation between the runs on two reordered inputs, by induction over the schema and the recursion fuel; lookups by permutation of distinct keys, extras as a fold whose errors permute |
| C93 | serializers/prebuilt.rs, shared.rs `_build`, the build of function serializers | SerPrebuilt, SerPrebuiltSpec.v | invariant of the stored serializers over histories of definitions; induction on schemas, for every interpretation of the other serializers; a call that gets through the plain functions of a class once gets through them again |
| C94 | filter.rs, fields.rs, infer.rs, computed_fields.rs, model.rs (`to_json`) | Ser, Filter, SerCutSpec.v | relation between the run with the options and the run without them: induction on serializers, values and levels of the recursion guard; well-formed filters never fail and stay well-formed |
| C95 | filter.rs, infer.rs, any.rs, recursion_guard.rs (`to_json`, `to_python`) | Ser, Filter, SerPruneSpec.v | simulation between the run on all the data with filters and the run on the pruned data without: induction on the levels of the recursion guard; filters that fit the data fit its items; a guard with only heavier values never stops |
| C96 | validators/mod.rs (`isinstance_python`, `get_default_value`), with_default.rs, definitions.rs | Api, ApiSpec.v | by cases for the answers; C28 and C29 carried over; induction on the references followed for the default; induction on the fields, with the state generalised, for missing fields |
| C97 | model.rs, model_fields.rs (`validate`, `validate_assignment`) | Interp, Assign, LifeSpec.v | invariant over the series of assignments: the contents of the instance conform (C29 for the birth and for each assigned value, C40 for what an assignment changes) |
| C98 | return_enums.rs, dict.rs, typed_dict.rs (`allow_partial`), validation_state.rs (`enumerate_last_partial`), every validator that switches it off | Collections, TypedDict, Interp, PartialSpec.v | simulation by induction over schemas: the run without allow_partial beside the run with it, in states that differ in the mode only; refusals of the first run have an error (LooseQuiet.v), so that a dropped item shows; outside unions no exactness is recorded (LooseNone.v), so that a lax-or-strict schema is one of the two |
| C99 | model.rs, model_fields.rs, dataclass.rs (`validate_assignment`), function.rs | Assign, AssignSpec.v | induction over the sequence of assignments with C40 for one step; the last accepted write splits the sequence |
| C100 | union.rs (`validate_smart`), definitions.rs, validation_state.rs | Interp, UnionOrderSpec.v | every schema leaves the extra part of the state (UnionExtra.v) and, once off, allow_partial (LooseOff.v) as they were, so the members' outcomes are independent; induction over the members for the one that stands out; permutation corollaries |

Every property could be expressed in the model.

## Coverage of the source

Modelled, function by function (the comments in the model files cite lines):

* `recursion_guard.rs`, `definitions.rs`, `lookup_key.rs`, `tools.rs`
  (truncation), `input/shared.rs`, `input/return_enums.rs` (all loops, integers,
  floats, strings and bytes), `input/datetime.rs` (number conversions, time
  zones), `input/input_python.rs`, `input_json.rs`, `input_string.rs`,
  `input_abstract.rs` (scalars, sequences, mappings, arguments, dates, times, complex; not
  Decimal), `errors/line_error.rs`, `errors/location.rs`,
  `errors/types.rs`, `errors/value_exception.rs`, `url.rs`,
  `errors/validation_exception.rs` (all but the exception group of
  `validation_error_cause`).  The validator models name error kinds by a small
  enumeration of their own (VState.v); the table of all error types with their
  texts is in ErrTable.v, generated by tools/gen_errtypes.py.
* `validators/`: any, none, bool, int, float, string, bytes, literal,
  is_instance, list, set, frozenset, tuple, dict, nullable, with_default, chain,
  json_or_python, lax_or_strict, custom_error, function (before, after, plain,
  wrap), union, tagged union, model_fields, typed_dict, arguments, arguments_v3, dataclass
  (arguments and class), model, definitions, generator; decimal.rs, enum_.rs, date.rs, datetime.rs, time.rs, timedelta.rs, url.rs, uuid.rs, complex.rs, json.rs, call.rs, callable.rs, is_subclass.rs, validation_state.rs, and
  the call protocol of mod.rs, and building validators (build_tools.rs).
* `serializers/`: extra.rs, filter.rs, fields.rs, computed_fields.rs, infer.rs,
  ob_type.rs (for the modelled value types), shared.rs, config.rs, ser.rs, and the serializers any, bytes, dataclass, definitions, dict,
  complex, decimal, uuid, datetime_etc, timedelta, enum, float, format, function, generator, json, json_or_python, list, literal, model,
  nullable, set/frozenset, simple, string, tuple, typed_dict, union,
  with_default.

Not modelled:

* SerializationInfo objects.
* PyO3 glue, garbage collection (`py_gc.rs`), memory, threads and the GIL, the
  wall clock, `lib.rs`, SchemaError objects.  The `build` functions are modelled
  in Core.v for the schemas of Interp.v (with `build_tools.rs`), for the others
  only where they decide behaviour.
* The values of the model (`pyval`) are None, bool, int, float, str, bytes,
  list, tuple, set, frozenset, dict, instances (class and attributes) and
  instances of subclasses of built-in types.  Aliasing and mutation of Python
  objects by user code during a call are outside of the model; RecGuard models
  identity for cyclic inputs.

## External code

Arguments of the theorems, arbitrary unless a theorem says otherwise:

* user functions: pure functions of their arguments that return or raise;
  default factories; `__init__`, `__post_init__`; calling an enum
  class, `_missing_`; wrap functions are programs
  that may call the handler any number of times (`wprog`);
* `str.lower`, `str.upper`, `str(x)` of numbers, `repr`, getattr, issubclass,
  the class hierarchy, regular expressions (an arbitrary predicate) and whether they
  compile, the names of validators (C86);
  `__index__`, `__float__`, Rust's Display of floats, the JSON of an inferred
  value (C65-C67);
* `f64::from_str` / jiter's float parser and the shortest float printer (ryu):
  arbitrary functions, with the reading-back assumption named in C52;
* speedate's readers of dates, times and durations (any functions whose results
  are in range), the clock and the local offset, `tzinfo.utcoffset` (C68, C69);
* the url crate's parser (any function to URLs or errors; C72 and C73 suppose
  `library_ok`), its reading of hosts and paths given to setters, punycode decoding;
* Python's complex() of a text and C's strtod (C75); callable(), issubclass(), jiter's parsers (C76-C78); Decimal(text) (C83).

Written from documentation: CPython's `==` and hashing of the modelled values,
list and dict indexing, `int.as_integer_ratio`, `Decimal.as_tuple`, `str(Decimal)`, Decimal comparison, division and remainder (_pydecimal.py); IEEE
doubles (the standard library's SpecFloat); speedate's comparison of dates, times and
durations, its calendar and its texts of dates, times and durations, CPython's timedelta.total_seconds, CPython's constructors of dates, times, timedeltas; the url crate's text of a
URL and its setters; the uuid crate's parser, CPython's UUID.version and its text; CPython's
complex() over strtod; UTF-8; the `hex` and `base64`
alphabets; `serde_json`'s compact and pretty formatters and string escapes;
jiter's JSON integer grammar.

Simplifications worth knowing: the serializer's recursion guard identifies
objects by structure rather than by address; user functions cannot mutate
their arguments; the recursion limit is the code's 255.

## Assumptions

`Print Assumptions` answers "Closed under the global context" for every
property theorem (all files were compiled and the answers counted): no
axiom, neither of ours nor of the standard library, is used.  (A scan of the
loaded libraries also meets seven names of `Coq.ssr.ssrunder`, the opaque fields
of a sealed module of the standard library; no theorem depends on them.)

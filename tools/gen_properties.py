#!/usr/bin/env python3
"""Writes /verif/properties.jsonl. One P(...) call per property."""
import json, os
OUT = []
def P(id, title, statement, quantifier, why, anchors):
    OUT.append(dict(id=id, title=title, statement=statement, quantifier=quantifier,
                    why_tests_cant=why, anchors=anchors))

P("C01", "Recursion guard is a faithful set",
  "While validating or serializing, the library decides 'have I already entered this (object, schema node) pair?' correctly however many pairs are active: the internal switch from a 16-slot inline array to a hash set is unobservable, and properly nested enter/leave sequences never panic.",
  "every properly nested sequence of enter/leave operations over any (object id, node id) pairs, any length",
  "the answer must be right after every history of operations and on both sides of the representation switch; tests sample a few histories",
  ["src/recursion_guard.rs: RecursionStack::insert, RecursionStack::remove, RecursionGuard::new, Drop"])
P("C02", "Recursion guard is balanced",
  "After any validation or serialization sub-call finishes without hitting the depth limit, the set of active (object, node) pairs and the depth counter are exactly what they were before the call, so an object reachable twice through different branches (a DAG) is never reported as a recursion loop. When the depth limit is hit the pair is left behind (a leak the model exhibits).",
  "every tree of nested guard acquisitions, every starting state",
  "it is a statement about all call trees and all error exits",
  ["src/recursion_guard.rs: RecursionGuard::new, Drop for RecursionGuard"])
P("C03", "Cyclic Python input is always reported, never followed forever",
  "Validating Python data that contains reference cycles against a recursive schema terminates, reports a recursion_loop error whenever the traversal comes back to an object it is still inside, and reports no recursion_loop error for acyclic data below the depth limit.",
  "every finite heap of objects (cyclic or not), every recursive schema of the modelled shape, every starting object",
  "termination on all cyclic graphs cannot be shown by finitely many inputs",
  ["src/recursion_guard.rs", "src/validators/definitions.rs: DefinitionRefValidator::validate"])
P("C04", "Text to integer: exact accepted language and value",
  "In lax mode a string is accepted as an int exactly when it belongs to an explicit grammar (sign, leading zeros, single underscores, optional '.000'), and then the produced integer is the one the text denotes. Deviations from Python's int() syntax that the code accepts ('0-1', '0__1') are exhibited.",
  "all strings",
  "the input space is all strings; a hand-written multi-stage cleaner has corner cases no test list covers",
  ["src/input/shared.rs: str_as_int, clean_int_str, strip_leading_zeros, strip_underscores"])
P("C05", "Canonical decimal text round-trips",
  "For every integer with at most 4300 digits, validating its decimal text as an int gives back that integer; with surrounding whitespace, a plus sign, leading zeros or a '.0' suffix the result is the same integer.",
  "all integers of at most 4300 digits",
  "unbounded integers",
  ["src/input/shared.rs: str_as_int"])
P("C06", "Float to int never loses information",
  "In lax mode a float is accepted as an int only if it is finite, integral and strictly inside (-2^63, 2^63), and then the int equals the float exactly; every such float is accepted.",
  "all IEEE-754 doubles",
  "2^64 inputs and boundary rounding",
  ["src/input/shared.rs: float_as_int"])
P("C07", "Text to bool is total and decided by a fixed table",
  "A string is accepted as a bool iff it equals, ignoring ASCII case, one of the twelve documented words ('0'/'1' exactly); true-words and false-words are disjoint, so the result is unambiguous.",
  "all strings",
  "all strings and all case variants",
  ["src/input/shared.rs: str_as_bool, int_as_bool"])
P("C08", "Integer constraints are exact",
  "A constrained int schema accepts an integer iff le/lt/ge/gt/multiple_of all hold mathematically, whether the integer or the bound is stored as a machine integer or a big integer.",
  "all integers (unbounded) and all constraint settings with a non-zero multiple_of",
  "unbounded integers and representation mixes",
  ["src/validators/int.rs: ConstrainedIntValidator::validate", "src/input/return_enums.rs: Int (PartialOrd, Rem)"])
P("C09", "Float constraints reject NaN and agree with IEEE ordering",
  "A constrained float schema accepts a value only if every bound holds in the real ordering (NaN satisfies no bound), and infinities/NaN are rejected exactly when allow_inf_nan is false.",
  "all doubles, all bounds",
  "NaN/inf/zero sign corner cases across all doubles",
  ["src/validators/float.rs: ConstrainedFloatValidator::validate, FloatValidator::validate"])
P("C10", "Aliases: first resolvable path wins",
  "With alias choices, the value used for a field is the one at the first listed alias path that resolves completely in the input; later paths are only consulted when all earlier ones fail; if none resolves the field is missing.",
  "all inputs and all alias path lists",
  "all nested inputs and path lists",
  ["src/lookup_key.rs: LookupKey::py_get_dict_item, json_get, LookupPath::iter"])
P("C11", "Alias lookup is the same for JSON and for the equivalent Python data",
  "Looking a field up in a JSON object gives the same value as looking it up in the Python dict/list tree the JSON would be parsed into, including negative indices and duplicate keys (last one wins).",
  "all JSON documents and all alias path lists",
  "all documents, path lists",
  ["src/lookup_key.rs: json_get, py_get_dict_item, PathItem::json_get, PathItem::py_get_item"])
P("C12", "Collection validation: success",
  "Validating a list-like input succeeds iff every item validates (or is omitted) and the length rules hold; the output contains exactly the item results, in input order.",
  "all item schemas (as arbitrary functions), all input lists",
  "all lists and all item validators",
  ["src/input/return_enums.rs: validate_iter_to_vec", "src/validators/list.rs"])
P("C13", "Collection validation: errors are complete and located",
  "Without fail_fast, the error list of a collection is exactly the concatenation, in order, of each failing item's errors prefixed with that item's index; no failing item is dropped and no passing item is blamed. Not true once max_length is exceeded: then that is the only error.",
  "all item schemas, all input lists",
  "all lists and all failure patterns",
  ["src/input/return_enums.rs: validate_iter_to_vec", "src/errors/line_error.rs: with_outer_location"])
P("C14", "fail_fast stops at the first failing item",
  "With fail_fast a collection reports exactly the first failing item's errors and never invokes the item schema on any later item.",
  "all item schemas, all input lists",
  "quantifies over failure positions and over the calls not made",
  ["src/input/return_enums.rs: validate_iter_to_vec, validate_iter_to_set"])
P("C15", "Length limits",
  "max_length/min_length on lists, sets, frozensets, dicts: a successful result never violates them, and the error reports the configured limit.",
  "all inputs, all limits",
  "all inputs and limits",
  ["src/input/return_enums.rs: MaxLengthCheck, min_length_check", "src/validators/list.rs, set.rs, dict.rs"])
P("C16", "Set validation is duplicate free and order independent in content",
  "A validated set contains exactly the distinct validated items; max_length is checked against the number of distinct items so far.",
  "all item schemas, all inputs",
  "all inputs, duplicates pattern",
  ["src/input/return_enums.rs: validate_iter_to_set", "src/validators/set.rs"])
P("C17", "Dict validation",
  "Dict validation validates every key and every value, collects all errors of all entries located under their key (keys with an extra '[key]' marker), and on success yields for each output key the value of the last input entry producing it.",
  "all dict inputs, all key/value schemas",
  "all inputs",
  ["src/validators/dict.rs: ValidateToDict::consume_iterator"])
P("C18", "Model fields: every field accounted for",
  "Validating a model-like dict succeeds iff each field is found and valid or has a usable default and (with extra=forbid) no unknown key is present; the result contains exactly the fields (found or defaulted) in schema order, and fields_set is exactly the found fields plus kept extras.",
  "all schemas of fields, all inputs",
  "all combos of present/missing/invalid fields",
  ["src/validators/model_fields.rs: ModelFieldsValidator::validate"])
P("C19", "Model fields: all problems reported together",
  "When model-field validation fails with line errors, one 'missing' error is reported for every required field that is absent, every failing field's errors are reported at that field's location, and every forbidden extra key is reported; nothing else is.",
  "all field lists, all inputs",
  "all failure combos",
  ["src/validators/model_fields.rs"])
P("C20", "Extra keys policy",
  "extra=ignore drops unknown keys, extra=forbid rejects each of them, extra=allow keeps each of them; a key consumed by a field (through name or alias) is never treated as extra.",
  "all inputs and field lists",
  "all inputs",
  ["src/validators/model_fields.rs", "src/validators/typed_dict.rs"])
P("C21", "TypedDict: required keys",
  "A TypedDict result contains every required key. (The code breaks this for string-mode validation when a value is neither a string nor a mapping; the model exhibits the counterexample.)",
  "all inputs, all field lists",
  "all inputs",
  ["src/validators/typed_dict.rs: TypedDictValidator::validate", "src/lookup_key.rs: py_get_string_mapping_item"])
P("C22", "Smart union picks the best match",
  "A smart-mode union succeeds iff some member accepts the input, and the member chosen is maximal for the documented order (more fields set, then more exact match), ties going to the earlier member.",
  "all lists of member schemas (as arbitrary functions), all inputs",
  "all member lists and outcomes",
  ["src/validators/union.rs: UnionValidator::validate_smart"])
P("C23", "Left-to-right union picks the first match",
  "A left_to_right union returns the first member that does not fail with validation errors, never consults later members, and fails only with the errors of all members, each labelled with its member.",
  "all member lists, all inputs",
  "all member lists",
  ["src/validators/union.rs: validate_left_to_right"])
P("C24", "Union errors are complete and labelled",
  "When a union fails, its error list is the concatenation over members, in order, of that member's errors, each under the member's label; with a custom error it is that single error.",
  "all member lists, all inputs",
  "all failure patterns",
  ["src/validators/union.rs: MaybeErrors, UnionErrors"])
P("C25", "Nested unions do not corrupt the outer exactness bookkeeping",
  "Whatever happens inside, after a union (or any field/collection) returns a value or line errors the caller's exactness is only ever lowered, never raised, and the parent's fields-set count is only ever increased. Not true where a member of a nested union omits: the union then leaves its own bookkeeping to what surrounds it, so that an outer union can take a lax match for an exact one, and a later lax-or-strict field its strict schema. The same holds where something around the union carries on after an error raised by user code inside it, such as a default with on_error='default'.",
  "all nested schemas, all inputs, all starting states",
  "all nestings and exit paths",
  ["src/validators/union.rs", "src/validators/validation_state.rs: floor_exactness, add_fields_set"])
P("C26", "Tagged union dispatch",
  "A tagged union consults only the member selected by the input's tag, reports the member's errors under the tag, and rejects a missing or unknown tag.",
  "all tag functions, all members, all inputs",
  "all inputs",
  ["src/validators/union.rs: TaggedUnionValidator"])
P("C27", "Defaults",
  "With a default configured, an absent value yields the default (copied or built anew when so configured), a failing value yields the default iff on_error='default', is dropped iff on_error='omit' and fails otherwise; a default is validated iff validate_default is set.",
  "all inner schemas, all inputs",
  "all inner outcomes",
  ["src/validators/with_default.rs"])
P("C28", "Strict implies lax",
  "Whatever a schema accepts with strict=True it also accepts without it, with the same result, provided the schema's result does not depend on what it refuses: no untagged unions, no wrap functions, no lax-or-strict schemas, no on_error other than raise, and no allow_partial.",
  "all schemas of that fragment (32 schema kinds minus union, function-wrap and lax-or-strict; recursive definitions included), all Python, JSON and string inputs, all call options without allow_partial",
  "all schemas (unbounded nesting) and all inputs",
  ["src/validators/*.rs", "src/input/input_python.rs", "src/input/input_json.rs"])
P("C29", "Output conforms to the schema",
  "Whenever validation succeeds, the result has the shape the schema describes: right type, all constraints satisfied, recursively.",
  "all schemas of the modelled fragment (unbounded nesting), all inputs, strict or lax",
  "all schemas, all inputs",
  ["src/validators/*.rs"])
P("C30", "Revalidation is stable",
  "Validating the result of a successful validation again, with the same schema in strict mode, succeeds and returns an equal value.",
  "all schemas of the idempotent fragment, all inputs",
  "all schemas, all inputs",
  ["src/validators/*.rs"])
P("C31", "Error locations point into the input",
  "Every reported line error's location, read from the top, is a path that exists in the input (or ends in a missing key), and the reported input is the value found at that path (for a missing key: the object that lacks it; for a rejected key: the key). Labels of union members may be interspersed.",
  "all schemas of the modelled fragment, all inputs",
  "all nestings",
  ["src/errors/line_error.rs", "src/errors/location.rs", "src/validators/*.rs"])
P("C32", "A failed validation always has at least one line error",
  "A ValidationError raised by validation contains at least one line error.",
  "all schemas, all inputs",
  "all schemas and inputs",
  ["src/errors/validation_exception.rs", "src/validators/*.rs"])
P("C33", "JSON validation agrees with Python validation of the parsed document",
  "For schemas made of JSON types, validating a JSON document gives the same result as validating the equivalent Python objects in lax mode.",
  "all schemas of the JSON-native fragment, all JSON documents",
  "all documents, all schemas",
  ["src/input/input_json.rs", "src/input/input_python.rs"])
P("C34", "Validation calls are independent",
  "The outcome of a validation call depends only on the schema, the input and the call's options, not on earlier calls on the same validator.",
  "all sequences of calls",
  "all histories",
  ["src/validators/mod.rs: SchemaValidator::validate_python/_validate"])
P("C35", "Definition references",
  "Building a schema succeeds only if every definition reference is defined exactly once, and afterwards every reference resolves to the definition of that name wherever it was declared relative to its uses.",
  "all sequences of references and definitions",
  "all orders of declaration",
  ["src/definitions.rs: DefinitionsBuilder"])
P("C36", "Literals",
  "A literal schema accepts an input iff it equals one of the expected values with bool/int/str kept apart as documented, and returns the expected value itself. (Mixed small and huge integer literals break completeness; the model exhibits it.)",
  "all expected value lists, all inputs",
  "all lists and inputs",
  ["src/validators/literal.rs: LiteralLookup::new, validate"])
P("C37", "Fixed and variadic tuples",
  "A fixed tuple schema accepts exactly inputs with the right number of items (missing trailing items may come from defaults), item i validated by schema i; a variadic tuple validates the prefix, the repeated part and the suffix by the right schemas whatever the input length.",
  "all item schema lists, all inputs",
  "all lengths, all variadic positions",
  ["src/validators/tuple.rs"])
P("C38", "Function-call arguments",
  "Each parameter gets its value from exactly one of: its position, its keyword, its default; giving both is an error, giving none is an error; the output never binds one parameter twice.",
  "all parameter lists, all argument lists",
  "all call shapes",
  ["src/validators/arguments.rs"])
P("C39", "Dataclass arguments",
  "Same binding rule for dataclass fields, with init=False fields never read from the input. (Positional arguments can be dropped when a keyword-only field precedes; the model exhibits it.)",
  "all field lists, all argument lists",
  "all call shapes",
  ["src/validators/dataclass.rs"])
P("C40", "Failed assignment leaves the object unchanged",
  "validate_assignment on a model or dataclass either succeeds, updating exactly the assigned field (and fields_set), or raises leaving the object's data, extras and fields_set as they were; frozen objects/fields are never changed.",
  "all models, all fields, all values",
  "all states and failure points",
  ["src/validators/model.rs: validate_assignment", "src/validators/dataclass.rs: validate_assignment"])
P("C41", "Wrappers",
  "nullable accepts None or what the inner schema accepts; chain is left-to-right composition; json_or_python and lax_or_strict run exactly the branch for the mode; custom_error replaces the inner errors with one error.",
  "all inner schemas, all inputs",
  "all inner behaviours",
  ["src/validators/nullable.rs, chain.rs, json_or_python.rs, lax_or_strict.rs, custom_error.rs"])
P("C42", "Function validators",
  "before/after/wrap/plain function schemas compose in the documented order, and an exception of the documented kinds raised in the function becomes a line error at the current location while any other exception escapes unchanged.",
  "all functions (as oracles), all inner schemas, all inputs",
  "all user functions",
  ["src/validators/function.rs: convert_err"])
P("C43", "Lazy generators",
  "A validated generator yields the item results in order, one source item per output item, stops at the source's end, and enforces min/max length on the items it consumes. (max_length is not enforced when there is no item schema; the model exhibits it.)",
  "all sources, all item schemas, all numbers of next() calls",
  "all interaction histories",
  ["src/validators/generator.rs: ValidatorIterator::__next__"])
P("C44", "String truncation in error messages is safe",
  "Truncating a long input representation for an error message never cuts inside a character, never exceeds the limit plus the ellipsis, and keeps a prefix and a suffix of the original.",
  "all strings, all limits",
  "all UTF-8 strings",
  ["src/tools.rs: floor_char_boundary, ceil_char_boundary, write_truncated_to_limited_bytes"])
P("C45", "include/exclude: exclude wins, schema filters hold",
  "A field/item is serialized iff it is not excluded by the call's exclude and (is in the call's include or there is no include and the schema keeps it); nested filters are passed to exactly the right child. (A nested exclude re-includes a schema-excluded item; the model exhibits it.)",
  "all filters, all keys",
  "all nested filters",
  ["src/serializers/filter.rs: SchemaFilter::filter, merge_all_value, map_negative_index"])
P("C46", "Negative indices in include/exclude",
  "Index -k in an include/exclude filter for a sequence of length n means n-k.",
  "all lengths, all indices",
  "all integers",
  ["src/serializers/filter.rs: map_negative_index, map_negative_indices"])
P("C47", "Serialized fields",
  "Serializing a model emits its fields in order under alias or name as requested, omitting exactly: excluded fields, None fields under exclude_none, unset fields under exclude_unset, fields equal to their default under exclude_defaults.",
  "all models, all flags",
  "all flags/values combos",
  ["src/serializers/fields.rs: GeneralFieldsSerializer::main_to_python", "src/serializers/type_serializers/model.rs"])
P("C48", "to_json agrees with to_python(mode='json')",
  "The JSON text produced by to_json denotes the value returned by to_python(mode='json') on the modelled fragment; outside it the known divergences are exhibited.",
  "all values, all schemas of the fragment",
  "all values",
  ["src/serializers/infer.rs", "src/serializers/fields.rs", "src/serializers/type_serializers/*.rs"])
P("C49", "to_python(mode='json') only yields JSON types",
  "When to_python(mode='json') succeeds its result is built only from None, bool, int, float, str, list and dict with string keys.",
  "all values, all schemas of the fragment",
  "all values",
  ["src/serializers/infer.rs: infer_to_python_known"])
P("C50", "Union serialization picks the first matching member",
  "A union value is serialized by the first member whose strict check accepts it, otherwise by the first whose lax check accepts it, otherwise by type inference with a warning.",
  "all member lists, all values",
  "all member lists",
  ["src/serializers/type_serializers/union.rs: union_serialize"])
P("C51", "Round trip: validate after serialize",
  "For schemas of the round-trip fragment, serializing a valid value (python or JSON mode) and validating the result gives back an equal value.",
  "all schemas of the fragment, all conforming values",
  "all schemas and values",
  ["src/serializers/**", "src/validators/**"])
P("C52", "JSON text writer",
  "The JSON text written by to_json, compact or indented, parses (by the RFC 8259 grammar) to exactly the value written; in particular every string round-trips through escaping.",
  "all JSON values, all strings, all indentation widths",
  "all strings and nestings",
  ["src/serializers/ser.rs: PythonSerializer, format_escaped_str_contents"])
P("C53", "Bytes encodings round trip",
  "For hex and base64 modes, decoding the serialized text of any byte string with the same mode gives back the byte string.",
  "all byte strings",
  "all byte strings",
  ["src/serializers/config.rs: BytesMode::bytes_to_string", "src/validators/config.rs: ValBytesMode::deserialize_string"])
P("C54", "timedelta conversion is exact",
  "Converting a Python timedelta to the internal duration and back gives the same timedelta, for all days/seconds/microseconds including negative ones.",
  "all timedelta values",
  "about 8.6e22 values",
  ["src/input/datetime.rs: pytimedelta_exact_as_duration, duration_as_pytimedelta"])
P("C55", "Numeric seconds to timedelta / datetime",
  "An integer number of seconds accepted as a timedelta gives exactly that duration; a float timestamp accepted as datetime gives the instant nearest to it. (Both fail in the code: the day count wraps modulo 2^32, and negative fractional timestamps are mirrored; the model exhibits both and proves the claim on the safe range.)",
  "all i64 seconds; all finite floats",
  "all 64-bit inputs",
  ["src/input/datetime.rs: int_as_duration, float_as_datetime, float_as_duration"])
P("C56", "Decimal digit constraints",
  "max_digits and decimal_places accept a decimal iff its digit counts (as written or normalized) respect them.",
  "all finite decimals",
  "all digit strings and exponents",
  ["src/validators/decimal.rs: extract_decimal_digits_info, DecimalValidator::validate"])
P("C57", "Tuple keys in JSON objects",
  "A dict with tuple keys is serialized with comma-joined key text; distinct keys can collide (the model exhibits it) but keys whose parts contain no comma do not.",
  "all tuple keys",
  "all strings",
  ["src/serializers/type_serializers/tuple.rs: KeyBuilder", "src/serializers/infer.rs: infer_json_key_known"])
P("C58", "Serialization warnings",
  "With warnings='none' nothing is reported; with 'warn' the value is still returned; with 'error' serialization raises iff at least one warning was recorded.",
  "all recorded warning lists and modes",
  "all histories",
  ["src/serializers/extra.rs: CollectWarnings"])
P("C59", "Timezone constraint",
  "tz_constraint accepts exactly: naive values for 'naive', aware values for 'aware', aware values with that very offset for a number; timezone names print the offset faithfully.",
  "all offsets strictly within a day",
  "172799 offsets and all constraint settings",
  ["src/validators/datetime.rs: TZConstraint::tz_check", "src/input/datetime.rs: TzInfo"])
P("C60", "Partial (streaming) mode only forgives the last element",
  "With allow_partial, errors are suppressed only for the last element of the outermost collection being validated (recursively); every element before it is validated as without allow_partial.",
  "all inputs, all item schemas",
  "all inputs",
  ["src/validators/validation_state.rs: EnumerateLastPartial", "src/input/return_enums.rs"])
P("C61", "TypedDict: a field's value comes from its schema",
  "In a TypedDict result the value under a field's name is the one that field's schema produced. (The code breaks this with extra='allow' when the input holds both a field's alias and its name: the unvalidated extra overwrites the validated value.)",
  "all inputs, all field lists, all extra policies",
  "all combinations of aliases and keys",
  ["src/validators/typed_dict.rs: TypedDictValidator::validate, ValidateExtras"])
P("C62", "Instances of models and dataclasses as input",
  "Validating an instance of a model or dataclass class returns that very instance, unchanged, unless revalidation applies (revalidate_instances='always', 'subclass-instances' for a subclass, or an instance only of the generic origin); then its fields and extras are validated as a dict and the result is a new instance of exactly the schema's class, keeping the model's set of fields. Any other input yields a new instance with exactly the validated values; calling the class and validating data agree.",
  "all class hierarchies, all inner schemas, all instances, all settings",
  "arbitrary inner schemas, hierarchies and instances",
  ["src/validators/model.rs: ModelValidator::validate, validate_construct, validate_init, Revalidate", "src/validators/dataclass.rs: DataclassValidator::validate, set_dict_call"])

P("C63", "Enum schemas",
  "A member of the enum class is returned as it is. Strict validation of Python data accepts nothing else. Otherwise an input equal to the value of one member gives that member (for int, str and float enums: an input that an int, str or float schema reads as that value), without calling user code. An input that is no member's value is passed to the class, then to _missing_, and if neither gives a member there is one enum error about the input. For Python data in lax mode the schema therefore accepts exactly what calling the class accepts.",
  "all enum classes with distinct values of any type, all Python, JSON and string inputs, all outcomes of calling the class and _missing_, strict and lax mode",
  "arbitrary values of mixed types, inputs and user code",
  ["src/validators/enum_.rs: EnumValidator::validate, PlainEnumValidator, IntEnumValidator, StrEnumValidator, FloatEnumValidator", "src/validators/literal.rs: LiteralLookup::validate, validate_int, validate_str, validate_float"])

P("C64", "Calls with one list of parameters (arguments-v3 schemas)",
  "The parameter lists accepted are exactly those in the order of a Python signature, with different names, no on_error='omit', and no parameter without default after one with a default before the keyword-only ones. An ArgsKwargs gives what the older arguments schema with the same parameters gives. A mapping gives each parameter the value under its name or alias, or its default; all errors are reported, each with its location; keys of no parameter are errors if extras are forbidden. After a successful validation, calling the function with the result binds every parameter exactly once to its validated value, *args and **kwargs receive what was given for them, and everything given was accepted.",
  "all parameter lists, all inputs, all behaviours of the parameters' schemas",
  "arbitrary signatures, aliases, defaults and inputs",
  ["src/validators/arguments_v3.rs: ArgumentsV3Validator::build, validate, validate_from_mapping, validate_from_argskwargs", "src/input/input_python.rs: validate_args_v3"])

P("C65", "Pickling and rebuilding validation errors",
  "A ValidationError made of known errors can be pickled, copied or passed through from_exception_data(errors()), and the result gives the same errors(), json(), str(), title and locations. PydanticKnownError and from_exception_data accept a name and a context exactly when the name is a known error type whose fields are in the context with values of their types, and report that type and context. (The code breaks this for custom errors, for limits beyond 64 bits and for Decimal limits.)",
  "all lists of errors of every known type with all field values and contexts, all locations, inputs and titles",
  "over a hundred error types with arbitrary field values and contexts",
  ["src/errors/validation_exception.rs: ValidationError::__reduce__, from_exception_data, PyLineError::try_from, as_dict", "src/errors/types.rs: error_types!, ErrorType::new, py_dict, Number", "src/errors/location.rs: Location::try_from"])
P("C66", "Error messages",
  "The message of an error is its template with every placeholder replaced by the text of the field or context value of that name; no placeholder of a known error's template is left. Messages of known errors never fail; the message of a custom error fails only for a context key that is not a string. (The code breaks the first part when a value itself contains a placeholder that is replaced later.)",
  "all error types, all field values, all input types, all custom templates and contexts",
  "arbitrary values and templates",
  ["src/errors/types.rs: render_message, render!, to_string_render!, message_template_python, message_template_json, plural_s", "src/errors/value_exception.rs: PydanticCustomError::format_message"])
P("C67", "The reports of a validation error agree",
  "error_count(), errors(), json() and str() report the same errors in the same order: json() is the JSON of errors() (for known errors), the options of errors() only leave out what they name, and with hide_input str() is determined by the entries of errors() and reveals nothing of the inputs beyond the messages. (The code breaks this for custom errors: json() gives them a url, and context entries named error_type or message_template are lost.)",
  "all lists of errors, all inputs, all options",
  "arbitrary errors and options",
  ["src/errors/validation_exception.rs: errors, json, display, pretty, PyLineErrorSerializer", "src/errors/location.rs"])

P("C68", "Date, datetime and time schemas",
  "A date, datetime or time schema reads its input as a point in the calendar or on the clock: an object of the type as itself, text and numbers as the reader reads them, in lax mode a datetime at midnight as its date and a date as its midnight. It then gives the error of the first broken constraint (le, lt, ge, gt in that order, past or future, timezone), comparing instants when both sides have an offset and wall clocks otherwise, or returns that very object or one with exactly those fields. Nothing else is accepted; in strict mode only objects of the type, or JSON text. (The code breaks transitivity of bounds across naive and aware values, rounds sub-second offsets, and lets exceptions of a broken tzinfo escape.)",
  "all dates, times and offsets, all inputs, all combinations of constraints, all answers of the clock and of the text reader",
  "all calendar dates, offsets and combinations of bounds",
  ["src/validators/date.rs: DateValidator::validate, date_from_datetime", "src/validators/datetime.rs: DateTimeValidator::validate, datetime_from_date, NowConstraint, TZConstraint", "src/validators/time.rs: TimeValidator::validate, TimeConstraints", "src/input/datetime.rs: EitherDate, EitherTime, EitherDateTime", "src/input/input_python.rs: validate_date, validate_time, validate_datetime"])
P("C69", "Timedelta schemas",
  "A timedelta schema reads an object, text, or in lax mode a number of seconds, as a length of time and returns the timedelta of exactly that many microseconds if every bound (le, lt, ge, gt) holds; otherwise the error is that of the first broken bound and shows that bound. Everything else is a validation error. (The code breaks this below the least timedelta: an OverflowError escapes; and see C55 for seconds beyond 2^32 days.)",
  "all timedeltas, all numbers, all texts with any reading, all bounds",
  "all lengths of time and bounds",
  ["src/validators/timedelta.rs: TimeDeltaValidator::validate, pydelta_to_human_readable", "src/input/datetime.rs: EitherTimedelta, pytimedelta_exact_as_duration, duration_as_pytimedelta, int_as_duration", "src/input/input_python.rs: validate_timedelta"])

P("C70", "URL schemas",
  "A url schema takes text (or the text of a MultiHostUrl) or a Url object. It gives the first of these errors: the text is longer than max_length, it is empty or not a URL, in strict mode a syntax violation, the scheme is not allowed, a required host is missing. Otherwise the result has a missing host, port or path filled in with the default and every other component unchanged; a Url object that needs no default is returned itself. Anything else is a url_type error. (The code breaks it: max_length counts bytes and ignores what is filled in, and default_port replaces a port equal to the scheme's own.)",
  "all texts and objects, all settings, any URL library",
  "arbitrary texts, settings and combinations of defaults",
  ["src/validators/url.rs: UrlValidator::validate, get_url, check_length, parse_url, check_sub_defaults", "src/url.rs: PyUrl"])
P("C71", "Multi-host URL schemas",
  "A multi-host-url schema splits the text at the commas before the path: it is accepted exactly when every part, put behind the common prefix, is a URL, with a host if there are several; path, query and fragment belong to the last. The hosts are kept in order. Checks and defaults are those of C70 for the last host. A text without a scheme, or with an empty host before a comma, is refused. (The code breaks what a user expects of default_port: only the last host gets it.)",
  "all texts with any number of hosts, all objects, all settings, any URL library",
  "arbitrary numbers and forms of hosts",
  ["src/validators/url.rs: MultiHostUrlValidator::validate, get_url, parse_multihost_url, PositionedPeekable", "src/url.rs: PyMultiHostUrl::hosts"])
P("C72", "The text of a URL gives it back",
  "str() of a multi-host URL is scheme, hosts in order separated by commas, path, query and fragment; for every URL and multi-host URL the constructor accepted, its text (and so its JSON and its pickle) is accepted and gives an equal object. unicode_string() is the text with each internationalised host decoded. (The code breaks it for multi-host URLs with a comma in the user name or password, and unicode_string overwrites a user name.)",
  "all texts accepted, all library readings that are stable under their own output",
  "arbitrary URLs",
  ["src/url.rs: PyMultiHostUrl::__str__, unicode_string, __getnewargs__, unicode_url, decode_punycode, is_punnycode_domain", "src/serializers/type_serializers/url.rs"])
P("C73", "Building URLs from parts",
  "build() applied to the components of a URL gives that URL, also for several hosts; hosts and the parameters of a single host exclude each other and one of them is required; a single host is the same as a list with one host. (The code breaks it: a host with only a user name counts as empty, and nothing is escaped, so a password can change the host.)",
  "all URLs accepted, all arguments",
  "arbitrary components",
  ["src/url.rs: PyUrl::build, PyMultiHostUrl::build, UrlHostParts"])
P("C74", "UUID schemas",
  "Texts in the four usual forms (hyphens, 32 digits, braces, urn:uuid:), in any case, give the UUID with those digits, and no other text is accepted; 16 bytes give the UUID with those bytes in order; a UUID is returned itself, checked against the version; strict mode accepts only UUID objects from Python and still texts from JSON; the version asked for is compared with the version field and the RFC 4122 variant. The JSON text is accepted again and gives an equal UUID. (The code breaks two details: is_safe becomes SafeUUID.safe, and version=2 in the schema panics.)",
  "all texts, byte strings, objects, versions and modes",
  "2^128 UUIDs in several spellings, and all texts that are none",
  ["src/validators/uuid.rs: UuidValidator::validate, get_uuid, create_py_uuid", "src/serializers/type_serializers/uuid.rs: uuid_to_string"])
P("C75", "Complex schemas",
  "A complex number is returned itself; without strictness a float or a 64-bit integer x gives x+0j; text gives what complex() makes of it; all else is a validation error. The JSON text of a complex number is accepted again and gives that number. (The code breaks it: strict=True in the call is ignored, Python integers outside 64 bits panic, and texts of numbers with imaginary part -0.0 or NaN cannot be read.)",
  "all inputs, all complex numbers, any printer and reader of floats that fit together",
  "all doubles",
  ["src/validators/complex.rs: ComplexValidator::validate", "src/input/input_python.rs: validate_complex", "src/input/input_json.rs: validate_complex", "src/serializers/type_serializers/complex.rs: complex_to_str"])
P("C76", "JSON schemas",
  "Validating str or bytes with the schema json(S) is the same as validate_json with S, results and errors, for every S and all options; strictness does not decide what counts as a document; input that holds no document is a json_type error and a malformed document a json_invalid error, both at that input; a document within a document is validated like the inner document. With round_trip, serialising in JSON mode gives a string that json(S) validates as the JSON of S. (Two breaks: to_python(round_trip=True) in Python mode writes the text with S's Python-mode serializer; json(any) counts as an exact match in unions where json of an equally permissive schema does not.)",
  "all schemas, inputs, options and any JSON parser",
  "arbitrary schemas inside and arbitrary documents",
  ["src/validators/json.rs: JsonValidator, validate_json_bytes, map_json_err", "src/validators/mod.rs: SchemaValidator::validate_json, _validate_json", "src/serializers/type_serializers/json.rs"])
P("C77", "Call schemas",
  "The function is called exactly once if the arguments are valid, with exactly those, and not at all otherwise; what it raises is raised as it is; its result is validated with the return schema and errors are located under 'return'; an arguments schema never gives the TypeError for arguments of another shape. (In validate_json the return value is validated in JSON mode, although it is a Python object.)",
  "all functions with side effects, argument and return schemas, inputs",
  "arbitrary user functions and schemas",
  ["src/validators/call.rs: CallValidator::validate"])
P("C78", "Callable and is-subclass schemas",
  "A callable schema accepts exactly the callable Python objects, a subclass schema exactly the classes for which issubclass is true; both return the object itself, in strict mode too; JSON input is an error; exceptions of issubclass are raised.",
  "all objects and inputs, any callable() and issubclass()",
  "arbitrary objects with metaclass hooks",
  ["src/validators/callable.rs", "src/validators/is_subclass.rs"])
P("C79", "The JSON of dates, times and datetimes",
  "In JSON mode a date, time or datetime that a schema accepts is written as a text which the same schema accepts again, in strict mode too, giving the same date, clock time, microseconds and offset from UTC; different values have different texts; in Python mode the object itself is returned. A datetime is not written as a date by a date schema: it is written as its own type says. (The code breaks it for offsets with seconds: they are cut to whole minutes, so that the text denotes another instant.)",
  "all dates, times and datetimes, bounds and modes, any reader that reads RFC 3339 texts",
  "all microseconds of ten thousand years and all offsets",
  ["src/serializers/type_serializers/datetime_etc.rs: datetime_to_string, date_to_string, time_to_string, build_serializer!", "src/input/datetime.rs: pydate_as_date, pytime_as_time, pydatetime_as_datetime"])
P("C80", "The JSON of timedeltas",
  "In JSON mode with ser_json_timedelta='iso8601' a timedelta is written as an ISO 8601 text that means exactly its number of microseconds (years of 365 days), also as a dict key; different timedeltas have different texts; the schema that accepted the timedelta accepts the text again, in strict mode too, as an equal timedelta. With 'float' the seconds are written and read back as an equal timedelta by a lax schema, up to 142 years. An instance of a subclass is written like the timedelta it equals, up to 142 years. In Python mode the object itself is returned. (Beyond that the code loses microseconds: in float mode, and for subclasses also in the ISO 8601 text; and floats are refused by a strict schema.)",
  "all timedeltas, bounds and modes, any rounding to doubles, any reader that reads ISO 8601 texts",
  "1.7e20 timedeltas",
  ["src/serializers/type_serializers/timedelta.rs: TimeDeltaSerializer", "src/serializers/config.rs: TimedeltaMode", "src/input/datetime.rs: EitherTimedelta, pytimedelta_subclass_as_duration"])
P("C81", "The serialization of generators",
  "In JSON mode a generator is written as the list of the items it yields would be: the same filters, warnings and errors. In Python mode an iterator is returned; next() takes from the generator the items up to the first that is not left out and no more, and returns that item serialized; the items are those of the list; an exception of the generator is raised. (The code differs from lists in these: filters with an index counted from the end raise, and those past the end do not wrap around; each item shows all earlier warnings again, also those recorded before the iterator was made; with warnings='error' no item is returned after one that did not fit.)",
  "all sequences of yields and exceptions, item serializers, filters, warning modes and numbers of next() calls",
  "generators of any length, consumed step by step",
  ["src/serializers/type_serializers/generator.rs: GeneratorSerializer, SerializationIterator", "src/serializers/extra.rs: ExtraOwned, CollectWarnings"])
P("C82", "Wrap functions as serializers",
  "A wrap serializer's function gets a handler that serializes a value with the wrapped schema and the filters of the call, and with an index or key the filters below it, raising PydanticOmit for what is left out; a function that only calls the handler gives what the wrapped schema gives, through the result schema; one that calls it for each item gives what a list schema gives; one that does not call it is a plain function. What the handler answers does not depend on earlier calls unless warnings are errors. An unexpected-value exception is a warning, any other an error. (The code breaks expectations in these: filters are dropped where when_used says not to use the function; the handler shows earlier warnings again; with warnings='error' it refuses everything after one bad value; a PydanticOmit that passes fails the call.)",
  "all wrap functions (programs calling the handler any number of times with any values), wrapped and result schemas, filters, warning modes",
  "arbitrary user functions with arbitrary numbers of handler calls",
  ["src/serializers/type_serializers/function.rs: FunctionWrapSerializer, SerializationCallable, on_error", "src/serializers/filter.rs: AnyFilter"])
P("C83", "Decimal schemas and the JSON of Decimals",
  "A Decimal is accepted iff it is finite (or allow_inf_nan is set), within the digit limits and within the bounds, which are compared exactly, and is returned as it is; NaN satisfies no bound; ints are read exactly. multiple_of holds iff the number is an integer multiple, as long as the quotient fits the precision of the decimal context. In JSON mode a Decimal is written as the text str() gives, which tells all Decimals apart and which the schema accepts again, in strict mode, as dict key and in validate_strings too, as the same Decimal (sign, digits, exponent). (The code breaks expectations in these: with multiple_of large numbers and infinities raise decimal.InvalidOperation, and beyond the precision of the context numbers that are no multiples pass; a NaN bound raises.)",
  "all Decimals, bounds, digit limits, precisions and inputs, any reader that reads what str() writes",
  "all signs, coefficients and exponents",
  ["src/validators/decimal.rs: DecimalValidator, create_decimal", "src/serializers/type_serializers/decimal.rs", "src/input/input_python.rs, input_json.rs, input_string.rs: validate_decimal"])
P("C84", "Reusing the validators of complete classes",
  "Building a schema takes over the validators of the model and dataclass classes that are complete. As long as each class is always used with its own schema, and has only after and wrap functions around it, every schema validates as if it was built from its text alone, whatever classes were defined before, in whatever order, and whatever config is around; a class that is not complete, has no validator of its own, has an after or wrap function outermost, or is a parametrized generic dataclass is built from the schema given. (The code breaks expectations in these: a class with a before function outermost has it called twice; another schema for a complete class is ignored; validators keep what a class was before it is defined again.)",
  "all histories of class definitions, all schemas and configs",
  "any number of classes, defined in any order and nested in any way",
  ["src/common/prebuilt.rs: get_prebuilt", "src/validators/prebuilt.rs: PrebuiltValidator", "src/validators/mod.rs: build_validator", "src/validators/model.rs, dataclass.rs: build"])

P("C85", "Validated values serialize without warnings",
  "Whatever validation with a schema returns, the serializer built from the same schema writes without a warning, in Python and in JSON mode and with any include, exclude, fallback and flags (without serialize_as_any), so asking for errors in place of warnings never raises because of one. This holds for every schema, also recursive ones, made of the scalar types, literals, collections, typed dicts, models, root models, nullables, defaults and functions, provided that functions and unvalidated defaults give values of the schema, items of tuples are not left out, and instances are revalidated. Building a serializer succeeds for every schema without empty chains, literals and unions, misplaced variadic items, argument schemas and forbidden extras schemas. (The code breaks expectations in these: values of the lax branch of lax-or-strict warn; so do unvalidated defaults, results of functions, tuples with omitted items, instances taken over as they are, models whose two schemas differ about additional items, and additional items named like an aliased field; additional items of a typed dict can be lost silently; an empty chain and a misplaced variadic item make the building panic.)",
  "all schemas of the fragment, all inputs, all options of both calls",
  "validator and serializer are separate programs that must agree on every schema and every value",
  ["src/serializers/shared.rs: CombinedSerializer::build", "src/serializers/type_serializers/*.rs: build, to_python, serde_serialize", "src/serializers/extra.rs: on_fallback_py, on_fallback_ser, final_check", "src/validators/mod.rs: SchemaValidator.validate_python"])

P("C86", "Building a validator from a schema and a config",
  "A config is a shorthand for writing its settings into every schema inside, up to models, dataclasses and typed dicts; where a schema says something itself, that counts. Models, dataclasses and typed dicts obey the config in their own schema only. Building succeeds exactly for schemas that meet the listed conditions at every node, with every reference declared exactly once if used; otherwise there is a SchemaError, or a panic at two kinds of schemas. In what is built every reference leads to a definition, and fields and parameters are in the order and of the kind the validators rely on. A definition is what its schema gives under the config where it is declared, independently of what else is built. A validator restored from a pickle is the same. (The code breaks expectations in these: a reference inside a class with a config ignores that config; a config given to SchemaValidator does not reach the fields of a typed dict or model; a union of one choice loses its custom error; a variadic index out of range and a custom error without type panic; required=True with a default is refused while total=True is not; extra_behavior None in a schema hides the config; functions see an empty config as None after pickling.)",
  "all core schemas of the modelled kinds, nested in any way, all configs, regular expression engines and validator names",
  "schemas and configs of any shape and depth",
  ["src/validators/mod.rs: build_validator, SchemaValidator.py_new, __reduce__", "src/build_tools.rs: schema_or_config, is_strict, ExtraBehavior", "src/definitions.rs: DefinitionsBuilder", "src/validators/*.rs: build"])

P("C87", "Options of a call",
  "The options strict, from_attributes, by_alias and by_name of a validation call are a shorthand: the call gives what a call without them gives on the schema where every part, definitions included, says them itself, whatever it said before. If no part says otherwise, it also gives what a call without options gives on a validator built with the options in its config and in the configs of all models, dataclasses and typed dicts inside; one can be built iff the other can. Excepted are by_alias and by_name with wrap functions, and strict=True with tagged unions that look up their tag. (The code breaks expectations in these: by_alias and by_name are forgotten below a wrap function; a strict call overrides strict=False of a schema while a strict config does not; a strict config does not reach classes inside.)",
  "all schemas, definitions, inputs, input kinds and options",
  "options are passed on through every validator of a schema of any shape and depth",
  ["src/validators/validation_state.rs: ValidationState, Extra", "src/validators/mod.rs: SchemaValidator.validate_python, validate_json, validate_strings", "src/validators/*.rs: strict_or, validate_by_alias_or, validate_by_name_or", "src/validators/generator.rs: InternalValidator"])

P("C88", "validate_strings agrees with validate_python",
  "For strings and nested dicts of strings, validate_strings gives the same value, or the same errors with the same locations and inputs, as validate_python in lax mode, for every schema that looks neither at the mode nor at the exactness of matches and has no bool literals, function or dataclass arguments, or models with their own __init__ (where attributes may be read, up to the name of the error for something that is not a mapping). Anything but strings and dicts is refused with a string_type error.",
  "all schemas of the fragment, recursive ones included, all inputs made of strings, all by_alias, by_name and allow_partial options",
  "all schemas and inputs of any depth",
  ["src/input/input_string.rs: StringMapping", "src/validators/mod.rs: SchemaValidator.validate_strings", "src/lookup_key.rs: py_get_string_mapping_item"])

P("C89", "serialize_as_any writes an instance as its own class says",
  "With serialize_as_any=True the output does not depend on which model or dataclass the schema names at a position, at any depth: an instance is written by the serializer and with the config of its own class, hence with exactly the fields of its own class in order under their names or aliases (two exceptions are exhibited: instances where the schema says Any, and computed fields of dataclasses)",
  "all schemas, values, options and surrounding classes, to_python in both modes and to_json",
  "all class hierarchies, schemas and values of any depth",
  ["src/serializers/extra.rs: DuckTypingSerMode", "src/serializers/type_serializers/model.rs: ModelSerializer", "src/serializers/type_serializers/dataclass.rs: DataclassSerializer", "src/serializers/infer.rs: infer_to_python_known, infer_serialize_known", "src/serializers/fields.rs: GeneralFieldsSerializer.to_python"])

P("C90", "Loosening a schema keeps accepted inputs and their results",
  "If a schema accepts an input (without allow_partial), then every looser schema accepts it with the same result. A schema is made looser, at any depth and in recursive definitions, by dropping a bound, pattern or multiple_of, or moving a bound outwards, switching strict off, accepting None besides or giving a default to a kind of schema that refuses None, making a typed-dict field not required, adding or loosening the last members of a left-to-right union, forbidding extra keys no longer, accepting *args or **kwargs, changing on_error, fail_fast or a custom error; functions raise ordinary exceptions. Hence what the looser schema refuses, the schema refuses. (Loosenings that do change results are exhibited: members of smart unions and earlier members of left-to-right unions, below on_error or a wrap function, under allow_partial, a default for a field that may be missing, extra keys that are kept instead of ignored.)",
  "all pairs of schemas related by any number of such steps, all definitions, inputs, input kinds, options and states",
  "all pairs of schemas of any shape and depth, and all inputs",
  ["src/validators/*.rs: validate", "src/validators/mod.rs: CombinedValidator", "src/validators/union.rs: UnionValidator.validate_left_to_right", "src/validators/with_default.rs: WithDefaultValidator", "src/validators/typed_dict.rs: TypedDictValidator", "src/validators/arguments.rs: ArgumentsValidator"])

P("C91", "What numbers, strings and literals are written as",
  "Where the schema says int, a value that is an int, a bool or an instance of a subclass of int is written as that number by to_json and in JSON mode, and left as it is in Python mode (a subclass as where the schema says Any), with no warning; floats likewise, infinities and nan as the schema's mode says, and ints as floats; strings likewise. A Literal as a member of a union takes exactly its own values, None, and 0 and 1 for False and True; outside of a union it does not look at the value.",
  "all values, configs, options and surrounding classes; literals of any length made of strings, 64-bit ints, bools and None",
  "all numbers, strings and lists of expected values",
  ["src/serializers/type_serializers/simple.rs: IntSerializer, build_simple_serializer", "src/serializers/type_serializers/float.rs: FloatSerializer, serialize_f64", "src/serializers/type_serializers/string.rs: StrSerializer", "src/serializers/type_serializers/literal.rs: LiteralSerializer.check"])

P("C92", "The order of the keys of the input does not matter",
  "Validating two inputs that differ only in the order of the items of dicts or of the members of JSON objects, at any depth, gives the very same value, or errors of the same types at the same locations (as many times, up to their order), or the same exception, as long as no part of the schema returns input unvalidated, keeps the input's keys (dict, extra=allow, **kwargs) or hands the input to a function that looks at the order, and without allow_partial.",
  "all schemas of the interpreter with recursive definitions, all pairs of inputs that are reorderings of each other, all call options but allow_partial",
  "all permutations of the keys of all nested objects, for every schema",
  ["src/validators/model_fields.rs: validate", "src/validators/typed_dict.rs: validate", "src/validators/arguments.rs: validate", "src/validators/dataclass.rs: DataclassArgsValidator.validate", "src/validators/union.rs: TaggedUnionValidator.validate", "src/lookup_key.rs: py_get_dict_item, json_get"])

P("C93", "Reusing the serializers of complete classes",
  "Building a serializer takes over the serializers of the model and dataclass classes that are complete. As long as each class is always used with its own schema (the class schema with validator functions, plain serializer functions and replacing serializations around it, or with a wrap serializer function outermost), every schema serializes every value as if it was built from its text alone, whatever classes were defined before, in whatever order, and whatever config is around; its name and whether a union tries it again do not change either. A class that is not complete, has no serializer of its own or a wrap function as its serializer, or is a parametrized generic dataclass is built from the schema given. (The code breaks expectations in these: where a class with a plain serializer function is used with another function in its place, the class's function still runs when the other one is not to be used or calls its handler, but not while the class is incomplete; a wrap function below a plain one is called twice; another schema for a complete class is ignored.)",
  "all histories of class definitions, all schemas and configs, all values, modes and filters, all behaviours of functions and other serializers",
  "any number of classes, defined in any order and nested in any way, with functions that can do anything",
  ["src/common/prebuilt.rs: get_prebuilt", "src/serializers/prebuilt.rs: PrebuiltSerializer", "src/serializers/shared.rs: CombinedSerializer::_build", "src/serializers/type_serializers/function.rs: FunctionPlainSerializer::build, FunctionWrapSerializer::build, copy_outer_schema", "src/serializers/type_serializers/format.rs: WhenUsed::should_use"])

P("C94", "The options that leave things out only leave things out",
  "If to_json returns without include, exclude, exclude_unset, exclude_defaults, exclude_none and round_trip, then with any of them it returns as well, and what it writes is the same JSON with some array items and object members left out at any depth: no value is changed, no key renamed, nothing moved or added; the warnings are some of the warnings shown without the options. The one exception is an instance without a set of fields set, which exclude_unset cannot write. (This holds for schemas without unions, without include and exclude of their own, and without JSON text under round_trip; the code breaks the expectation in these: an item excluded by the schema comes back when the call excludes a part of it, a union can choose another member once the item that did not fit is excluded, round_trip puts JSON text in place of values. Below a function serializer that is not to be used, exclude is ignored.)",
  "all schemas without unions and filters of their own, all values, all well-formed include and exclude arguments, all combinations of the options, all definitions and classes",
  "filters nest to any depth and combine with every schema and option",
  ["src/serializers/filter.rs: SchemaFilter::index_filter, key_filter", "src/serializers/fields.rs: main_serde_serialize, extra_serde_serialize", "src/serializers/infer.rs: infer_serialize_known", "src/serializers/computed_fields.rs: serde_serialize", "src/serializers/type_serializers/model.rs: get_inner_value"])

P("C95", "include and exclude prune the data",
  "Serializing plain data (scalars, lists, tuples, dicts and sets of scalars, nested to any depth) without a schema of its own, with include and exclude, gives exactly what serializing the pruned data without them gives: the data from which the items whose path is not included, or is excluded, are removed at every depth. This holds for to_json, and for to_python in JSON mode and in Python mode, results, warnings and errors alike. So data that differ only in what is not selected serialize the same way. (Filters are of the documented type, name no path both entirely and in part, and use indices of items that exist. In Python mode data nested more than 255 levels deep is returned as it is from there on, excluded parts included; filters given for a set are applied to each of its elements in JSON; an index beyond the end of a list removes another item.)",
  "all plain data of any depth and size, all well-formed include and exclude arguments without conflicts that use indices in range, all other options, all environments",
  "filters and data nest to any depth and a leak needs one particular combination of them",
  ["src/serializers/filter.rs: AnyFilter, SchemaFilter, merge_all_value, map_negative_indices", "src/serializers/infer.rs: infer_to_python_known, infer_serialize_known", "src/recursion_guard.rs: RecursionState", "src/serializers/type_serializers/any.rs"])

P("C96", "isinstance_python and get_default_value tell the truth about validation",
  "isinstance_python answers True exactly when validate_python with the same options returns, False exactly when it fails with line errors, and raises what it raises otherwise; a strict instance is a lax instance; True means that a value conforming to the schema comes out. get_default_value answers None exactly for schemas that have no default (themselves or through references), and otherwise a value conforming to the schema: the default itself when it is not validated, what validate_python makes of it when it is. A field of a model or typed dict that the input does not give takes exactly that value. Not true: that a wrapper keeps the default of the schema inside it (nullable loses it), that values accepted with allow_partial are instances, that an absent field of a typed dict with extra='allow' takes its default (an extra item under the field's name replaces it unvalidated), or that a validated default is the same in strict mode.",
  "all schemas (union-free for strict against lax; proper for conformance), definitions, inputs, call options, defaults and factories without data, numbers of references followed",
  "the entry points use the same validators through other paths and states; agreement is a statement about all schemas and inputs",
  ["src/validators/mod.rs: SchemaValidator::isinstance_python, get_default_value", "src/validators/with_default.rs: default_value", "src/validators/definitions.rs: default_value", "src/validators/typed_dict.rs", "src/validators/model_fields.rs"])

P("C97", "Assignments never take an instance out of its schema",
  "A model instance that validation made still conforms to the schema of the model after any series of validate_assignment calls, failed or not, with any attribute names, values and options: every field that had a value has one, each accepted by its own schema, every additional attribute conforms to extras_schema and exists only with extra='allow', and the names marked as set are attributes of the instance. The root value of a root model and the fields of a dataclass stay valid in the same way. So the instance serializes without warnings all its life (for the schemas of C85). Not true: that this holds when an additional item has the name of an aliased field (the next assignment, to any attribute, moves its unvalidated value into the field), or that the names of additional attributes given by assignment satisfy extras_keys_schema.",
  "all model schemas without extras_keys_schema over any field schemas, all instances made by validation whose additional items are not named like fields, all series of assignments of any length, all values and options",
  "instances live long and are assigned to in any order; the invariant is about all histories",
  ["src/validators/model.rs: validate_assignment, set_model_attrs", "src/validators/dataclass.rs: validate_assignment", "src/validators/model_fields.rs: validate, validate_assignment"])

P("C98", "allow_partial only adds to what is accepted",
  "Input that validates as it is validates to the same value with allow_partial (in either of its modes): the option can shorten only what would have been refused, and what is refused with it is refused without it. It reaches the last item of lists and sets, the last value of dicts and typed dicts and what is nested there, and nothing else: in tuples, in the fields of models and dataclasses, in arguments, behind references to definitions and in the handlers of wrap functions it changes neither results nor errors. Not true: for unions (a member is taken that is content with less than what another member would have taken as a whole), for on_error='default', and for validate_strings (a typed dict complains about a last value that it ignores otherwise).",
  "all schemas without untagged unions and on_error other than 'raise', with any definitions, user functions (that do not raise PydanticOmit or PydanticUseDefault) and options; all inputs of validate_python and of validate_json after parsing",
  "a stream is validated again and again while it grows; that completing it gives the same as validating it once is a statement about all schemas and all data",
  ["src/input/return_enums.rs: validate_iter_to_vec, validate_iter_to_set", "src/validators/dict.rs: consume_iterator", "src/validators/typed_dict.rs: validate", "src/validators/validation_state.rs: enumerate_last_partial", "src/validators/model_fields.rs: validate", "src/validators/tuple.rs: validate", "src/validators/definitions.rs: validate", "src/validators/generator.rs: InternalValidator::validate"])

P("C99", "What a series of assignments leaves behind",
  "After any series of validate_assignment calls on an instance, successful or not: the value of a frozen field is what it was, and an instance of a frozen model or dataclass is unchanged altogether; every attribute that was assigned has the value its validator made of the last accepted value, given the other attributes at that time; every other attribute is as before; no attribute has disappeared, and new ones are fields that had no value or, with extra='allow', additional attributes that were assigned. The same holds for the fields of dataclasses, with and without slots. Not true: a 'before' function between a model and its fields can change a frozen field while another one is assigned.",
  "all field sets with any field validators and extra modes, all instances that validation builds, all finite sequences of (name, value) assignments with any call options; frozen or not; dataclasses with or without slots",
  "that a frozen value never changes is about all sequences of operations; a test tries one assignment",
  ["src/validators/model.rs: validate_assignment", "src/validators/model_fields.rs: validate_assignment", "src/validators/dataclass.rs: validate_assignment", "src/validators/function.rs: FunctionBeforeValidator::validate_assignment"])

P("C100", "What the order of the members of a smart union is for",
  "Without allow_partial, the members of a union in smart mode do not influence each other: if one member accepts the input better than every other member that accepts it (more fields set, or a more exact match), in particular if it is the only one that accepts, the union gives the value of that member wherever it stands in the list. Reordering the members never changes whether an input is accepted, changes the value only where members accept equally well, and reorders the reported errors without changing them. Not true with allow_partial: a reference to a definition that is tried first switches allow_partial off for the members after it, so that the order decides whether an input is accepted. Nor after the limit on the depth of recursion was hit, which makes the depth counter stay too high for what is validated next.",
  "all schemas as members, definitions and recursion included, any number of them in any order, all inputs, options and enclosing validations",
  "that members leave nothing behind for the next ones is about all schemas; a test compares a few orders of a few members",
  ["src/validators/union.rs: UnionValidator::validate_smart", "src/validators/definitions.rs: DefinitionRefValidator::validate", "src/validators/validation_state.rs: ValidationState"])

with open(os.path.join(os.path.dirname(__file__), "..", "properties.jsonl"), "w") as f:
    for o in OUT:
        f.write(json.dumps(o) + "\n")
print(len(OUT))

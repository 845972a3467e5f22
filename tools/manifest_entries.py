M("C01", "proved", ["C01_guard_is_a_set", "C01_guard_never_panics"])
M("C02", "proved", ["C02_guard_balanced", "C02_balanced_at_limit_refuted"],
  "balanced below the depth limit; at the limit the code leaks the pair (refuted variant)")
M("C03", "proved", ["C03_cycles_reported_exactly"],
  "traversal abstracted to its guarded nodes")

M("C04", "proved", ["C04_int_text_exact", "C04_white_space", "C04_python_int_accepted", "C04_only_python_int_refuted"],
  "Exact accepted language (inductive grammar) with value for every string and digit limit; the _refuted theorem shows texts outside Python's int() syntax that are accepted. jiter's integer grammar and 4300-digit limit are assumptions on an external crate, modelled with the limit as a parameter.")
M("C05", "proved", ["C05_decimal_text_roundtrip", "C05_decorated_text_roundtrip", "C05_too_many_digits"],
  "For every integer and every digit limit; decorated forms cover whitespace, sign, leading zeros and a zero fraction.")
M("C07", "proved", ["C07_text_to_bool", "C07_words_disjoint", "C07_int_to_bool"], "All strings, all integers.")
M("C54", "proved", ["C54_timedelta_roundtrip", "C54_duration_sign"], "Exact timedelta instances; speedate's Duration::new normalisation is modelled as trusted.")
M("C55", "proved", ["C55_int_timedelta_exact", "C55_int_timedelta_accepted", "C55_int_timedelta_refuted",
   "C55_float_timedelta_close", "C55_float_timedelta_accepted", "C55_float_datetime_close", "C55_float_datetime_negative_refuted"],
  "Safe ranges proved; the two failures of the full claim are exhibited by the _refuted theorems. IEEE rounding enters as a hypothesis (monotone, exact on small integers, relative error 2^-53) that binary64 round-to-nearest meets.")
M("C59", "proved", ["C59_tz_constraint", "C59_tz_errors", "C59_tz_range", "C59_tz_name_faithful", "C59_tz_name_injective"])
M("C56", "proved", ["C56_max_digits", "C56_decimal_places", "C56_both", "C56_representation_independent", "C56_zero_refuted", "C56_beyond_precision_refuted"],
  "Proved for numbers within the Python context precision; beyond it, and for zero with both limits, the claim is false of the code (refuted theorems).")
M("C44", "proved", ["C44_truncation_safe", "C44_truncation_keeps"], "All texts (lists of Unicode scalar values) and all limits >= 1.")
M("C53", "proved", ["C53_bytes_roundtrip", "C53_bytes_serializable", "C53_base64_is_rfc4648", "C53_base64_accepted", "C53_hex_accepted", "C53_hex_lower"],
  "hex, base64 and from_utf8 are modelled from their documented behaviour.")
M("C35", "proved", ["C35_build_succeeds", "C35_build_error", "C35_references_resolve"], "")
M("C45", "proved", ["C45_paths", "C45_decision", "C45_schema_filter", "C45_schema_exclude_refuted", "C45_conflict_refuted"],
  "Path semantics of nested filters for all well-formed filters; two ways in which the plain English claim fails are refuted.")
M("C46", "proved", ["C46_exclude_set", "C46_include_set", "C46_exclude_dict", "C46_unsized", "C46_unsized_include", "C46_out_of_range_refuted"],
  "Indices within [-n, n); outside that range the code wraps around (refuted).")
M("C06", "proved", ["C06_float_as_int_exact", "C06_float_as_int_errors", "C06_decimal_as_int_exact", "C06_all_i64_floats_refuted"],
  "All doubles (stdlib SpecFloat) and all decimals; the refuted theorem shows the excluded boundary -2^63.")
M("C08", "proved", ["C08_int_constraints_exact", "C08_int_error_is_true", "C08_representation_independent", "C08_never_panics_refuted"],
  "All integers in all representations; the two panicking inputs are exhibited.")
M("C09", "proved", ["C09_float_constraints", "C09_nan_fails_bounds", "C09_finite_rule", "C09_multiple_of_refuted"],
  "All doubles and bounds; multiple_of is the code's own double computation, which accepts infinities and NaN (refuted).")
M("C12", "proved", ["C12_list_success", "C12_untyped_list"], "Item schema is an arbitrary stateful function; how an input becomes a sequence is a parameter.")
M("C13", "proved", ["C13_errors_complete", "C13_error_location", "C13_other_errors_escape", "C13_limit_hides_refuted", "C13_set_limit_hides_refuted"], "As long as max_length is not exceeded; when it is, the errors of the items are lost (refuted).")
M("C14", "proved", ["C14_fail_fast", "C14_set_fail_fast"], "Later items, even a raising or endless iterator, do not influence outcome or state.")
M("C15", "proved", ["C15_limits_respected", "C15_list_max_stops", "C15_list_min_reported", "C15_dropped_counts_refuted"], "An item that allow_partial drops counts for the max_length of a list, but not of a set (refuted).")
M("C16", "proved", ["C16_set_success", "C16_set_accepts", "C16_set_errors"], "")
M("C17", "proved", ["C17_dict_success", "C17_dict_errors", "C17_dict_accepts", "C17_key_error_path"], "last-entry-wins is stated for keys on which Python equality is an equivalence (not NaN).")
M("C60", "proved", ["C60_partial_list", "C60_partial_dict"], "Lists and dicts over arbitrary children; sets share the list's error function (C16_set_errors).")
M("C10", "proved", ["C10_dict_lookup", "C10_dict_absent", "C10_json_lookup", "C10_attr_lookup", "C10_names_tried", "C10_alias_accepted",
   "C10_error_location", "C10_location_is_alias", "C10_missing_location", "C10_attr_kwargs_first"],
  "Dicts, mappings, JSON objects and attributes; getattr is an arbitrary function. Attribute lookup is stated for objects that are not dicts (dicts never reach it).")
M("C11", "proved", ["C11_json_python_lookup"], "All documents, including duplicate keys and negative indices.")
M("C18", "proved", ["C18_model_success", "C18_every_field_accounted"], "Field, extras and key schemas are arbitrary stateful functions; the mapping read from the input is arbitrary.")
M("C19", "proved", ["C19_errors_exact", "C19_missing_and_failing_reported", "C19_not_a_mapping"], "")
M("C20", "proved", ["C20_forbid", "C20_ignore", "C20_allow", "C20_consumed_not_extra", "C20_last_extra_wins"], "")
M("C21", "proved", ["C21_typed_dict_success", "C21_typed_dict_errors", "C21_required_present", "C21_readable", "C21_required_strings_refuted"],
  "Proved for Python dicts and JSON; refuted for string mappings, where an unreadable required value is dropped silently. A field schema that raises PydanticOmit may also drop its key.")
M("C61", "proved", ["C61_field_values", "C61_field_values_refuted"], "Proved when no kept extra key has a field's name; the counterexample otherwise.")
M("C27", "proved", ["C27_defaults", "C27_absent", "C27_defaults_only", "C27_no_validation", "C27_terminates_refuted", "C27_factory_data_refuted", "C27_undefined_panic_refuted"],
  "Copying of unhashable defaults is invisible on the tree values of the model. Counterexamples: endless recursion with an invalid validated default and on_error=default; a data-taking factory called with () outside models; a panic on PydanticUndefined without default.")
M("C41", "proved", ["C41_nullable", "C41_chain", "C41_chain_build", "C41_json_or_python", "C41_lax_or_strict", "C41_lax_or_strict_refuted", "C41_custom_error", "C41_custom_error_refuted"],
  "Wrapped schemas are arbitrary stateful functions. Counterexamples: custom_error swallows internal errors and omissions; a failed strict attempt leaves its fields-set count behind.")
M("C42", "proved", ["C42_exceptions", "C42_before", "C42_after", "C42_info", "C42_wrap_transparent", "C42_wrap_conversation", "C42_wrap_result", "C42_wrap_flags_refuted", "C42_wrap_omit_refuted", "C42_wrap_count_refuted", "C42_on_error_swallows_refuted"],
  "User functions are pure functions of value and info; wrap functions are arbitrary finite interactions with the handler. Counterexamples: the handler drops by_alias/by_name and the fields-set count, and turns an omission into a SchemaError; on_error hides foreign exceptions.")
M("C22", "proved", ["C22_succeeds_iff", "C22_best_match", "C22_maximal_refuted", "C22_ties_refuted"],
  "Members are arbitrary stateful functions. Maximality holds when the outcomes are comparable (all or none count fields); for mixed outcomes the code's comparison is not transitive and the chosen member need not be maximal (refuted), and an exact match without fields ends the search early (ties refuted).")
M("C23", "proved", ["C23_first_match", "C23_fails_iff"], "")
M("C24", "proved", ["C24_smart_errors", "C24_left_to_right_errors"], "")
M("C25", "proved", ["C25_smart", "C25_left_to_right", "C25_every_schema", "C25_without_smart", "C25_omit_refuted", "C25_omit_outer_refuted", "C25_omit_later_refuted", "C25_swallowed_refuted"],
  "Unions over members that keep the books (a smart union over any members), whole schemas without smart unions whatever the result, and whole schemas with them in which nothing omits and nothing carries on after an error of a part with a smart union (or a reference) in it, as a default on error, a wrap function, a custom-error schema and the strict side of a lax-or-strict schema do. The refuted theorems show what omitting, and a default taken after an error of the user's code, do: the caller's exactness is left raised.")
M("C26", "proved", ["C26_dispatch", "C26_missing_tag", "C26_unknown_tag", "C26_no_tag", "C26_big_int_tag_refuted"],
  "Tags of the kinds typing.Literal allows, pairwise different (they are dict keys).")
M("C36", "proved", ["C36_literal", "C36_same_type", "C36_sound", "C36_no_panic", "C36_big_int_refuted", "C36_keys_refuted"],
  "Python and JSON inputs; expected values of the kinds typing.Literal allows (arbitrary ones for C36_sound). Counterexamples: huge integers next to small ones; object keys and validate_strings parse a literal True.")
M("C37", "proved", ["C37_success", "C37_errors", "C37_too_long", "C37_fail_fast", "C37_tail_location_refuted", "C37_max_length_refuted", "C37_too_short_refuted", "C37_omit_refuted", "C37_iteration_refuted", "C37_partial_leak_refuted"],
  "Item schemas are arbitrary stateful functions. Counterexamples: suffix locations off by one, max_length not counting defaults, spurious too_short, omitted items shift, iteration errors off by one, partial mode left off.")
M("C43", "proved", ["C43_next", "C43_one_item_per_call", "C43_lazy", "C43_complete", "C43_max", "C43_min", "C43_created", "C43_max_refuted"],
  "Sources are arbitrary (endless, raising, resuming) event sequences. max_length is enforced only with an item schema (refuted otherwise).")
M("C40", "proved", ["C40_failed_unchanged", "C40_model_update", "C40_model_succeeds", "C40_frozen", "C40_frozen_field", "C40_error_location", "C40_history", "C40_root",
   "C40_dataclass_failed", "C40_dataclass_update", "C40_after_function_refuted", "C40_root_not_marked_refuted", "C40_dataclass_extras_refuted", "C40_dataclass_unset_refuted"],
  "Models over arbitrary inner validators (failure), over model-fields with arbitrary field schemas (success). Counterexamples: a failing after-function leaves the model changed; a root assignment is not marked as set; dataclasses lose extra attributes; a field without value blocks all assignments.")
M("C38", "proved", ["C38_result", "C38_sources", "C38_binds", "C38_no_alias", "C38_inputs", "C38_alias_overwritten_refuted", "C38_bound_twice_refuted", "C38_unordered_refuted", "C38_default_error_refuted"],
  "Any parameter list and any child validators. Binding is stated against CPython's binding rule, for parameter lists in Python's order with distinct names. Counterexamples: an aliased parameter is overwritten or bound twice by a surplus keyword with its own name; the order of modes is not checked; a failing default hides other errors.")
M("C39", "proved", ["C39_result", "C39_sources", "C39_positional_used", "C39_dict", "C39_argument_dropped_refuted", "C39_no_init_dropped_refuted", "C39_no_init_set_refuted"],
  "Counterexamples: positional arguments are matched by field index, so one at a keyword-only or init=False field is dropped; with extras allowed an init=False field is set from the input.")
M("C32", "proved", ["C32_errors_not_empty", "C32_no_empty_exception", "C32_empty_reraised_refuted", "C32_empty_item_dropped_refuted"],
  "Whole schemas: 32 kinds of schema, recursive definitions, any options and input, for user functions that do not raise a ValidationError without line errors. Counterexamples without that proviso: the empty error passes through, and inside a list the item is dropped.")
M("C62", "proved", ["C62_model_kept", "C62_dataclass_kept", "C62_model_revalidated", "C62_dataclass_revalidated", "C62_dataclass_dict", "C62_dataclass_missing", "C62_model_fresh", "C62_root_fresh", "C62_custom_init", "C62_init_agrees", "C62_strict_dataclass", "C62_dataclass_fresh", "C62_dataclass_attrs", "C62_dataclass_post_init", "C62_result_class", "C62_root_fields_set_refuted", "C62_dataclass_default_refuted"],
  "Inner schemas are arbitrary stateful functions, the class hierarchy an arbitrary relation. Object identity is equality of the model's values. Counterexamples: revalidating a root model marks the root as set; a dataclass instance lacking an attribute raises AttributeError.")
M("C34", "proved", ["C34_leftovers_irrelevant", "C34_calls_independent", "C34_sibling_leak_refuted"],
  "Whole schemas, any options and inputs. The model's calls start from a fresh state as in the code; the theorems say that nothing a previous validation could leave in that state (exactness, count of set fields) changes a result, for any sequence of calls. Global caches (regexes, time zones, the string cache) are not modelled. Counterexample inside one call: an omitted member of a smart union leaves the exactness raised, and a later sibling takes another branch.")
M("C33", "proved", ["C33_json_agrees", "C33_agrees_up_to_name", "C33_same_value", "C33_tagged_name_refuted", "C33_huge_int_refuted", "C33_smart_union_refuted", "C33_float_text_refuted", "C33_bool_key_refuted", "C33_duplicate_key_refuted", "C33_list_limits_refuted"],
  "All schemas of the fragment json_native (RelSpec.v; everything but smart unions, json_or_python, is_instance, number-to-string coercion and functions that look at the mode; with from_attributes, as in tagged unions by default, up to the name of the error for things that are not mappings, and then without wrap functions), recursive definitions up to the recursion limit, documents with distinct keys and 64-bit integers, strict=False. Outside of the fragment the two differ, as the refuted theorems show.")
M("C29", "proved", ["C29_result_conforms", "C29_omissions_asked_for", "C29_fixed_tuple", "C29_model", "C29_int_list"],
  "Whole schemas (all 32 kinds of the model), any definitions, options and input, any user functions that do not raise an empty ValidationError. The specification `conforms` (ConformSpec.v) is read off the schema alone; it follows the code where other theorems refute the naive claim: extra keys named like a field with an alias (C61_field_values_refuted), required keys in validate_strings (C21_required_strings_refuted), max_length of tuples with defaults and omitted positions (C37_max_length_refuted, C37_omit_refuted).")
M("C52", "proved", ["C52_parses", "C52_injective", "C52_strings", "C52_no_panic", "C52_layout", "C52_length_hint", "C52_nan_refuted"],
  "The RFC 8259 grammar is an unambiguous relation between texts and values (JsonTextSpec.v). The text of finite floats (ryu) is a parameter assumed to be a JSON number that reads back as the float; serde_json's two formatters are modelled from their documentation. NaN and the infinities are written as constants that are not JSON (refuted).")
M("C47", "proved", ["C47_model_to_json", "C47_model_to_python", "C47_dict_of", "C47_dataclass_to_json", "C47_dataclass_to_python", "C47_hidden_default_refuted", "C47_filter_dropped_refuted"],
  "Models and dataclasses with any fields and computed fields (no additional fields), any include/exclude of the documented form, any field serializers, serialize_as_any off; for a model whose __dict__ has str keys. Which fields are written, their order, names and values. Counterexamples: exclude_defaults does not see a default inside a nullable schema; a function serializer that does not apply still drops include/exclude; (C48_computed_none_refuted) exclude_none on computed fields differs between Python and JSON.")
M("C48", "proved", ["C48_agree", "C48_json_text", "C48_denotes", "C48_nan_refuted", "C48_set_filter_refuted", "C48_extras_schema_refuted", "C48_computed_none_refuted", "C48_json_or_python_refuted", "C48_large_int_refuted", "C48_none_key_refuted", "C48_surrogate_refuted", "C48_dataclass_computed_refuted"],
  "All 26 kinds of serializer of the model restricted to the fragment same_form (SerSpec.v), any options, recursive definitions and classes with their own serializers. Outside of it the two outputs differ, as the refuted theorems show.")
M("C49", "proved", ["C49_exact_keys", "C49_string_keys", "C49_values", "C49_str_subclass_key_refuted", "C49_extra_key_refuted"],
  "All kinds of serializer; exact str keys when no additional fields are allowed, str (or subclass) keys in typed dicts. Counterexamples: keys of additional fields are passed through.")
M("C50", "proved", ["C50_to_python", "C50_to_json", "C50_models", "C50_no_retry_refuted", "C50_none_refuted", "C50_float_mode_refuted", "C50_leak_refuted", "C50_required", "C50_required_refuted", "C50_include_refuted"],
  "Unions with any members, any options, to_python in both modes and to_json. Counterexamples: the lax attempt is made only if a member asks for it; None is accepted by the first member; the chosen member's float mode is lost in JSON; warnings of rejected members are shown; fields left out by include count as missing.")
M("C57", "proved", ["C57_to_json", "C57_to_python", "C57_injective", "C57_collision_refuted", "C57_empty_refuted", "C57_digits_refuted", "C57_bool_int_refuted"],
  "Dicts with tuple keys of str, int, bool and None parts, key schema Any or a fixed tuple of such schemas, no filters. Floats and other parts as key parts are not covered by the texts theorem.")
M("C58", "proved", ["C58_to_python", "C58_to_json", "C58_unexpected", "C58_extra_items", "C58_expected"],
  "warnings=False, True and 'error' give the same result or an exception exactly when a warning was recorded: whole serializers, any options. Values of an unexpected built-in type are warned about, values that fit are not.")
M("C30", "proved", ["C30_revalidation", "C30_revalidation_call", "C30_case_change_refuted", "C30_alias_refuted", "C30_omitted_field_refuted", "C30_tuple_default_refuted", "C30_default_refuted", "C30_union_refuted", "C30_smart_union_refuted", "C30_lax_or_strict_refuted", "C30_deep_json_refuted"],
  "All schemas of the fragment `stable` (StableSpec.v), recursive definitions, any options and Python or JSON input of the first validation. Through definitions the only other outcome is the recursion-limit error. Outside of the fragment the statement fails, as the refuted theorems show (case changes, aliases, omitted fields, uncounted defaults, unvalidated defaults, unions, lax_or_strict, JSON nested beyond the limit); functions, chains and typed-dict fields with a default are not covered.")
M("C28", "proved", ["C28_strict_implies_lax", "C28_lax_refusal", "C28_union_refuted", "C28_smart_union_refuted", "C28_on_error_refuted", "C28_omit_refuted", "C28_lax_or_strict_refuted", "C28_wrap_refuted", "C28_function_omit_refuted", "C28_partial_refuted"],
  "All schemas of the fragment `union_free` (StrictSpec.v), recursive definitions, any input and options without allow_partial; user functions refuse with ordinary exceptions (not PydanticOmit, PydanticUseDefault or an empty ValidationError). Outside of the fragment the two modes may return different values, as the refuted theorems show.")
M("C31", "proved", ["C31_errors_point_into_the_input", "C31_json", "C31_tuple_tail_refuted", "C31_default_refuted", "C31_chain_refuted", "C31_before_function_refuted", "C31_extra_key_refuted", "C31_field_name_refuted", "C31_raised_refuted", "C31_multiple_values_refuted", "C31_revalidated_refuted"],
  "All schemas of the fragment `locatable` (LocateSpec.v), recursive definitions, all Python and JSON inputs and all options. Union labels in locations are a parameter (`label`). The exclusions are each exhibited by a refuted theorem: the errors show values that are not in the input, or the location is not that of the value shown.")
M("C51", "proved", ["C51_json_round_trip", "C51_python_round_trip", "C51_text_round_trip", "C51_validated_round_trip", "C51_nan_refuted", "C51_bytes_mode_refuted", "C51_root_none_refuted", "C51_none_key_refuted", "C51_tuple_key_refuted", "C51_union_refuted", "C51_any_refuted", "C51_surrogate_key_refuted", "C51_alias_refuted"],
  "All pairs of a schema and a serializer of the fragment `pair` (RoundTripSpec.v), recursive definitions included: None, bool, int, float, str, bytes, nullable, default, list, set, frozenset, tuple, dict, typed dict, model, root model, references. Values of built-in types and models built from their fields. Equality is Python's ==: the record of the fields set is not compared. The refuted theorems show why the exclusions are needed. C51_text_round_trip supposes that the floats written are read back (`writable`, as in C52).")
M("C63", "proved", ["C63_instance", "C63_strict_python", "C63_member", "C63_no_member", "C63_agrees_with_class", "C63_int_outside", "C63_json_refuted", "C63_big_value_refuted"],
  "Values of plain enums are arbitrary and pairwise different (Python makes equal ones aliases); values of int, str and float enums are of that type. Calling the class and _missing_ are arbitrary functions. The enum validator is modelled on its own and is not one of the kinds of the whole-schema model. Counterexamples: JSON data that is no member's value gives the member with value None; integers outside 64 bits are an int_parsing_size error even if they are a member's value.")
M("C64", "proved", ["C64_signatures", "C64_argskwargs", "C64_mapping_result", "C64_mapping_binds", "C64_kwargs_overwrite_refuted", "C64_bound_twice_refuted", "C64_iterator_panic_refuted", "C64_unpacked_panic_refuted", "C64_default_then_variadic_refuted", "C64_json_kwargs_refuted"],
  "The parameters' schemas are arbitrary functions. C64_argskwargs supposes that they do not look at the field name, which only the older schema sets. C64_mapping_binds supposes that the entries given for **kwargs are not named like a parameter: the refuted theorems show what happens otherwise, and that def f(a=1, *args) is refused as a signature. The arguments-v3 validator is modelled on its own and is not one of the kinds of the whole-schema model.")
M("C65", "proved", ["C65_rebuilt", "C65_named", "C65_custom_refuted", "C65_custom_named_refuted", "C65_big_limit_refuted", "C65_huge_limit_refuted", "C65_decimal_limit_refuted"],
  "Errors as validators make them (fields of the right types, no context) or as made from a name and a context with string keys. Excluded, and each exhibited by a refuted theorem: custom errors (KeyError on unpickling, or another error's message), integer limits beyond 64 bits (message with a float, or TypeError), Decimal limits. Pickling of the inputs and context values themselves is taken as the identity.")
M("C66", "proved", ["C66_message", "C66_custom", "C66_total", "C66_tag_refuted", "C66_custom_order_refuted"],
  "All 101 known error types. C66_message supposes that string values other than the one replaced last have no opening brace; the refuted theorems show the messages otherwise. Templates of custom errors: those whose opening braces all begin a placeholder.")
M("C67", "proved", ["C67_counts", "C67_entries", "C67_json_agrees", "C67_options", "C67_text", "C67_hidden", "C67_custom_url_refuted", "C67_custom_context_refuted", "C67_title_refuted", "C67_place_refuted"],
  "The JSON of inputs and contexts (serialize_infer) is a parameter; JSON values rather than their text. C67_text is for hidden inputs; otherwise the repr of each input is added, which is a parameter.")
M("C68", "proved", ["C68_calendar", "C68_date", "C68_date_only", "C68_date_inexact", "C68_datetime", "C68_datetime_only", "C68_datetime_errors", "C68_time", "C68_time_only", "C68_raises", "C68_mixed_refuted", "C68_offset_refuted", "C68_object_refuted", "C68_zone_refuted"],
  "The text and number readers of speedate are parameters (any functions giving dates and times in range), so is the clock; comparison of speedate values is written from its documentation. C68_calendar shows that the day numbers used for comparison count days of the Gregorian calendar. The validators are modelled on their own and are not kinds of the whole-schema model. Counterexamples: bounds are not transitive when naive and aware values are mixed; sub-second offsets are rounded; exceptions of a broken tzinfo escape; midnight is that of the shown clock.")
M("C69", "proved", ["C69_timedelta", "C69_only", "C69_refused", "C69_overflow_refuted"],
  "The ISO 8601 reader and the reading of floats (C55) are parameters giving durations in range. Subclasses of timedelta are not modelled. Counterexample: numbers of seconds below the least timedelta raise OverflowError instead of a validation error.")
M("C70", "proved", ["C70_text", "C70_object", "C70_others", "C70_accepted", "C70_bytes_refuted", "C70_result_length_refuted", "C70_port_refuted"],
  "The url crate is a parameter: any function from texts to URLs (given by their components) or errors, any reporting of violations, any reading of default hosts and paths; its setters are written from its documentation. Subclasses of Url and the cls setting only change the class of the result and are not modelled. The validators are modelled on their own and are not kinds of the whole-schema model.")
M("C71", "proved", ["C71_text", "C71_unparted", "C71_object", "C71_defaults_refuted"],
  "Characters rather than byte positions in the scan (the code's positions are byte offsets of the same characters). See C70 for the library.")
M("C72", "proved", ["C72_url_round_trip", "C72_multi_round_trip", "C72_text", "C72_unicode", "C72_unicode_host", "C72_unicode_plain", "C72_unicode_refuted", "C72_equal_refuted", "C72_comma_refuted"],
  "Supposes of the library (`library_ok`, UrlSpec.v): its results are well formed, it reads back what it writes, it keeps the scheme, and a text that ends with the host gives a URL without path, query and fragment. A library with these properties is exhibited. C72_multi_round_trip supposes that there is no comma in a host part: C72_comma_refuted shows what happens otherwise. C72_unicode is for URLs without user name or with ASCII hosts.")
M("C73", "proved", ["C73_build", "C73_multi_build", "C73_arguments", "C73_hosts", "C73_username_refuted", "C73_injection_refuted"],
  "Same library assumptions as C72; URLs with a host.")
M("C74", "proved", ["C74_text", "C74_bytes", "C74_object", "C74_refused", "C74_round_trip", "C74_safe_refuted", "C74_build_refuted"],
  "The uuid crate's parser and CPython's UUID.version and UUID.__str__ are modelled from their documentation; messages of parsing errors are arbitrary.")
M("C75", "proved", ["C75_object", "C75_accepted", "C75_refused", "C75_round_trip", "C75_negative_zero_refuted", "C75_nan_refuted", "C75_strict_refuted", "C75_int_refuted"],
  "complex() of text is an arbitrary function in the acceptance theorems; in the round trip it is CPython's algorithm over an arbitrary strtod that reads what the float printer writes (`printed`). The sign of a zero real part is lost. Objects with __complex__ are not modelled.")
M("C76", "proved", ["C76_validate_json", "C76_document", "C76_not_json", "C76_plain", "C76_nested", "C76_round_trip", "C76_mode_refuted", "C76_any_refuted"],
  "The JSON parser is an arbitrary function of the bytes and the partial mode; C76_validate_json supposes for S = any that jiter's two parsers agree, C76_round_trip that the parser reads RFC 8259 texts of the value written as that value. The text of a syntax error is a number.")
M("C77", "proved", ["C77_invalid", "C77_called", "C77_shape", "C77_once", "C77_arguments", "C77_mode_refuted"],
  "The function acts on an arbitrary world; the argument and return schemas are arbitrary.")
M("C78", "proved", ["C78_callable", "C78_subclass"],
  "callable(), type checks and issubclass are arbitrary functions of the object.")
M("C79", "proved", ["C79_date", "C79_time", "C79_datetime", "C79_injective", "C79_types", "C79_offset_refuted"],
  "speedate's Display is written from its documentation; the readers are arbitrary functions that read those texts as the value written (`reads_date`, `reads_time`, `reads_dt`), and such readers are constructed (readers_exist). The theorems on times suppose offsets of whole minutes; C79_offset_refuted shows the loss otherwise. The fold attribute is not modelled.")
M("C80", "proved", ["C80_iso_meaning", "C80_injective", "C80_iso_round_trip", "C80_float_round_trip", "C80_subclass", "C80_types", "C80_float_refuted", "C80_subclass_refuted", "C80_float_strict_refuted"],
  "speedate's Display of durations is written from its documentation; its reader is an arbitrary function that reads those texts as the duration written (`reads_dur`; such a reader is constructed). Rounding is any function with the listed properties of IEEE rounding; round64 is one. total_seconds is CPython's. Subclasses that override total_seconds are not modelled.")
M("C81", "proved", ["C81_json", "C81_raises", "C81_next", "C81_python", "C81_shown", "C81_error", "C81_once_refuted", "C81_copied_refuted", "C81_error_refuted", "C81_negative_refuted", "C81_wraps_refuted"],
  "A generator is the list of what it does call by call (yield a value or raise); the item serializer is arbitrary. C81_json supposes that the filters name only indices of the list; the two refutations on indices show why. What a generator does to other objects while it runs is not modelled.")
M("C82", "proved", ["C82_identity", "C82_plain", "C82_end", "C82_items", "C82_independent", "C82_shown", "C82_error", "C82_filters_refuted", "C82_once_refuted", "C82_omit_refuted", "C82_error_refuted"],
  "The function is an arbitrary program that calls the handler any number of times and may catch what it raises; wrapped and result serializers are arbitrary. Handlers kept after the function has ended, and the SerializationInfo object, are not modelled.")
M("C83", "proved", ["C83_round_trip", "C83_injective", "C83_accepts", "C83_finite", "C83_nan", "C83_multiple", "C83_multiple_special", "C83_int", "C83_large_refuted", "C83_infinity_refuted", "C83_nan_bound_refuted", "C83_rounded_refuted"],
  "CPython's str(), comparison, division and remainder of Decimals are written from _pydecimal.py, without Emin and Emax; Decimal(text) is an arbitrary function that reads what str() writes (dec_read is one). C83_multiple supposes a quotient of at most prec digits; C83_rounded_refuted shows why. Digit limits are C56.")
M("C84", "proved", ["C84_as_written", "C84_order", "C84_not_used", "C84_used", "C84_before_refuted", "C84_other_schema_refuted", "C84_redefined_refuted"],
  "Validators only; schemas are trees without references to definitions, kinds and configs are opaque numbers, and a prebuilt validator behaves as the stored one (it forwards the call). Schemas other than classes are taken to pass their config down. The reuse of serializers is C93.")

M("C85", "proved", ["C85_no_warnings", "C85_error_mode_is_harmless", "C85_builds", "C85_panics_only", "C85_lax_or_strict_refuted", "C85_after_refuted", "C85_default_refuted", "C85_omitted_item_refuted", "C85_instance_refuted", "C85_extra_behavior_refuted", "C85_aliased_extra_refuted", "C85_silent_loss_refuted"],
  "Schemas are those of Interp.v; unions, dataclasses, plain functions and models with additional items are outside of the fragment, and schemas that accept anything are covered for results made of built-in types only. One config is used for the whole schema, no `serialization` key and no computed fields.")

M("C86", "proved", ["C86_config_is_shorthand", "C86_classes_ignore_parent", "C86_builds", "C86_sound", "C86_definitions", "C86_as_written", "C86_panics_only", "C86_empty_config", "C86_reference_refuted", "C86_whole_config_refuted", "C86_custom_error_refuted", "C86_schema_error_refuted", "C86_required_refuted", "C86_none_refuted", "C86_pickled_refuted"],
  "Core schemas of the kinds that Interp.v validates (33 of them); keys have values of the right type. Names of validators and the regular expression engines are arbitrary functions. No validator built earlier is reused (C84), and settings of SchemaValidator itself (title, hide_input_in_errors, validation_error_cause, cache_strings) are left out.")

M("C87", "proved", ["C87_options_are_shorthand", "C87_options_are_config", "C87_wrap_refuted", "C87_own_setting_refuted", "C87_class_refuted"],
  "Schemas of Interp.v and core schemas of Core.v. Where functions look at the config for one of the options, C87_options_are_config does not apply. That a strict call refuses Mappings that are not dicts in a tagged union is excluded by hypothesis and not shown, since such Mappings are no values of the model.")

M("C88", "proved", ["C88_strings_agree", "C88_agree_up_to_name", "C88_same_value", "C88_json_agrees", "C88_only_strings", "C88_dict_only_strings", "C88_custom_init_refuted", "C88_literal_bool_refuted", "C88_smart_union_refuted", "C88_strict_refuted", "C88_json_branch_refuted", "C88_arguments_refuted", "C88_dataclass_error_refuted"],
  "All schemas of the fragment strings_native (RelSpec.v; with from_attributes up to the name of one error), recursive definitions up to the recursion limit, strict=False. Outside of the fragment the two differ, as the refuted theorems show; in particular the __init__ of a model is not called by validate_strings. Dates, decimals and the other kinds that Interp.v leaves out are not covered here.")
M("C89", "proved", ["C89_declared_classes", "C89_own_class", "C89_written", "C89_any_refuted", "C89_computed_refuted"],
  "C89_declared_classes: every schema, every surroundings, both modes, all options; the declared classes of computed fields, dict keys and definitions are kept. C89_written: JSON mode, models without computed or additional fields, lists and scalars, no include or exclude. C89_any_refuted: where the schema says Any, an instance meets the recursion guard: Python mode returns the instance itself and JSON mode raises. C89_computed_refuted: computed fields of dataclasses are written by their declared class.")
M("C90", "proved", ["C90_looser_accepts", "C90_loosened_call", "C90_refusal", "C90_smart_member_refuted", "C90_smart_new_member_refuted", "C90_ltr_member_refuted", "C90_now_refused_refuted", "C90_on_error_refuted", "C90_omit_refuted", "C90_new_default_refuted", "C90_model_extra_refuted", "C90_extra_ignore_refuted", "C90_partial_refuted", "C90_wrap_refuted", "C90_use_default_refuted"],
  "All schemas of Interp.v, recursive definitions up to the recursion limit. The steps are the rules of looser in LooseSpec.v; float bounds may be dropped but not moved, schemas below a wrap function, a smart union or an on_error other than raise stay as they are. The refuted theorems show why the remaining steps are left out.")
M("C91", "proved", ["C91_int", "C91_float", "C91_int_as_float", "C91_str", "C91_literal_member", "C91_literal_unchecked", "C91_literal_warns_refuted", "C91_literal_bool_refuted", "C91_bool_refuted"],
  "Serializers of Ser.v. C91_literal_member is about to_python in both modes, for literals made of strings, 64-bit ints, bools and None; to_json of a union goes through the same attempts (C50). An int too large for a float is excluded by hypothesis (C48_large_int_refuted).")
M("C92", "proved", ["C92_key_order", "C92_accepted", "C92_refused", "C92_any_refuted", "C92_dict_refuted", "C92_extra_allow_refuted", "C92_kwargs_refuted", "C92_list_any_refuted", "C92_before_refuted", "C92_discriminator_function_refuted", "C92_partial_refuted", "C92_json_duplicates_refuted", "C92_error_order_refuted"],
  "All schemas of Interp.v that satisfy order_blind (OrderSpec.v), recursive definitions included. Dict keys are distinct strings, JSON objects have distinct names. The input quoted in an error and the text of an invalid tag may show the order and are not compared; wrap functions and models with a custom init are left out.")

M("C93", "proved", ["C93_as_written", "C93_order", "C93_not_used", "C93_used", "C93_override_refuted", "C93_handler_refuted", "C93_wrap_below_refuted", "C93_other_schema_refuted"],
  "Schemas are trees without references to definitions; kinds, functions, names and configs are opaque numbers. What functions and serializers of the other kinds do is an arbitrary interpretation that sees the serializers inside only through what they answer. Schemas other than classes are taken to pass their config down.")

M("C94", "proved", ["C94_only_removes", "C94_only_removes_unset", "C94_only_removes_quietly", "C94_scalars_kept", "C94_members_kept", "C94_unset_fails_refuted", "C94_schema_filter_refuted", "C94_union_refuted", "C94_round_trip_refuted", "C94_bad_filter_refuted", "C94_function_ignores_exclude_refuted"],
  "to_json of Ser.v, for schemas that satisfy cuttable (SerCutSpec.v), definitions and inferred instances included. With exclude_unset either models keep no additional fields or the full call shows no warning. Filters are sets and dicts nested to any depth (wf_top, FilterSpec.v).")
M("C95", "proved", ["C95_prunes_json", "C95_prunes_json_mode", "C95_prunes_python", "C95_hidden", "C95_deep_refuted", "C95_sets_refuted", "C95_out_of_range_refuted"],
  "to_json and to_python of Ser.v for the any serializer; prune, selected, plain and apt are in SerPruneSpec.v, the meaning of filters as sets of paths (included, excluded) in FilterSpec.v. Instances of classes are not plain data; C94 covers them one way.")
M("C96", "proved", ["C96_isinstance", "C96_isinstance_strict", "C96_isinstance_conforms", "C96_default_conforms", "C96_none_means_no_default", "C96_no_default", "C96_fixed_default", "C96_validated_default", "C96_missing_model_field", "C96_missing_typed_dict_field", "C96_default_without_warnings", "C96_nullable_refuted", "C96_partial_refuted", "C96_extra_shadows_default_refuted", "C96_strict_default_refuted"],
  "isinstance_python and get_default_value of Api.v; default_of, fixed, always and absent are in ApiSpec.v, conforms and defaulted in ConformSpec.v. References that lead nowhere, or in a circle, panic in the model (the code overflows the stack on a circle). Missing fields: defaults that are not validated and factories that take no data.")
M("C97", "proved", ["C97_stays_valid", "C97_apart_without_extras", "C97_apart_without_aliases", "C97_root", "C97_dataclass", "C97_conforming_no_warnings", "C97_life_without_warnings", "C97_alias_extra_refuted", "C97_extra_names_refuted"],
  "born, contents, assign and apart are in LifeSpec.v, attempts in AssignSpec.v, conforms in ConformSpec.v; built on C29 and C40. The instance is not from validate_strings (where required typed dict keys may be missing, C21). C97_dataclass: instances of dataclasses all of whose schema fields are fields of the class, built on C40_dataclass_update. Mutation of the values an instance holds is not part of it.")
M("C98", "proved", ["C98_complete_data_unchanged", "C98_refused_anyway", "C98_does_not_reach", "C98_union_refuted", "C98_on_error_refuted", "C98_strings_refuted"],
  "whole, settled, data and inert are in PartialSpec.v. The parsing of incomplete JSON text (jiter) is not part of it. C60 says what a partial list or dict validation returns; C98 compares the two calls for whole schemas.")
M("C99", "proved", ["C99_frozen_field", "C99_frozen_model", "C99_last_write", "C99_nothing_lost", "C99_frozen_dataclass", "C99_dataclass_last_write", "C99_dataclass_frozen_field", "C99_function_refuted"],
  "attempts, attr, assignable and instance_of are in AssignSpec.v, dc_assignable in AssignProps.v. Field names are distinct, as they are in a schema. What happens to mutable values behind the back of the instance (appending to a list that is the value of a frozen field) is not an assignment and not part of it.")
M("C100", "proved", ["C100_stands_out", "C100_only_one", "C100_accepts_alike", "C100_same_value", "C100_same_errors", "C100_ties_refuted", "C100_partial_refuted"],
  "alone, all_answer and stands_out are in UnionOrderSpec.v, over UnionSpec.v. A member is run alone from the state in which a union tries it (an exact match, no fields set). C100_accepts_alike, C100_same_value and C100_stands_out ask that no member raises another exception or omits: such an outcome ends the loop where it happens. C100_same_errors is for unions without a custom error. The depth counter that stays too high after a refusal for recursion (RecGuard.v) is not part of the state of this model, so the theorems say nothing about members tried after such a refusal.")

(** The table of error types, transcribed from /repo/src/errors/types.rs by
    tools/gen_errtypes.py (do not edit).  Rows: the enum variants of the
    [error_types!] invocation (types.rs:158-434) without [CustomError], their
    fields and types; the templates of [message_template_python] (477-582) and
    [message_template_json] (584-601); the keys that [render_message] (625-747)
    replaces, in its order, and the field its [expected_plural] is taken of.
    Simplification: [Cow<'static, str>] is [String]. *)
From Coq Require Import List NArith.
From Verif Require Import Base.
Import ListNotations.

Inductive ctx_ty := TStr | TUsize | TU64 | TI32 | TNum | TOptUsize | TOptObj.

Record row := {
  r_name : str;
  r_fields : list (str * ctx_ty);
  r_py : str;
  r_json : str;
  r_render : list str;
  r_plural : option str
}.

Definition mk name fields py js render plural : row :=
  {| r_name := name; r_fields := fields; r_py := py; r_json := js; r_render := render; r_plural := plural |}.

Definition table : list row :=
[
  mk (lit "NoSuchAttribute") [((lit "attribute"), TStr)]
    (lit "Object has no attribute '{attribute}'")
    (lit "Object has no attribute '{attribute}'")
    [(lit "attribute")] None;
  mk (lit "JsonInvalid") [((lit "error"), TStr)]
    (lit "Invalid JSON: {error}")
    (lit "Invalid JSON: {error}")
    [(lit "error")] None;
  mk (lit "JsonType") []
    (lit "JSON input should be string, bytes or bytearray")
    (lit "JSON input should be string, bytes or bytearray")
    [] None;
  mk (lit "NeedsPythonObject") [((lit "method_name"), TStr)]
    (lit "Cannot check `{method_name}` when validating from json, use a JsonOrPython validator instead")
    (lit "Cannot check `{method_name}` when validating from json, use a JsonOrPython validator instead")
    [(lit "method_name")] None;
  mk (lit "RecursionLoop") []
    (lit "Recursion error - cyclic reference detected")
    (lit "Recursion error - cyclic reference detected")
    [] None;
  mk (lit "Missing") []
    (lit "Field required")
    (lit "Field required")
    [] None;
  mk (lit "FrozenField") []
    (lit "Field is frozen")
    (lit "Field is frozen")
    [] None;
  mk (lit "FrozenInstance") []
    (lit "Instance is frozen")
    (lit "Instance is frozen")
    [] None;
  mk (lit "ExtraForbidden") []
    (lit "Extra inputs are not permitted")
    (lit "Extra inputs are not permitted")
    [] None;
  mk (lit "InvalidKey") []
    (lit "Keys should be strings")
    (lit "Keys should be strings")
    [] None;
  mk (lit "GetAttributeError") [((lit "error"), TStr)]
    (lit "Error extracting attribute: {error}")
    (lit "Error extracting attribute: {error}")
    [(lit "error")] None;
  mk (lit "ModelType") [((lit "class_name"), TStr)]
    (lit "Input should be a valid dictionary or instance of {class_name}")
    (lit "Input should be an object")
    [(lit "class_name")] None;
  mk (lit "ModelAttributesType") []
    (lit "Input should be a valid dictionary or object to extract fields from")
    (lit "Input should be an object")
    [] None;
  mk (lit "DataclassType") [((lit "class_name"), TStr)]
    (lit "Input should be a dictionary or an instance of {class_name}")
    (lit "Input should be an object")
    [(lit "class_name")] None;
  mk (lit "DataclassExactType") [((lit "class_name"), TStr)]
    (lit "Input should be an instance of {class_name}")
    (lit "Input should be an instance of {class_name}")
    [(lit "class_name")] None;
  mk (lit "NoneRequired") []
    (lit "Input should be None")
    (lit "Input should be null")
    [] None;
  mk (lit "GreaterThan") [((lit "gt"), TNum)]
    (lit "Input should be greater than {gt}")
    (lit "Input should be greater than {gt}")
    [(lit "gt")] None;
  mk (lit "GreaterThanEqual") [((lit "ge"), TNum)]
    (lit "Input should be greater than or equal to {ge}")
    (lit "Input should be greater than or equal to {ge}")
    [(lit "ge")] None;
  mk (lit "LessThan") [((lit "lt"), TNum)]
    (lit "Input should be less than {lt}")
    (lit "Input should be less than {lt}")
    [(lit "lt")] None;
  mk (lit "LessThanEqual") [((lit "le"), TNum)]
    (lit "Input should be less than or equal to {le}")
    (lit "Input should be less than or equal to {le}")
    [(lit "le")] None;
  mk (lit "MultipleOf") [((lit "multiple_of"), TNum)]
    (lit "Input should be a multiple of {multiple_of}")
    (lit "Input should be a multiple of {multiple_of}")
    [(lit "multiple_of")] None;
  mk (lit "FiniteNumber") []
    (lit "Input should be a finite number")
    (lit "Input should be a finite number")
    [] None;
  mk (lit "TooShort") [((lit "field_type"), TStr); ((lit "min_length"), TUsize); ((lit "actual_length"), TUsize)]
    (lit "{field_type} should have at least {min_length} item{expected_plural} after validation, not {actual_length}")
    (lit "{field_type} should have at least {min_length} item{expected_plural} after validation, not {actual_length}")
    [(lit "field_type"); (lit "min_length"); (lit "actual_length"); (lit "expected_plural")] (Some (lit "min_length"));
  mk (lit "TooLong") [((lit "field_type"), TStr); ((lit "max_length"), TUsize); ((lit "actual_length"), TOptUsize)]
    (lit "{field_type} should have at most {max_length} item{expected_plural} after validation, not {actual_length}")
    (lit "{field_type} should have at most {max_length} item{expected_plural} after validation, not {actual_length}")
    [(lit "field_type"); (lit "max_length"); (lit "actual_length"); (lit "expected_plural")] (Some (lit "max_length"));
  mk (lit "IterableType") []
    (lit "Input should be iterable")
    (lit "Input should be a valid array")
    [] None;
  mk (lit "IterationError") [((lit "error"), TStr)]
    (lit "Error iterating over object, error: {error}")
    (lit "Error iterating over object, error: {error}")
    [(lit "error")] None;
  mk (lit "StringType") []
    (lit "Input should be a valid string")
    (lit "Input should be a valid string")
    [] None;
  mk (lit "StringSubType") []
    (lit "Input should be a string, not an instance of a subclass of str")
    (lit "Input should be a string, not an instance of a subclass of str")
    [] None;
  mk (lit "StringUnicode") []
    (lit "Input should be a valid string, unable to parse raw data as a unicode string")
    (lit "Input should be a valid string, unable to parse raw data as a unicode string")
    [] None;
  mk (lit "StringTooShort") [((lit "min_length"), TUsize)]
    (lit "String should have at least {min_length} character{expected_plural}")
    (lit "String should have at least {min_length} character{expected_plural}")
    [(lit "min_length"); (lit "expected_plural")] (Some (lit "min_length"));
  mk (lit "StringTooLong") [((lit "max_length"), TUsize)]
    (lit "String should have at most {max_length} character{expected_plural}")
    (lit "String should have at most {max_length} character{expected_plural}")
    [(lit "max_length"); (lit "expected_plural")] (Some (lit "max_length"));
  mk (lit "StringPatternMismatch") [((lit "pattern"), TStr)]
    (lit "String should match pattern '{pattern}'")
    (lit "String should match pattern '{pattern}'")
    [(lit "pattern")] None;
  mk (lit "Enum") [((lit "expected"), TStr)]
    (lit "Input should be {expected}")
    (lit "Input should be {expected}")
    [(lit "expected")] None;
  mk (lit "DictType") []
    (lit "Input should be a valid dictionary")
    (lit "Input should be an object")
    [] None;
  mk (lit "MappingType") [((lit "error"), TStr)]
    (lit "Input should be a valid mapping, error: {error}")
    (lit "Input should be a valid mapping, error: {error}")
    [(lit "error")] None;
  mk (lit "ListType") []
    (lit "Input should be a valid list")
    (lit "Input should be a valid array")
    [] None;
  mk (lit "TupleType") []
    (lit "Input should be a valid tuple")
    (lit "Input should be a valid array")
    [] None;
  mk (lit "SetType") []
    (lit "Input should be a valid set")
    (lit "Input should be a valid array")
    [] None;
  mk (lit "SetItemNotHashable") []
    (lit "Set items should be hashable")
    (lit "Set items should be hashable")
    [] None;
  mk (lit "BoolType") []
    (lit "Input should be a valid boolean")
    (lit "Input should be a valid boolean")
    [] None;
  mk (lit "BoolParsing") []
    (lit "Input should be a valid boolean, unable to interpret input")
    (lit "Input should be a valid boolean, unable to interpret input")
    [] None;
  mk (lit "IntType") []
    (lit "Input should be a valid integer")
    (lit "Input should be a valid integer")
    [] None;
  mk (lit "IntParsing") []
    (lit "Input should be a valid integer, unable to parse string as an integer")
    (lit "Input should be a valid integer, unable to parse string as an integer")
    [] None;
  mk (lit "IntParsingSize") []
    (lit "Unable to parse input string as an integer, exceeded maximum size")
    (lit "Unable to parse input string as an integer, exceeded maximum size")
    [] None;
  mk (lit "IntFromFloat") []
    (lit "Input should be a valid integer, got a number with a fractional part")
    (lit "Input should be a valid integer, got a number with a fractional part")
    [] None;
  mk (lit "FloatType") []
    (lit "Input should be a valid number")
    (lit "Input should be a valid number")
    [] None;
  mk (lit "FloatParsing") []
    (lit "Input should be a valid number, unable to parse string as a number")
    (lit "Input should be a valid number, unable to parse string as a number")
    [] None;
  mk (lit "BytesType") []
    (lit "Input should be a valid bytes")
    (lit "Input should be a valid bytes")
    [] None;
  mk (lit "BytesTooShort") [((lit "min_length"), TUsize)]
    (lit "Data should have at least {min_length} byte{expected_plural}")
    (lit "Data should have at least {min_length} byte{expected_plural}")
    [(lit "min_length"); (lit "expected_plural")] (Some (lit "min_length"));
  mk (lit "BytesTooLong") [((lit "max_length"), TUsize)]
    (lit "Data should have at most {max_length} byte{expected_plural}")
    (lit "Data should have at most {max_length} byte{expected_plural}")
    [(lit "max_length"); (lit "expected_plural")] (Some (lit "max_length"));
  mk (lit "BytesInvalidEncoding") [((lit "encoding"), TStr); ((lit "encoding_error"), TStr)]
    (lit "Data should be valid {encoding}: {encoding_error}")
    (lit "Data should be valid {encoding}: {encoding_error}")
    [(lit "encoding"); (lit "encoding_error")] None;
  mk (lit "ValueError") [((lit "error"), TOptObj)]
    (lit "Value error, {error}")
    (lit "Value error, {error}")
    [(lit "error")] None;
  mk (lit "AssertionError") [((lit "error"), TOptObj)]
    (lit "Assertion failed, {error}")
    (lit "Assertion failed, {error}")
    [(lit "error")] None;
  mk (lit "LiteralError") [((lit "expected"), TStr)]
    (lit "Input should be {expected}")
    (lit "Input should be {expected}")
    [(lit "expected")] None;
  mk (lit "DateType") []
    (lit "Input should be a valid date")
    (lit "Input should be a valid date")
    [] None;
  mk (lit "DateParsing") [((lit "error"), TStr)]
    (lit "Input should be a valid date in the format YYYY-MM-DD, {error}")
    (lit "Input should be a valid date in the format YYYY-MM-DD, {error}")
    [(lit "error")] None;
  mk (lit "DateFromDatetimeParsing") [((lit "error"), TStr)]
    (lit "Input should be a valid date or datetime, {error}")
    (lit "Input should be a valid date or datetime, {error}")
    [(lit "error")] None;
  mk (lit "DateFromDatetimeInexact") []
    (lit "Datetimes provided to dates should have zero time - e.g. be exact dates")
    (lit "Datetimes provided to dates should have zero time - e.g. be exact dates")
    [] None;
  mk (lit "DatePast") []
    (lit "Date should be in the past")
    (lit "Date should be in the past")
    [] None;
  mk (lit "DateFuture") []
    (lit "Date should be in the future")
    (lit "Date should be in the future")
    [] None;
  mk (lit "TimeType") []
    (lit "Input should be a valid time")
    (lit "Input should be a valid time")
    [] None;
  mk (lit "TimeParsing") [((lit "error"), TStr)]
    (lit "Input should be in a valid time format, {error}")
    (lit "Input should be in a valid time format, {error}")
    [(lit "error")] None;
  mk (lit "DatetimeType") []
    (lit "Input should be a valid datetime")
    (lit "Input should be a valid datetime")
    [] None;
  mk (lit "DatetimeParsing") [((lit "error"), TStr)]
    (lit "Input should be a valid datetime, {error}")
    (lit "Input should be a valid datetime, {error}")
    [(lit "error")] None;
  mk (lit "DatetimeObjectInvalid") [((lit "error"), TStr)]
    (lit "Invalid datetime object, got {error}")
    (lit "Invalid datetime object, got {error}")
    [(lit "error")] None;
  mk (lit "DatetimeFromDateParsing") [((lit "error"), TStr)]
    (lit "Input should be a valid datetime or date, {error}")
    (lit "Input should be a valid datetime or date, {error}")
    [(lit "error")] None;
  mk (lit "DatetimePast") []
    (lit "Input should be in the past")
    (lit "Input should be in the past")
    [] None;
  mk (lit "DatetimeFuture") []
    (lit "Input should be in the future")
    (lit "Input should be in the future")
    [] None;
  mk (lit "TimezoneNaive") []
    (lit "Input should not have timezone info")
    (lit "Input should not have timezone info")
    [] None;
  mk (lit "TimezoneAware") []
    (lit "Input should have timezone info")
    (lit "Input should have timezone info")
    [] None;
  mk (lit "TimezoneOffset") [((lit "tz_expected"), TI32); ((lit "tz_actual"), TI32)]
    (lit "Timezone offset of {tz_expected} required, got {tz_actual}")
    (lit "Timezone offset of {tz_expected} required, got {tz_actual}")
    [(lit "tz_expected"); (lit "tz_actual")] None;
  mk (lit "TimeDeltaType") []
    (lit "Input should be a valid timedelta")
    (lit "Input should be a valid duration")
    [] None;
  mk (lit "TimeDeltaParsing") [((lit "error"), TStr)]
    (lit "Input should be a valid timedelta, {error}")
    (lit "Input should be a valid duration, {error}")
    [(lit "error")] None;
  mk (lit "FrozenSetType") []
    (lit "Input should be a valid frozenset")
    (lit "Input should be a valid array")
    [] None;
  mk (lit "IsInstanceOf") [((lit "class"), TStr)]
    (lit "Input should be an instance of {class}")
    (lit "Input should be an instance of {class}")
    [(lit "class")] None;
  mk (lit "IsSubclassOf") [((lit "class"), TStr)]
    (lit "Input should be a subclass of {class}")
    (lit "Input should be a subclass of {class}")
    [(lit "class")] None;
  mk (lit "CallableType") []
    (lit "Input should be callable")
    (lit "Input should be callable")
    [] None;
  mk (lit "UnionTagInvalid") [((lit "discriminator"), TStr); ((lit "tag"), TStr); ((lit "expected_tags"), TStr)]
    (lit "Input tag '{tag}' found using {discriminator} does not match any of the expected tags: {expected_tags}")
    (lit "Input tag '{tag}' found using {discriminator} does not match any of the expected tags: {expected_tags}")
    [(lit "discriminator"); (lit "tag"); (lit "expected_tags")] None;
  mk (lit "UnionTagNotFound") [((lit "discriminator"), TStr)]
    (lit "Unable to extract tag using discriminator {discriminator}")
    (lit "Unable to extract tag using discriminator {discriminator}")
    [(lit "discriminator")] None;
  mk (lit "ArgumentsType") []
    (lit "Arguments must be a tuple, list or a dictionary")
    (lit "Arguments must be an array or an object")
    [] None;
  mk (lit "MissingArgument") []
    (lit "Missing required argument")
    (lit "Missing required argument")
    [] None;
  mk (lit "UnexpectedKeywordArgument") []
    (lit "Unexpected keyword argument")
    (lit "Unexpected keyword argument")
    [] None;
  mk (lit "MissingKeywordOnlyArgument") []
    (lit "Missing required keyword only argument")
    (lit "Missing required keyword only argument")
    [] None;
  mk (lit "UnexpectedPositionalArgument") []
    (lit "Unexpected positional argument")
    (lit "Unexpected positional argument")
    [] None;
  mk (lit "MissingPositionalOnlyArgument") []
    (lit "Missing required positional only argument")
    (lit "Missing required positional only argument")
    [] None;
  mk (lit "MultipleArgumentValues") []
    (lit "Got multiple values for argument")
    (lit "Got multiple values for argument")
    [] None;
  mk (lit "UrlType") []
    (lit "URL input should be a string or URL")
    (lit "URL input should be a string or URL")
    [] None;
  mk (lit "UrlParsing") [((lit "error"), TStr)]
    (lit "Input should be a valid URL, {error}")
    (lit "Input should be a valid URL, {error}")
    [(lit "error")] None;
  mk (lit "UrlSyntaxViolation") [((lit "error"), TStr)]
    (lit "Input violated strict URL syntax rules, {error}")
    (lit "Input violated strict URL syntax rules, {error}")
    [(lit "error")] None;
  mk (lit "UrlTooLong") [((lit "max_length"), TUsize)]
    (lit "URL should have at most {max_length} character{expected_plural}")
    (lit "URL should have at most {max_length} character{expected_plural}")
    [(lit "max_length"); (lit "expected_plural")] (Some (lit "max_length"));
  mk (lit "UrlScheme") [((lit "expected_schemes"), TStr)]
    (lit "URL scheme should be {expected_schemes}")
    (lit "URL scheme should be {expected_schemes}")
    [(lit "expected_schemes")] None;
  mk (lit "UuidType") []
    (lit "UUID input should be a string, bytes or UUID object")
    (lit "UUID input should be a string, bytes or UUID object")
    [] None;
  mk (lit "UuidParsing") [((lit "error"), TStr)]
    (lit "Input should be a valid UUID, {error}")
    (lit "Input should be a valid UUID, {error}")
    [(lit "error")] None;
  mk (lit "UuidVersion") [((lit "expected_version"), TUsize)]
    (lit "UUID version {expected_version} expected")
    (lit "UUID version {expected_version} expected")
    [(lit "expected_version")] None;
  mk (lit "DecimalType") []
    (lit "Decimal input should be an integer, float, string or Decimal object")
    (lit "Decimal input should be an integer, float, string or Decimal object")
    [] None;
  mk (lit "DecimalParsing") []
    (lit "Input should be a valid decimal")
    (lit "Input should be a valid decimal")
    [] None;
  mk (lit "DecimalMaxDigits") [((lit "max_digits"), TU64)]
    (lit "Decimal input should have no more than {max_digits} digit{expected_plural} in total")
    (lit "Decimal input should have no more than {max_digits} digit{expected_plural} in total")
    [(lit "max_digits"); (lit "expected_plural")] (Some (lit "max_digits"));
  mk (lit "DecimalMaxPlaces") [((lit "decimal_places"), TU64)]
    (lit "Decimal input should have no more than {decimal_places} decimal place{expected_plural}")
    (lit "Decimal input should have no more than {decimal_places} decimal place{expected_plural}")
    [(lit "decimal_places"); (lit "expected_plural")] (Some (lit "decimal_places"));
  mk (lit "DecimalWholeDigits") [((lit "whole_digits"), TU64)]
    (lit "Decimal input should have no more than {whole_digits} digit{expected_plural} before the decimal point")
    (lit "Decimal input should have no more than {whole_digits} digit{expected_plural} before the decimal point")
    [(lit "whole_digits"); (lit "expected_plural")] (Some (lit "whole_digits"));
  mk (lit "ComplexType") []
    (lit "Input should be a valid python complex object, a number, or a valid complex string following the rules at https://docs.python.org/3/library/functions.html#complex")
    (lit "Input should be a valid python complex object, a number, or a valid complex string following the rules at https://docs.python.org/3/library/functions.html#complex")
    [] None;
  mk (lit "ComplexStrParsing") []
    (lit "Input should be a valid complex string following the rules at https://docs.python.org/3/library/functions.html#complex")
    (lit "Input should be a valid complex string following the rules at https://docs.python.org/3/library/functions.html#complex")
    [] None
].

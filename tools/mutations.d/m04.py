X("m070","Numbers.v","float_as_int","f_lt (f_of_Z (- 2 ^ 63)) f && f_lt f (f_of_Z (2 ^ 63 - 1))","f_lt f (f_of_Z (2 ^ 63 - 1))","C06: very negative floats saturate to i64::MIN")
X("m071","Numbers.v","float_as_int","else if f_fract_nonzero f then NErr EIntFromFloat\n","","C06: fractional floats truncated")
X("m072","Numbers.v","float_as_int","if f_is_infinite f || f_is_nan f then","if f_is_nan f then","C06: infinities reported as size errors")
X("m073","Numbers.v","decimal_as_int","if negb (d =? 1) then NErr EIntFromFloat else NOk num","NOk num","C06: fractional decimals accepted")
X("m074","Numbers.v","int_cmp","| I64 i, Big b => i ?= b","| I64 i, Big b => b ?= i","C08: mixed comparison swapped")
X("m075","Numbers.v","check_int_bounds","if opt_violates (ic_le c) (fun b => is_gt (int_cmp v b))","if opt_violates (ic_le c) (fun b => negb (is_lt (int_cmp v b)))","C08: le treated as lt")
X("m076","Numbers.v","check_int_bounds","(fun b => negb (is_gt (int_cmp v b))) then Some EGreaterThan\n","(fun b => is_lt (int_cmp v b)) then Some EGreaterThan\n","C08: gt treated as ge")
X("m077","Numbers.v","int_rem","| Big b, I64 i => if i =? 0 then None else Some (Big (Z.rem b i))","| Big b, I64 i => if i =? 0 then None else Some (Big 0)","C08: multiple_of ignored for big ints")
X("m078","Numbers.v","validate_constrained_float","if negb (fc_allow_inf_nan c) && negb (f_is_finite f)","if negb (fc_allow_inf_nan c) && f_is_infinite f","C09: NaN allowed although allow_inf_nan is false")
X("m079","Numbers.v","validate_constrained_float","(fun b => negb (cmp_in f b (fun c => is_lt c || is_eq c)))","(fun b => cmp_in f b is_gt)","C09: NaN satisfies le")
X("m080","Numbers.v","validate_constrained_float","(fun b => negb (cmp_in f b is_gt))","(fun b => negb (cmp_in f b (fun c => is_gt c || is_eq c)))","C09: gt accepts the bound")
X("m081","Float64.v","f_as_i64","integral_part m e","integral_part m e + 0","no-op control: must survive") if False else None
X("m082","Numbers.v","as_int","| EU64 u => if fits_i64 u then I64 u else Big u","| EU64 u => I64 (if fits_i64 u then u else u - 2 ^ 64)","C08: large u64 wraps negative")
X("m083","Numbers.v","as_integer_ratio","10 ^ Z.max 0 (- exp)","10 ^ Z.max 0 (- exp - 1)","C06: wrong decimal scale")

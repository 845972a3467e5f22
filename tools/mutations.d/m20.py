X("m401","Arguments.v","params_loop","continue (aa_add (map (with_outer (index_loc index)) es) a) s'\n                  | (VErr e, s') => (VErr e, s')\n                  end\n              | None, Some","continue (aa_add (map (with_outer (LStr (pa_name p))) es) a) s'\n                  | (VErr e, s') => (VErr e, s')\n                  end\n              | None, Some","C31: errors of positional arguments are located by the parameter's name")
X("m402","Arguments.v","params_loop","new_error_loc EMissingPositionalOnly i (index_loc index)","new_error_loc EMissingPositionalOnly i (index_loc (S index))","C31: a missing positional-only argument is located one further")
X("m403","Arguments.v","var_args_loop","var_args_loop v (S index) xs' (aa_add [new_error_loc EUnexpectedPositional x (index_loc index)] a) s","var_args_loop v (S index) xs' (aa_add [new_error_loc EUnexpectedPositional x (index_loc 0)] a) s","C31: unexpected positional arguments are all located at 0")
X("m404","Arguments.v","dc_unexpected","(skipn n (combine (List.seq 0 (length l)) l))","(combine (List.seq 0 (length l)) (skipn n l))","C31: unexpected positional arguments of a dataclass are numbered from 0")
X("m405","Arguments.v","dc_extras_loop","dc_extras_loop c es' (da_add [new_error_loc EUnexpectedKeyword value kloc] a) s","dc_extras_loop c es' (da_add [new_error_loc EUnexpectedKeyword key kloc] a) s","C31: an unexpected keyword shows the keyword instead of its value")
X("m406","LookupKey.v","apply_error_loc","(rev (lp_rest p)) e)","(lp_rest p) e)","C31: the path of an alias is put in the wrong order")
X("m407","Tuple.v","tuple_variable","new_error_loc EMissing i (index_loc index)","new_error_loc EMissing i (index_loc (S index))","C31: a missing tuple item is located one further")
X("m408","TypedDict.v","td_extras","(errors ++ [new_error_loc EExtraForbidden value kloc])","(errors ++ [new_error EExtraForbidden value])","C31: a forbidden extra item has no location")
X("m409","Union.v","into_val_error","map (with_outer (LStr (fst e))) (snd e)","map (with_outer (LInt 0)) (snd e)","C31: the members of unions are labelled by 0")
X("m411","Wrappers.v","custom_error","| (VErr _, s') => (val_err t i, s')","| (VErr _, s') => (val_err t (IPy PNone), s')","C31: a custom error does not show the input")
X("m412","Wrappers.v","convert_err","| XValueError => LineErrors [new_error EValueError i]","| XValueError => LineErrors [new_error EValueError (IPy PNone)]","C31: a ValueError does not show the input")
X("m414","Scalars.v","str_validate","(val_err (EStringTooShort m) i, s)","(val_err (EStringTooShort m) (IPy (PStr t)), s)","C31: too short strings are shown after stripping")
X("m415","Scalars.v","validate_int","| PBool b => if strict then val_err EIntType i else VOk (EPy (if b then 1 else 0)%Z, Lax)","| PBool b => if strict then VOk (EPy (if b then 1 else 0)%Z, Lax) else val_err EIntType i","C28: bools are ints in strict mode only")
X("m416","Scalars.v","validate_str","| PBytes b => match from_utf8 b with Some t => VOk (t, Lax) | None => val_err EStringUnicode i end","| PBytes b => val_err EStringUnicode i","C29: bytes are never strings")
X("m417","Scalars.v","validate_float","else VOk (f, Strict)\n            | None","else VOk (f_abs f, Strict)\n            | None","C28/C29: integers lose their sign as floats")
X("m418","Collections.v","dict_loop","with_value None (errors ++ map (fun e => with_outer kloc (with_outer key_marker e)) es) s'","with_value None (errors ++ map (fun e => with_outer key_marker (with_outer kloc e)) es) s'","C31: the [key] marker is put before the key")
X("m419","Collections.v","set_loop","errors ++ map (with_outer (index_loc index)) es) s'","errors ++ es) s'","C31: errors of set items have no index")
X("m420","ModelFields.v","extras_loop","extras_loop c used es' out (errors ++ map (fun e => set_type EInvalidKey (with_outer kloc e)) l) fset s","extras_loop c used es' out (errors ++ map (fun e => set_type EInvalidKey e) l) fset s","C31: rejected keys have no location")

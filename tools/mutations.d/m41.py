X("m775","Tuple.v","tuple_validate","let s := floor_exactness (sq_exactness sq) s in","let s := set_exactness (Some (sq_exactness sq)) s in","C25: a tuple reports its own match and forgets that an earlier one was lax")
X("m776","Classes.v","model_validate","model_construct c inner i None (floor_exactness Strict s)","model_construct c inner i None (set_exactness (Some Strict) s)","C25: a model built from a dict makes a lax match before it look strict")
X("m777","ModelFields.v","model_fields_validate","add_fields_set count s')","set_fields_set (Some count) s')","C25: the fields counted before are forgotten by a nested model")
X("m778","Arguments.v","dataclass_args_validate","let s := add_fields_set (da_count a) s in","let s := set_fields_set (Some (da_count a)) s in","C25: the fields counted before are forgotten by a nested dataclass")
X("m779","TypedDict.v","typed_dict_validate","(VOk a, add_fields_set (length (fa_set a)) s')","(VOk a, set_fields_set (Some (length (fa_set a))) s')","C25: the fields counted before are forgotten by a nested typed dict")
X("m780","VState.v","floor_exactness","| Some Strict => match e with Lax => set_exactness (Some Lax) s | _ => s end","| Some Strict => set_exactness (Some e) s","C25: an exact match raises a strict one")
X("m781","Wrappers.v","function_wrap","| (Some (inl v), e) => (VOk v, set_exactness e s)","| (Some (inl v), e) => (VOk v, set_exactness (Some Exact) s)","C25: a wrap function makes every match before it look exact")
X("m782","Wrappers.v","run_wrap","| (VOk w, s') => run_wrap inner s (k (inl w)) (st_exactness s')","| (VOk w, s') => run_wrap inner s (k (inl w)) (Some Exact)","C25: a call of the handler by a wrap function forgets a lax match")

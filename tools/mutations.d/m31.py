X("m697","ModelFields.v","extras_loop","if mem_str k used then extras_loop c used es' out errors fset s","if mem_str k used then (VOk (out, errors, fset), s)","C92: the search for extra keys stops at the first known key")
X("m698","TypedDict.v","td_extras","if mem_str k used then td_extras c used last p es' out errors s","if mem_str k used then (VOk (out, errors), s)","C92: the search for extra keys of a typed dict stops at the first known key")
X("m699","TypedDict.v","typed_dict_validate","let last := if is_active p then md_last_key md else None in","let last := md_last_key md in","C92: the last key may fail even without allow_partial")
X("m700","Arguments.v","var_kwargs_loop","if mem_str k (aa_used a) then var_kwargs_loop c es' remaining a s","if mem_str k (aa_used a) then (VOk (a, remaining), s)","C92: the search for unexpected keyword arguments stops at the first known one")
X("m701","Arguments.v","dc_extras_loop","if mem_str k (da_used a) then dc_extras_loop c es' a s","if mem_str k (da_used a) then (VOk a, s)","C92: the search for unexpected dataclass arguments stops at the first known one")
X("m702","Values.v","dict_get","if py_eq k' k then Some v' else dict_get k d'","if py_eq k' k then Some v' else match d' with [_] => None | _ => dict_get k d' end","C92: the last key of a dict is not found")

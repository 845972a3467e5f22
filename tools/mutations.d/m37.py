X("m752","Collections.v","vec_loop","vec_loop child fail_fast allow_partial mc' (output ++ [v]) errors items' s'","vec_loop child fail_fast allow_partial mc' (if is_last_partial then output else output ++ [v]) errors items' s'","C98: with allow_partial the last item of a list is dropped although it is valid")
X("m753","Collections.v","dict_loop","| VOk output' => dict_loop kv vv allow_partial output' errors items' s'","| VOk output' => dict_loop kv vv allow_partial (if is_last_partial then output else output') errors items' s'","C98: with allow_partial the last entry of a dict is dropped although it is valid")
X("m754","TypedDict.v","td_loop","| (VOk v, s') => td_loop c md i last p by_alias by_name fs' (fa_mark (f_name f) (fa_put (f_name f) v a)) s'","| (VOk v, s') => td_loop c md i last p by_alias by_name fs' (if is_last_partial then a else fa_mark (f_name f) (fa_put (f_name f) v a)) s'","C98: with allow_partial the last field of a typed dict is dropped although it is valid")
X("m755","TypedDict.v","td_extras","| (VOk x, s') => td_extras c used last p es' (dict_set (PStr k) x out) errors s'","| (VOk x, s') => td_extras c used last p es' (if last_partial then out else dict_set (PStr k) x out) errors s'","C98: with allow_partial the last additional key is dropped although it is valid")
X("m756","ModelFields.v","model_fields_validate","let s := set_partial PartialOff s in","","C98: allow_partial reaches the fields of a model")
X("m757","Tuple.v","tuple_validate","let s := set_partial PartialOff s in","","C98: allow_partial reaches the positions of a tuple")
X("m758","Interp.v","refs","let s := set_partial PartialOff s in","","C98: allow_partial reaches through a definition")
X("m759","Wrappers.v","handler_state","st_fields_set := None; st_partial := PartialOff;","st_fields_set := None; st_partial := st_partial s;","C98: the handler of a wrap function validates partially")
X("m760","TypedDict.v","td_loop","              match cv_default (f_cv f) (Some (LStr (f_name f))) s with","              match (if is_active p then (VOk None, s) else cv_default (f_cv f) (Some (LStr (f_name f))) s) with","C98: with allow_partial missing fields of a typed dict get no default")
X("m761","Collections.v","set_loop","| Some n => if Nat.ltb n (length set') then (val_err (ETooLong c n None) i0, s') else continue_with set' errors s'","| Some n => if Nat.ltb n (length set' + (if is_active allow_partial then 1 else 0)) then (val_err (ETooLong c n None) i0, s') else continue_with set' errors s'","C98: with allow_partial a set may hold one item less")

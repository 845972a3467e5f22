X("m312","Union.v","smart_loop","(set_fields_set None (set_exactness (Some Exact) s))","(set_exactness (Some Exact) s)","C34: the count of set fields of an earlier validation decides the union")
X("m313","Wrappers.v","lax_or_strict","    | None => lax i s","    | None | Some Lax => lax i s","C34: an inexact match earlier changes the branch taken")
X("m314","Scalars.v","validate_float","| JInt z => VOk (f_of_Z z, Strict)","| JInt z => val_err EFloatType i","C33: JSON integers refused as floats")
X("m315","Scalars.v","validate_int","| IKey t => lax (in_str_as_int i t)","| IKey t => val_err EIntType i","C33: JSON keys refused as integers")
X("m316","Inputs.v","json_mdict","md_last_key := option_map (fun kv => LStr (fst kv)) (last_error l)","md_last_key := option_map (fun kv => LStr (fst kv)) (hd_error l)","C33: partial mode looks at the first key of JSON objects")
X("m317","Inputs.v","validate_set","| IJson (JArr l) => VOk (json_seq Strict l)\n  | _ => val_err ESetType i","| IJson (JArr l) => if strict then val_err ESetType i else VOk (json_seq Strict (rev l))\n  | _ => val_err ESetType i","C33: JSON arrays read backwards into sets")
X("m318","Classes.v","as_kwargs","| IJson (JObj l) => match json_to_py (JObj l) with PDict d => Some d | _ => None end","| IJson (JObj l) => None","C33: custom __init__ skipped for JSON objects")
X("m319","Wrappers.v","is_none_input","match i with IPy PNone | IJson JNull => true | _ => false end","match i with IPy PNone => true | _ => false end","C33: JSON null is not None")
X("m320","Scalars.v","validate_bytes","| IJson (JStr t) => strictly (in_deserialize m i t)","| IJson (JStr t) => strictly (in_deserialize MUtf8 i t)","C33: val_json_bytes ignored for JSON documents")
X("m321","Inputs.v","json_mdict","Entry (IKey (fst kv)) (LStr (fst kv)) (IJson (snd kv))","Entry (IJson (snd kv)) (LStr (fst kv)) (IKey (fst kv))","C33: keys and values of JSON objects swapped")

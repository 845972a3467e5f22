X("m663","Inputs.v","strings_loc","Some s => LStr s | None => LStr (repr v)","Some s => LStr (repr v) | None => LStr (repr v)","C88: locations below keys of a strings dict differ")
X("m664","Inputs.v","strings_mdict","| VErr e, _ => BadEntry e\n                                    | _, VErr e => BadEntry e","| VErr e, _ => BadEntry e\n                                    | _, VErr e => Entry (IPy (fst kv)) (strings_loc (fst kv)) (IPy (snd kv))","C88: values that are no strings get through")
X("m665","Inputs.v","strings_mdict","| Some (p, v) => match new_value v with VOk i => VOk (Some (p, i)) | VErr e => VErr e end","| Some (p, v) => match as_str v with Some _ => VOk (Some (p, IStrings v)) | None => val_err EStringType (IPy v) end","C88: nested dicts are refused")
X("m666","Scalars.v","validate_int","| IStrings v => match as_str v with Some t => strictly (in_str_as_int i t) | None => val_err EIntType i end","| IStrings v => match as_str v with Some t => if strict then val_err EIntType i else strictly (in_str_as_int i t) | None => val_err EIntParsing i end","C88: a dict for an int is reported differently")
X("m667","Scalars.v","validate_bytes","| IStrings v => match as_str v with Some t => strictly (in_deserialize m i t) | None => val_err EBytesType i end","| IStrings v => match as_str v with Some t => strictly (in_deserialize MUtf8 i t) | None => val_err EBytesType i end","C88: the mode of bytes is ignored in strings mode")
X("m668","Inputs.v","validate_dict","| IStrings v => match as_str v, dict_items v with None, Some d => VOk (strings_mdict d)","| IStrings v => match as_str v, dict_items v with None, Some d => VOk (py_mdict d)","C88: values of a dict are validated in Python mode")
X("m669","Inputs.v","new_value","| None, None => val_err EStringType (IPy v)","| None, None => val_err EDictType (IPy v)","C88: the error for other objects is not string_type")
X("m670","Wrappers.v","json_or_python","ITPython =>","ITString | ITPython =>","C88: json_or_python takes the Python branch in strings mode")
X("m671","Inputs.v","validate_model_fields","| None =>\n            if from_attributes_applicable v then VOk (attr_mdict v None)","| None =>\n            if negb (from_attributes_applicable v) then VOk (attr_mdict v None)","C33: attributes of plain objects are read")
X("m672","TaggedUnion.v","tagged_union_validate","let from_attributes := unwrap_or (x_from_attributes (st_extra s)) from_attributes in","let from_attributes := true in","C33: tagged unions always read attributes")

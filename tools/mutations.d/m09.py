X("m170","Wrappers.v","wd_validate","| OnOmit => Some (VErr Omit, s')","| OnOmit => Some (VErr e, s')","C27: on_error=omit raises")
X("m171","Wrappers.v","default_value","if wd_validate_default w then","if negb (wd_validate_default w) then","C27: default validated iff not asked for")
X("m172","Wrappers.v","default_value","match outer with Some l => with_outer_err l e | None => e end","e","C27: error of an invalid default without the field's location")
X("m173","Wrappers.v","wd_validate","| (VErr UseDefault, s') => use_default UseDefault s'\n","","C27: PydanticUseDefault ignored unless on_error=default")
X("m174","Wrappers.v","stored_default","if takes_data then Some","if negb takes_data then Some","C27: data passed to the wrong factories")
X("m175","Wrappers.v","nullable","if is_none_input i then (VOk PNone, s) else inner i s","if is_none_input i then inner i s else (VOk PNone, s)","C41: None rejected by nullable")
X("m176","Wrappers.v","is_none_input","IPy PNone | IJson JNull => true","IPy PNone => true","C41: JSON null rejected by nullable")
X("m177","Wrappers.v","chain_rest","(VOk v', s') => chain_rest steps' v' s'","(VOk v', s') => chain_rest steps' v s'","C41: chain steps all get the first value")
X("m178","Wrappers.v","chain_build","| [v] => Some (Plain v)","| [v] => Some (Chain [])","C41: one-step chain loses its step")
X("m179","Wrappers.v","chain_build","Plain v => [v] | Chain l => l end","Plain v => [v] | Chain l => rev l end","C41: nested chain reversed when flattened")
X("m180","Wrappers.v","json_or_python","ITPython => p i s | _ => j i s","ITJson => j i s | _ => p i s","C41: strings mode runs the python branch")
X("m181","Wrappers.v","lax_or_strict","if strict_or s strict then strict_v i s","if strict then strict_v i s","C41: the call's strict flag ignored")
X("m182","Wrappers.v","lax_or_strict","lax i (floor_exactness Lax s')","lax i s'","C22/C41: lax match counted as exact")
X("m183","Wrappers.v","custom_error","| (VErr _, s') => (val_err t i, s')","| (VErr e, s') => (VErr e, s')","C41: custom error not used")
X("m184","Wrappers.v","convert_err","| XAssertionError => LineErrors [new_error EAssertionError i]","| XAssertionError => InternalErr XAssertionError","C42: AssertionError escapes")
X("m185","Wrappers.v","convert_err","| XOmit => Omit","| XOmit => InternalErr XOmit","C42: PydanticOmit escapes")
X("m186","Wrappers.v","function_before","VOk v => inner (IPy v) s","VOk v => inner i s","C42: before function's result ignored")
X("m187","Wrappers.v","function_after","(call_fun f own v i s', s')","(call_fun f own (input_object i) i s', s')","C42: after function gets the raw input")
X("m188","Wrappers.v","info_of","or_else (x_field_name (st_extra s)) own","or_else own (x_field_name (st_extra s))","C42: schema field name wins over the current field")
X("m189","Wrappers.v","function_wrap","(VOk v, set_exactness e s)","(VOk v, s)","C42: handler's exactness lost")
X("m190","Wrappers.v","freeze_error","le_loc := le_loc e","le_loc := LEmpty","C42: locations lost through a wrap function",["C42_wrap_conversation"])
X("m191","Wrappers.v","run_wrap","(handler_state s e)","(handler_state s (st_exactness s))","C25: each handler call starts from the initial exactness",["C42_wrap_conversation"])

X("m647","VState.v","strict_or","match x_strict (st_extra s) with Some b => b | None => default end","match x_strict (st_extra s) with Some b => b || default | None => default end","C87: strict=False of a call does not make strict schemas lax")
X("m648","Wrappers.v","handler_state","x_strict := x_strict (st_extra s)","x_strict := None","C87: strict of the call is forgotten below wrap functions")
X("m649","Wrappers.v","handler_state","x_from_attributes := x_from_attributes (st_extra s)","x_from_attributes := None","C87: from_attributes of the call is forgotten below wrap functions")
X("m650","ModelFields.v","model_fields_validate","(unwrap_or (x_from_attributes (st_extra s)) (fc_from_attributes c)) i with","(fc_from_attributes c || unwrap_or (x_from_attributes (st_extra s)) false) i with","C87: from_attributes=False of a call does not count against the schema")
X("m651","Tuple.v","tuple_validate","validate_tuple (strict_or s (tu_strict c)) i","validate_tuple (tu_strict c) i","C87: tuples do not look at strict of the call")
X("m652","Collections.v","set_validate","validate_set (strict_or s (co_strict c)) i","validate_set (co_strict c) i","C87: sets do not look at strict of the call")
X("m653","Classes.v","dataclass_validate","if strict_or s (da_strict c) &&","if da_strict c &&","C87: dataclasses do not look at strict of the call")
X("m654","Wrappers.v","lax_or_strict","if strict_or s strict then strict_v i s","if strict then strict_v i s","C87: lax-or-strict does not look at strict of the call")
X("m655","VState.v","validate_by_name_or","unwrap_or (or_else (x_by_name (st_extra s)) default) false","unwrap_or (or_else default (x_by_name (st_extra s))) false","C87: validate_by_name of a schema counts before by_name of the call")
X("m656","VState.v","validate_by_alias_or","unwrap_or (or_else (x_by_alias (st_extra s)) default) true","unwrap_or (or_else default (x_by_alias (st_extra s))) true","C87: validate_by_alias of a schema counts before by_alias of the call")
X("m657","Core.v","build","unwrap_or (setting (rk_from_attributes k) g g_from_attributes) false","unwrap_or (rk_from_attributes k) false","C87: from_attributes of the config does not reach model fields")
X("m658","Core.v","build","do_by_alias := get g g_by_alias; do_by_name := get g g_by_name |} fs ex","do_by_alias := None; do_by_name := get g g_by_name |} fs ex","C87: validate_by_alias of the config does not reach dataclass arguments")
X("m659","Core.v","build","ret (STagged d (unwrap_or (setting fa g g_from_attributes) true) custom l)","ret (STagged d (unwrap_or fa true) custom l)","C87: from_attributes of the config does not reach tagged unions")
X("m660","Core.v","build","da_strict := is_strict (dk_strict k) g","da_strict := unwrap_or (dk_strict k) false","C87: strict of a dataclass's config does not reach the dataclass itself")
X("m661","Child.v","set_field_name","x_by_alias := x_by_alias x; x_by_name := x_by_name x; x_data := x_data x; x_field_name := n","x_by_alias := None; x_by_name := x_by_name x; x_data := x_data x; x_field_name := n","C87: by_alias of the call is forgotten below fields")
X("m662","Child.v","set_data","x_strict := x_strict x; x_from_attributes := x_from_attributes x;\n     x_by_alias := x_by_alias x; x_by_name := x_by_name x; x_data := d","x_strict := x_strict x; x_from_attributes := None;\n     x_by_alias := x_by_alias x; x_by_name := x_by_name x; x_data := d","C87: from_attributes of the call is forgotten below fields")

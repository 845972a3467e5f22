X("m300","Classes.v","should_revalidate","RSubclassInstances => negb (exact_instance v cls)","RSubclassInstances => exact_instance v cls","C62: exact instances revalidated instead of subclass instances")
X("m301","Classes.v","instance_input","if is_instance v g then Some (v, true) else None","if is_instance v g then Some (v, false) else None","C62: instances of the origin accepted without validation")
X("m302","Classes.v","build_model","model_inst (mo_cls c) d e (unwrap_or existing fs)","model_inst (mo_cls c) d e fs","C62: set of fields lost on revalidation")
X("m303","Classes.v","model_data","VOk (PDict (dict_update e d))","VOk (PDict (dict_update d e))","C62: fields win over extras on revalidation")
X("m304","Classes.v","root_fields_set","PSet (if is_undefined i then [] else [PStr root_name])","PSet [PStr root_name]","C62: root set although the default was used")
X("m305","Classes.v","model_construct","        match rebind (set_field_name (Some root_name)) s (inner i) with","        match inner i s with","C62: field name of the root not given")
X("m306","Classes.v","dataclass_validate","if strict_or s (da_strict c) && match x_input_type (st_extra s) with ITPython => true | _ => false end","if strict_or s (da_strict c)","C62: strict dataclasses refuse JSON")
X("m307","Classes.v","set_dict_call","| PTuple l => match f inst l with","| PTuple l => match f inst [] with","C62: init-only values not given to __post_init__")
X("m308","Classes.v","inst_to_dict","inst_to_dict names' v (dict_set (PStr n) x d)","inst_to_dict names' v d","C62: revalidated dataclass without its fields")
X("m309","Classes.v","model_validate","| None => model_construct c inner i None (floor_exactness Strict s)","| None => model_construct c inner i None s","C62: building an instance counts as an exact match")
X("m310","Union.v","smart_loop","(match best with None => push_errors custom errs c lines | Some _ => errs end) s1","(match best with None => errs | Some _ => push_errors custom errs c lines end) s1","C32: a failing union without errors")
X("m311","Classes.v","is_instance_validate","else (val_err EIsInstance i, s)","else (VErr (LineErrors []), s)","C32: empty error for a wrong instance")

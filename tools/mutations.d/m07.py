X("m130","ModelFields.v","fields_loop","| (VErr (LineErrors es), s') => fields_loop c md i by_alias by_name fs' (fa_add_errors es a) s'","| (VErr (LineErrors es), s') => fields_loop c md i by_alias by_name fs' a s'","C19: errors of an invalid default are lost")
X("m131","ModelFields.v","fields_loop","let a := fa_use (lp_first path) a in","let a := fa_use (f_name f) a in","C20: field found under its alias, alias key then treated as extra")
X("m132","ModelFields.v","fields_loop","(fa_mark (f_name f) (fa_put (f_name f) v a)) s'","(fa_put (f_name f) v a) s'","C18: found field missing from fields_set")
X("m133","ModelFields.v","fields_loop","| (VOk (Some v), s') => fields_loop c md i by_alias by_name fs' (fa_put (f_name f) v a) s'","| (VOk (Some v), s') => fields_loop c md i by_alias by_name fs' (fa_mark (f_name f) (fa_put (f_name f) v a)) s'","C18: defaulted field reported as set")
X("m134","ModelFields.v","fields_loop","          | VErr (LineErrors es) => fields_loop c md i by_alias by_name fs' (fa_add_errors (map (with_outer (LStr (f_name f))) es) a) s","          | VErr (LineErrors es) => (VErr (LineErrors es), s)","C19: unreadable attribute stops the collection of errors")
X("m135","ModelFields.v","extras_loop","if mem_str k used then extras_loop c used es' out errors fset s\n          else","if false then extras_loop c used es' out errors fset s\n          else","C20: consumed keys treated as extra")
X("m136","ModelFields.v","extras_loop","| ExtraForbid => extras_loop c used es' out (errors ++ [new_error_loc EExtraForbidden value kloc]) fset s","| ExtraForbid => (VErr (LineErrors (errors ++ [new_error_loc EExtraForbidden value kloc])), s)","C19: only the first forbidden key reported")
X("m137","ModelFields.v","extras_loop","extras_loop c used es' (dict_set (PStr py_key) (input_object value) out) errors (fset ++ [py_key]) s\n","extras_loop c used es' (dict_set (PStr py_key) (input_object value) out) errors fset s\n","C18: kept extra missing from fields_set")
X("m138","ModelFields.v","model_fields_validate","if is_nil errors then","if is_nil (fa_errors a) then","C20: forbidden extras accepted")
X("m139","ModelFields.v","model_fields_validate","if extra_behavior_eqb (fc_extra c) ExtraIgnore || md_is_attr md then","if extra_behavior_eqb (fc_extra c) ExtraIgnore then","C20: attributes of an object treated as extra keys")
X("m140","ModelFields.v","model_fields_validate","add_fields_set count s')","add_fields_set (length fset) s')","C22: fields-set count includes extras")
X("m141","ModelFields.v","fields_loop","let s := set_extra (set_data (Some (fa_dict a)) (st_extra s)) s in","let s := set_extra (set_data (Some []) (st_extra s)) s in","C18: validators do not see the earlier fields")
X("m142","ModelFields.v","model_type_errors","EDictType => set_type EModelType e","EModelType => set_type EDictType e","C19: wrong error type for a non-mapping")
X("m143","ModelFields.v","extras_loop","(VErr (LineErrors l), s') => extras_loop c used es' out (errors ++ map (with_outer kloc) l) fset s'\n                      | (VErr e, s') => (VErr e, s')\n                      end\n                  | None","(VErr (LineErrors l), s') => extras_loop c used es' out (errors ++ l) fset s'\n                      | (VErr e, s') => (VErr e, s')\n                      end\n                  | None","C19: error of an extra value without its key")
X("m144","ModelFields.v","fields_loop","| (VErr Omit, s') => fields_loop c md i by_alias by_name fs' a s'\n              | (VErr (LineErrors es), s') =>\n                  fields_loop","| (VErr Omit, s') => (VErr Omit, s')\n              | (VErr (LineErrors es), s') =>\n                  fields_loop","C18: omitted field aborts the model")
X("m145","ModelFields.v","model_fields_validate","let by_name := validate_by_name_or s (fc_by_name c) in","let by_name := validate_by_alias_or s (fc_by_alias c) in","C10/C18: by_name taken from by_alias")
X("m146","Collections.v","set_loop","if fail_fast && negb (is_nil errors')","if negb fail_fast && negb (is_nil errors')","C14: fail_fast flag inverted for sets")

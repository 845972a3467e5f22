
X("m150","TypedDict.v","td_loop","if f_required f then\n                    match key_error","if negb (f_required f) then\n                    match key_error","C21: required key missing without error")
X("m151","TypedDict.v","td_loop","(if negb is_last_partial || f_required f","(if negb is_last_partial","C21: required last key forgiven in partial mode")
X("m152","TypedDict.v","td_loop","set_partial (if is_last_partial then p else PartialOff) s in","set_partial p s in","C60: every field validated in partial mode")
X("m153","TypedDict.v","td_loop","let is_last_partial := last_is last (LStr (lp_first path)) in","let is_last_partial := last_is last (LStr (f_name f)) in","C60: last key compared with the field name, not the alias found")
X("m154","TypedDict.v","td_extras","if last_partial then errors else errors ++ map (with_outer kloc) l","errors","C19: errors of extra values lost")
X("m156","TypedDict.v","typed_dict_validate","if is_active p then md_last_key md else None","md_last_key md","C60: last key forgiven without allow_partial")
X("m157","TypedDict.v","typed_dict_validate","add_fields_set (length (fa_set a)) s'","s'","C22: fields set not counted")
X("m158","TypedDict.v","td_loop","| (VErr (LineErrors es), s') => td_loop c md i last p by_alias by_name fs' (fa_add_errors es a) s'","| (VErr (LineErrors es), s') => td_loop c md i last p by_alias by_name fs' a s'","C21: invalid default dropped silently")
X("m159","TypedDict.v","td_extras","| ExtraForbid => td_extras c used last p es' out (errors ++ [new_error_loc EExtraForbidden value kloc]) s","| ExtraForbid => td_extras c used last p es' out errors s","C20: forbidden key accepted")
X("m160","TypedDict.v","td_loop","(if last_is last (LStr (f_name f)) then fa_add_errors","(if negb (last_is last (LStr (f_name f))) then fa_add_errors","changes which unreadable keys are reported")
X("m161","TypedDict.v","td_loop","(fa_mark (f_name f) (fa_put (f_name f) v a))","(fa_mark (f_name f) (fa_put (lp_first path) v a))","C21/C61: value stored under the alias")
X("m162","LookupKey.v","to_loc_item","PiNeg n => LInt (- Z.of_nat n)","PiNeg n => LInt (Z.of_nat n)","C10: negative index reported as positive", tightened=("C10_location_is_alias",))

X("m280","Arguments.v","params_loop","then nth_error l index else None | None => None end in\n      match (if by_keyword","then nth_error l (S index) else None | None => None end in\n      match (if by_keyword","C38: positional arguments shifted by one")
X("m281","Arguments.v","params_loop","| Some _, Some (_, value) => continue (aa_add [new_error_loc EMultipleArgumentValues value (LStr (pa_name p))] a) s\n              | Some value, None =>","| Some value, _ =>","C38: keyword silently ignored when also given by position")
X("m282","Arguments.v","params_loop","continue (if by_keyword (pa_mode p) then aa_put (pa_name p) v a else aa_push v a) s'","continue (aa_put (pa_name p) v a) s'","C38: default of a positional-only parameter passed by keyword")
X("m283","Arguments.v","params_loop","| (VOk v, s') => continue (aa_put (pa_name p) v a) s'","| (VOk v, s') => continue (if positional (pa_mode p) then aa_push v a else aa_put (pa_name p) v a) s'","C38: keyword value pushed as positional argument")
X("m284","Arguments.v","positional_count_from","if positional (pa_mode p) then S index else 0","if positional (pa_mode p) then index else 0","C38: last positional argument also counted as surplus")
X("m285","Arguments.v","params_loop","if positional (pa_mode p) then EMissingArgument else EMissingKeywordOnly","if positional (pa_mode p) then EMissingKeywordOnly else EMissingArgument","C38: wrong missing error")
X("m286","Arguments.v","var_kwargs_loop","if mem_str k (aa_used a) then var_kwargs_loop c es' remaining a s","if false then var_kwargs_loop c es' remaining a s","C38: used keywords also given to **kwargs")
X("m287","Arguments.v","unpacked_stage","dict_update d (aa_kwargs a)","dict_update (aa_kwargs a) d","C38: typed dict takes precedence over parameters")
X("m288","Arguments.v","var_kwargs_stage","if Nat.ltb (length (aa_used a)) len","if Nat.ltb (length (aa_used a)) (len - 1)","C38: one surplus keyword unnoticed")
X("m289","Arguments.v","var_args_stage","if Nat.ltb (positional_count c) (length l)","if Nat.ltb (S (positional_count c)) (length l)","C38: one surplus positional argument unnoticed")
X("m290","Arguments.v","params_loop","rebind (set_field_name (Some (pa_name p))) s (cv_validate (pa_cv p) value) with\n                  | (VOk v, s') => continue (aa_push v a) s'","(cv_validate (pa_cv p) value s) with\n                  | (VOk v, s') => continue (aa_push v a) s'","C38: field name not set for the validator")
X("m291","Arguments.v","use_key","if mem_str k l then l else k :: l","k :: l","C38: key used by two parameters counted twice")
X("m292","Arguments.v","dc_loop","if negb (df_kw_only f) then nth_error l index else None","nth_error l index","C39: keyword-only field filled by position")
X("m293","Arguments.v","dc_loop","| (VOk v, s') => continue (da_counted (da_set c f v a)) s'\n                    | (VErr (LineErrors es), s') => continue (da_add (map (with_outer","| (VOk v, s') => continue (da_set c f v a) s'\n                    | (VErr (LineErrors es), s') => continue (da_add (map (with_outer","C39: field given by position not counted as set")
X("m294","Arguments.v","dc_loop","| (VOk (Some v), s') => continue (da_set c f v a) s'","| (VOk (Some v), s') => continue (da_counted (da_set c f v a)) s'","C39: defaults counted as set")
X("m295","Arguments.v","da_set","da_init a ++ [v]","v :: da_init a","C39: init-only values in reverse order")
X("m296","Arguments.v","dc_loop","if negb (df_init f) then","if df_kw_only f && negb (df_init f) then","C39: init=False fields read from the input")
X("m297","Arguments.v","dc_loop","let s := set_extra (set_data (Some (da_dict a)) (st_extra s)) s in","let s := set_extra (set_data (Some []) (st_extra s)) s in","C39: validators do not see the fields before them")
X("m298","Arguments.v","params_loop","| (VErr e, s') => (VErr e, s')\n                  | (VOk (Some v), s')","| (VErr (LineErrors es), s') => continue (aa_add es a) s'\n                  | (VErr e, s') => (VErr e, s')\n                  | (VOk (Some v), s')","C38: default errors collected (the fix of the counterexample)")
X("m299","Arguments.v","dc_unexpected","skipn n (combine (List.seq 0 (length l)) l)","skipn n (combine (List.seq 1 (length l)) l)","C39: surplus arguments reported at the wrong index")

X("m736","Api.v","isinstance_python","  | VErr (LineErrors _) => No\n  | VErr e => Raises e","  | VErr Omit => No\n  | VErr (LineErrors _) => No\n  | VErr e => Raises e","C96: an uncaught PydanticOmit is answered with False")
X("m737","Api.v","isinstance_python","  | VErr (LineErrors _) => No\n  | VErr e => Raises e","  | VErr (LineErrors [_]) => No\n  | VErr e => Raises e","C96: several errors raise")
X("m738","Api.v","no_partial","{| op_strict := op_strict o; op_from","{| op_strict := None; op_from","C96: isinstance_python ignores strict")
X("m739","Api.v","get_default_value","(default_opts strict)","(default_opts None)","C96: get_default_value ignores strict")
X("m740","Wrappers.v","default_value","      if wd_validate_default w then","      if negb (wd_validate_default w) then","C96: validate_default inverted")
X("m741","Interp.v","refs","             cv_default := cv_default (eval E (refs E defs fuel' depth) sc) |}","             cv_default := fun _ s => (VOk None, s) |}","C96: a reference hides the default")
X("m742","ModelFields.v","fields_loop","fields_loop c md i by_alias by_name fs' (fa_put (f_name f) v a) s'\n              | (VOk None, s') =>\n                  match","fields_loop c md i by_alias by_name fs' a s'\n              | (VOk None, s') =>\n                  match","C96: the default of a missing model field is dropped")
X("m743","TypedDict.v","td_loop","              | (VOk (Some v), s') => td_loop c md i last p by_alias by_name fs' (fa_put (f_name f) v a) s'","              | (VOk (Some v), s') => td_loop c md i last p by_alias by_name fs' (fa_put (f_name f) PNone a) s'","C96: a missing field of a typed dict becomes None")
X("m744","Api.v","default_opts","op_strict := strict;","op_strict := Some true;","C96: get_default_value always validates strictly")

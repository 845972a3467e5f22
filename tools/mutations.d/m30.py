X("m684","Wrappers.v","nullable","if is_none_input i then (VOk PNone, s) else inner i s","if negb (is_none_input i) then (VOk PNone, s) else inner i s","C90: a nullable schema returns None for every value")
X("m685","Union.v","ltr_loop","| VErr (LineErrors lines) => ltr_loop custom cs' i (push_errors custom errs c lines) s1\n      | _ => (r, s1)","| VErr (LineErrors lines) => ltr_loop custom cs' i (push_errors custom errs c lines) s1\n      | _ => match cs' with [] => (r, s1) | _ => ltr_loop custom cs' i errs s1 end","C90: in a left-to-right union a later member replaces an earlier one")
X("m686","Collections.v","max_check_err","Nat.ltb n len","Nat.ltb len n","C90: a collection with a greater max_length refuses what one with a smaller accepts")
X("m687","TypedDict.v","td_extras","| ExtraForbid => td_extras c used last p es' out (errors ++ [new_error_loc EExtraForbidden value kloc]) s","| ExtraForbid => td_extras c used last p es' out errors s","C90: forbidden extra keys are ignored, so that extra=allow changes the result")
X("m688","Ser.v","lit_others","is_none (lit_int v) && is_none (down_str v)","is_none (lit_int v) || is_none (down_str v)","C91: True passes for 1 in a Literal")
X("m689","SerBase.v","get_int","PBool b => Some (if b then 1 else 0)","PBool b => Some (if b then 1 else 1)","C91: False is written as 1")
X("m690","Ser.v","subclass_py","opt (conv v) else l_py L v inc exc x","opt (conv v) else l_py L v exc inc x","C91: include and exclude are swapped for subclasses")
X("m691","Ser.v","lit_check","if existsb (Z.eqb z) (lit_ints expected) then ret (LInt z)","if existsb (Z.ltb z) (lit_ints expected) then ret (LInt z)","C91: a Literal takes smaller ints")
X("m692","Url.v","host_to_dict","if nonempty (u_user u) then","if negb (nonempty (u_user u)) then","C73: hosts() leaves out the user name")
X("m693","Url.v","hosts","map host_to_dict extra ++ [host_to_dict (mh_ref m)]","map host_to_dict extra","C73: hosts() leaves out the last host")
X("m694","ErrReport.v","is_custom","Known _ _ _ => false","Known _ _ _ => true","C67: known errors have no url")
X("m695","Filter.v","index_filter","match map_opt include len with\n  | TypeErr => TypeErr\n  | ValueErr => ValueErr","match map_opt include len with\n  | TypeErr => TypeErr\n  | ValueErr => TypeErr","C46: a negative index for an input of unknown length gives another error")
X("m696","Wrappers.v","lax_or_strict","strict_or s strict","strict_or s (negb strict)","C90: the lax branch is used in strict mode")

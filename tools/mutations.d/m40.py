X("m770","Child.v","rebind","in (a, set_extra (st_extra s) s')","in (a, s')","C100: a member leaves its data and field name to the members after it")
X("m771","Union.v","smart_loop","ch_validator c i (set_fields_set None (set_exactness (Some Exact) s)) in","ch_validator c i (set_exactness (Some Exact) s) in","C100: a member is credited with the fields of the members before it")
X("m772","Union.v","replaces","| _, _ => exactness_lt cur_e e","| _, _ => false","C100: a more exact match found later is not taken")
X("m773","Union.v","replaces","if negb (c =? m) then c <? m else exactness_lt cur_e e","if negb (c =? m) then c <? m else negb (exactness_lt e cur_e)","C100/C22: the last of equally good members is taken")
X("m774","Union.v","smart_loop","best (match best with None => push_errors custom errs c lines | Some _ => errs end) s1","None (match best with None => push_errors custom errs c lines | Some _ => errs end) s1","C100: a member that refuses after one that accepted undoes it")

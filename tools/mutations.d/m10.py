X("m200","Union.v","replaces","if negb (c =? m) then c <? m","if negb (c =? m) then m <? c","C22: fewer fields set preferred")
X("m201","Union.v","replaces","| _, _ => exactness_lt cur_e e\n","| _, _ => negb (exactness_lt e cur_e)\n","C22: ties go to the later member")
X("m202","Union.v","smart_loop","| Some Exact, None => Returned","| Some Strict, None => Returned","C22: early return on strict instead of exact")
X("m203","Union.v","smart_loop","Returned (VOk v) (set_fields_set old_n (set_exactness old_e s1))","Returned (VOk v) s1","C25: early return does not restore the caller's books")
X("m204","Union.v","smart_loop","(set_fields_set None (set_exactness (Some Exact) s))","(set_exactness (Some Exact) s)","C22: fields-set count leaks from one member to the next")
X("m205","Union.v","smart_loop","(set_fields_set None (set_exactness (Some Exact) s))","(set_fields_set None s)","C22: exactness leaks from one member to the next")
X("m206","Union.v","validate_smart","let s3 := floor_exactness e s2 in","let s3 := set_exactness (Some e) s2 in","C25: union raises the caller's exactness")
X("m207","Union.v","validate_smart","Some k => add_fields_set k s3","Some k => set_fields_set (Some k) s3","C25: union overwrites the caller's fields-set count")
X("m208","Union.v","push_errors","errs ++ [(ch_label c, lines)]","[(ch_label c, lines)]","C24: only the last member's errors reported")
X("m209","Union.v","into_val_error","map (with_outer (LStr (fst e))) (snd e)","snd e","C24: member label missing from locations")
X("m210","Union.v","ltr_loop","(push_errors custom errs c lines) s1\n      | _ => (r, s1)","(push_errors custom errs c lines) s1\n      | VErr UseDefault => ltr_loop custom cs' i errs s1\n      | _ => (r, s1)","C23: a non-validation error moves on to the next member")
X("m211","Union.v","smart_loop","| VErr e => Returned (VErr e) s1","| VErr e => smart_loop custom old_e old_n cs' i best errs s1","C22: internal errors swallowed")
X("m212","Literal.v","bool_slot","validate_bool true i","validate_bool false i","C36: strings and ints match bool literals")
X("m213","Literal.v","lk_add","(z, id) :: lk_int lk","(Z.abs z, id) :: lk_int lk","C36: negative literals rejected")
X("m214","Literal.v","pd_set","if py_eq k' k then (k', id) :: d'","if py_eq k' k then (k', id') :: d'","C36 (harmless? first of equal values wins)")
X("m215","Literal.v","values_slot","if py_eq k v then Some id","if py_eq k v then None","C36: unhashable expected values never match")
X("m216","Literal.v","lk_validate","| None => VOk (pd_lookup v (lk_prims lk))","| None => VOk None","C36: 1.0 does not match Literal[1]")
X("m217","Literal.v","int_slot","VOk z => VOk (z_get z (lk_int lk))","VOk z => VOk (z_get (z + 1) (lk_int lk))","C36: off-by-one literal")
X("m218","TaggedUnion.v","find_call_validator","(VErr (with_outer_err (py_loc repr tag) e), s')","(VErr (with_outer_err (match tag with PStr _ => py_loc repr PNone | _ => py_loc repr tag end) e), s')","C26: tag missing from locations")
X("m219","TaggedUnion.v","find_call_validator","| VOk (Some id) =>\n      match nth_error choices id with","| VOk (Some id) =>\n      match nth_error choices (id - 1) with","C26: wrong member run")
X("m220","TaggedUnion.v","tagged_union_validate","| inl PNone => (tag_not_found custom i, s)\n      | inl tag","| inl tag","C26: None tag treated as a tag")
X("m221","TaggedUnion.v","tagged_union_validate","unwrap_or (x_from_attributes (st_extra s)) from_attributes","from_attributes","C26: from_attributes of the call ignored")
X("m223","TaggedUnion.v","find_call_validator","(EUnionTagInvalid (py_str tag))","EUnionTagNotFound","C26: unknown tag reported as missing")
X("m222","TaggedUnion.v","tag_not_found","| None => val_err EUnionTagNotFound i","| None => val_err (EUnionTagInvalid []) i","C26: a missing tag reported as an invalid one")

X("m762","Wrappers.v","lax_or_strict","if strict_or s strict then strict_v i s","if negb (strict_or s strict) then strict_v i s","C98, C28: a lax-or-strict schema takes the wrong side")
X("m763","Wrappers.v","lax_or_strict","| None => lax i s","| None => match strict_v i s with (VOk v, s') => (VOk v, s') | (VErr _, s') => lax i s' end","C98: outside unions the lax side is tried only after the strict one, so that partial input is taken by the strict side")
X("m764","Wrappers.v","lax_or_strict","lax i (floor_exactness Lax s')","lax i s'","C41, C22: what only the lax side takes counts as an exact match in a smart union")
X("m765","Wrappers.v","function_wrap","(f (input_object i) (info_of own s)) (st_exactness s) with","(f (input_object i) (info_of own s)) None with","C42, C22: a wrap function hides how well its handler matched in a smart union")

X("m002","RecGuard.v","stack_insert","let s := fold_left (fun s x => snd (set_insert x s)) data [] in","let s := (@nil key) in","C01: pairs entered before the array/set switch are forgotten")
X("m003","RecGuard.v","stack_insert","(true, SArray (data ++ [v]))","(true, SArray (v :: data))","C01: remove then panics or removes the wrong pair")
X("m004","RecGuard.v","guard_drop","depth := decr_depth (depth st) |}","depth := depth st |}","C02: depth not restored on drop")
X("m005","RecGuard.v","incr_depth","if N.ltb d 255 then (false, N.succ d)","if N.ltb d 254 then (false, N.succ d)","C01/C03: depth limit off by one")
X("m006","RecGuard.v","guard_new","if over then GDepth st' else GOk st'","if over then GOk st' else GOk st'","C03: depth limit never enforced")
X("m007","RecGuard.v","set_remove","filter (fun x => negb (key_eqb v x)) s","filter (fun x => negb (N.eqb (fst v) (fst x))) s","C01: leaving a pair also forgets other pairs of the same object")
X("m008","RecGuard.v","key_eqb","N.eqb (fst a) (fst b) && N.eqb (snd a) (snd b)","N.eqb (fst a) (fst b)","C01: same object under different nodes taken for a loop")
X("m009","IntParse.v","str_as_bool","eq_ignore_ascii_case s (lit \"off\")","eq_ignore_ascii_case s (lit \"of\")","C07: 'off' no longer accepted")
X("m010","IntParse.v","int_as_bool","else if Z.eqb z 1 then","else if Z.leb 1 z then","C07: any positive int becomes true")
X("m011","IntParse.v","cut_zero_fraction","if negb (match b with [] => true | _ => false end) &&","if","C04: '1.' accepted as an int")
X("m012","IntParse.v","clean_int_str","if starts_with c_minus suffix then None else Some suffix","Some suffix","C04: '+-1' accepted")
X("m013","IntParse.v","strip_underscores","|| has_double_us s","","C04: '1__0' accepted")
X("m014","IntParse.v","clean_int_str","| Some stripped => Some (if is_negative then c_minus :: stripped else stripped)","| Some stripped => Some stripped","C04: '-1_0' loses its sign")
X("m015","IntParse.v","jiter_uint","if max_digits <? N.of_nat (length d)","if max_digits <=? N.of_nat (length d)","C05: 4300 digits rejected")
X("m016","IntParse.v","slz_loop","else if is_digit19 c || (c =? c_minus) then Some s\n      else if c","else if is_digit19 c then Some s\n      else if c","C04 (fixing '0-1'): the refutation and grammar must notice")
X("m017","IntParse.v","is_space","((9 <=? c) && (c <=? 13)) || (c =? 32)","(c =? 32)","C05: tabs no longer trimmed", ["C04_white_space (added)"])
X("m018","TimeDelta.v","pytimedelta_exact_as_duration","(td_seconds t + 1, Z.abs (td_micros t - 1000000))","(td_seconds t, Z.abs (td_micros t - 1000000))","C54: missing borrow for negative deltas")
X("m019","TimeDelta.v","pytimedelta_exact_as_duration","(td_days t + 1, Z.abs (seconds - 86400))","(td_days t + 1, Z.abs (seconds - 86399))","C54: wrong seconds per day")
X("m020","TimeDelta.v","duration_as_pytimedelta","(sign * du_second d) (sign * du_micro d)","(sign * du_second d) (du_micro d)","C54: sign not applied to microseconds")
X("m021","TimeDelta.v","int_as_duration","(as_u32 (abs mod 86400)) 0","(as_u32 (abs mod 86400)) 1","C55: stray microsecond")
X("m022","TimeDelta.v","float_as_duration","let seconds := sat_u64 (trunc a) mod 86400 in","let seconds := sat_u32 (trunc a) mod 86400 in","C55: saturating at 2^32 seconds")
X("m023","TimeDelta.v","float_as_datetime_parts","Qabs.Qabs (fract x) * 1000000","Qabs.Qabs (fract x) * 1000","C55: milliseconds")
X("m024","TzInfo.v","tz_new","if 86400 <=? Z.abs seconds","if 86400 <? Z.abs seconds","C59: offset of a whole day accepted")
X("m025","TzInfo.v","tz_str","Z.abs (Z.rem mins 60)","Z.abs (Z.rem mins 10)","C59: minutes misprinted")
X("m026","TzInfo.v","tz_str","if secs =? 0 then result else result ++ lit \":\" ++ pad2 (Z.abs secs)","result","C59: two offsets print alike")
X("m027","TzInfo.v","tz_check","if negb (expected =? actual) then","if (expected <? actual) then","C59: smaller offsets accepted")
X("m028","TzInfo.v","tz_check","| TzNaive, Some _ => Some TimezoneNaive","| TzNaive, Some _ => None","C59: aware accepted for naive")

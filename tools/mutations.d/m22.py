X("m460","Dates.v","is_leap","negb (y mod 100 =? 0)) || (y mod 400 =? 0)","negb (y mod 100 =? 0))","C68: 2000 is not a leap year")
X("m461","Dates.v","date_cmp","match da_month a ?= da_month b with","match da_month b ?= da_month a with","C68: months compared the wrong way round")
X("m462","Dates.v","dt_cmp","then_micro (dt_seconds a - oa ?= dt_seconds b - ob) (dt_time a) (dt_time b)","then_micro (dt_seconds a + oa ?= dt_seconds b + ob) (dt_time a) (dt_time b)","C68: offsets added instead of subtracted")
X("m463","Dates.v","time_cmp","then_micro (time_seconds a - oa ?= time_seconds b - ob) a b","then_micro (time_seconds a ?= time_seconds b) a b","C68: offsets of times ignored")
X("m464","Dates.v","same_time","  && (ti_micro a =? ti_micro b)\n","  && true\n","C68: a datetime a microsecond after midnight is accepted as a date")
X("m465","Dates.v","now_compare","  | Eq => false\n","  | Eq => true\n","C68: today counts as past and as future")
X("m466","Dates.v","date_validate","             if strict then TErr e\n             else tbind (date_from_datetime i)","             if false then TErr e\n             else tbind (date_from_datetime i)","C68: strict date schemas accept datetimes at midnight")
X("m467","Dates.v","date_into_py","      if da_year d =? 0 then TErr (DateParsing year_zero)\n","      if da_year d =? -1 then TErr (DateParsing year_zero)\n","C68: a date in year 0 raises ValueError")
X("m468","Dates.v","dt_checks","dt_cmp d (now (utc_offset n))","dt_cmp (now (utc_offset n)) d","C68: past and future swapped")
X("m469","Dates.v","datetime_validate","| TRaise e => TErr (DatetimeObjectInvalid e)","| TRaise e => TRaise e","C68: an exception of utcoffset escapes while checking")
X("m470","Dates.v","check_bounds","(fun c => cmp_ge (cmp x c)) GreaterThanEqual","(fun c => cmp_gt (cmp x c)) GreaterThanEqual","C68: ge refuses the bound itself")
X("m471","Dates.v","validate_datetime","  | PyInt64 z => if strict then TErr DatetimeType else read_dt (int_dt z) Lax\n","  | PyInt64 z => read_dt (int_dt z) Lax\n","C68: strict datetime schemas accept numbers")
X("m472","Dates.v","validate_time","  | PyDate _ _ | PyDatetime _ _ | PyTrueFalse _ | PyElse => TErr TimeType\n","  | PyTrueFalse b => if strict then TErr TimeType else read_time (int_time (if b then 1 else 0)) Lax\n  | PyDate _ _ | PyDatetime _ _ | PyElse => TErr TimeType\n","C68: booleans are times")
X("m473","Dates.v","time_validate","  tbind (if no_bounds (mc_bounds c) && is_none (mc_tz c) then TOk tt\n","  tbind (if no_bounds (mc_bounds c) then TOk tt\n","C68: the timezone constraint of a time schema is ignored without bounds")
X("m474","Dates.v","datetime_from_date","(mk_time 0 0 0 0 None)","(mk_time 0 0 0 0 (Some 0))","C68: a date becomes a datetime with an offset")
X("m475","Deltas.v","signed_micros","(if du_positive d then 1 else -1) * du_micro d","du_micro d","C69: microseconds of negative durations compared without sign")
X("m476","Deltas.v","timedelta_validate","cmp_lt DLessThan r","cmp_le DLessThan r","C69: lt accepts the bound")
X("m477","Deltas.v","validate_timedelta","  | DJsInt z => if strict then DErr TimeDeltaType else read_num (int_as_duration z) bad_int\n","  | DJsInt z => read_num (int_as_duration z) bad_int\n","C69: strict schemas accept JSON numbers")
X("m478","Deltas.v","check_delta","if ok (duration_cmp d c) then","if ok (duration_cmp c d) then","C69: bound and value swapped")
X("m479","Url.v","check_length","if m <? N.of_nat (length (utf8 t)) then","if m <=? N.of_nat (length (utf8 t)) then","C70: max_length refuses a text of exactly that length")
X("m480","Url.v","check_sub_defaults","                     | Some _ => UOk (u, m)\n","                     | Some _ => match set_port u p with Some u => UOk (u, true) | None => UOk (u, m) end\n","C70: default_port replaces a given port")
X("m481","Url.v","check_sub_defaults","              | [] | [47] => UOk (set_path u p, true)\n","              | [] => UOk (set_path u p, true)\n","C70: default_path is not used for the path /")
X("m482","Url.v","check_sub_defaults","UOk (set_path u p, true)","UOk (set_path u p, m)","C70: a Url object is changed in place")
X("m483","Url.v","check_sub_defaults","ubind (set_host u h) (fun u => UOk (u, true))","ubind (set_host u h) (fun v => UOk (u, true))","C70: the default host is not put in")
X("m484","Url.v","parse_url","inl u => if strict then match violation t","inl u => if negb strict then match violation t","C70: syntax violations are refused in lax mode only")
X("m485","Url.v","url_validate","ubind (check_scheme c (got_of g)) (fun _ =>\n  ubind (check_sub_defaults c (got_of g)) (fun '(u, m) => UOk (renew g m u, Lax))))","ubind (check_sub_defaults c (got_of g)) (fun '(u, m) =>\n  ubind (check_scheme c (got_of g)) (fun _ => UOk (renew g m u, Lax))))","C70: the host is checked before the scheme")
X("m486","Url.v","get_url","      | UUrl u => ubind (check_length c (url_str u)) (fun _ => UOk (Same u))\n","      | UUrl u => UOk (Same u)\n","C70: the length of Url objects is not checked")
X("m487","Url.v","host_end","(special && (c =? 92)) || (c =? 47) || (c =? 63) || (c =? 35)","(special && (c =? 92)) || (c =? 47) || (c =? 35)","C71: commas in the query split hosts")
X("m488","Url.v","split_hosts","        | [] => None\n","        | [] => split_hosts special [] r\n","C71: empty hosts are skipped")
X("m489","Url.v","parse_multihost_url","if negb (has_host ref) then UErr (UrlParsing empty_host)\n                  else ubind","if false then UErr (UrlParsing empty_host)\n                  else ubind","C71: the last host may be missing")
X("m490","Url.v","parse_multihost_url","if existsb (fun u => negb (has_host u)) extra then","if forallb (fun u => negb (has_host u)) extra then","C71: a host may be missing if another is there")
X("m491","Url.v","parse_multihost_url","(map (fun h => prefix ++ h) hs)","(map (fun h => prefix ++ h) (rev hs))","C71: hosts in reverse order")
X("m492","Url.v","multi_text","let sub := if schema_is_special scheme then 1%nat else 0%nat in","let sub := 1%nat in","C72: the last character of hosts of other schemes is lost")
X("m493","Url.v","multi_text","let host_offset := (length scheme + 3)%nat in","let host_offset := (length scheme + 2)%nat in","C72: hosts are put in one character too early")
X("m494","Url.v","hosts","map host_to_dict extra ++ [host_to_dict (mh_ref m)]","map host_to_dict extra","C72: the last host is not listed")
X("m495","Url.v","unicode_url","(length (u_scheme u) + 3) (length domain) decoded","(length (u_scheme u) + 3) (length decoded) decoded","C72: unicode_string leaves a part of the encoded host")
X("m496","Url.v","decode_chunks","match strip_puny c with Some x => decode x | None => Some c end","match strip_puny c with Some x => decode c | None => Some c end","C72: the prefix is decoded too")
X("m497","Url.v","parts_text","   | None, Some p => 58 :: p ++ [64]\n","   | None, Some p => p ++ [64]\n","C73: a password without user name is built as a user name")
X("m498","Url.v","build_tail","after 47 path ++ after 63 query ++ after 35 frag","after 47 path ++ after 35 frag ++ after 63 query","C73: fragment before query")
X("m499","Url.v","build_hosts","(match r with [] => [] | _ => [44] end)","[44]","C73: a comma after the last host")
X("m500","Url.v","multi_build","      if negb (is_none host && is_none user && is_none pass && is_none port) then BBothGiven\n","      if negb (is_none host && is_none user && is_none pass) then BBothGiven\n","C73: port and hosts may both be given")
X("m501","Url.v","parse_multihost_url","split_hosts (schema_is_special (map ascii_lower scheme))","split_hosts (schema_is_special scheme)","C71: a backslash does not end the hosts of HTTP: URLs")

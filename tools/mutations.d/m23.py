X("m502","Uuid.v","as_u128","fun n x => 256 * n + x","fun n x => 255 * n + x","C74: bytes folded in the wrong base")
X("m503","Uuid.v","to_be","to_be k (n / 256) ++ [n mod 256]","[n mod 256] ++ to_be k (n / 256)","C74: little-endian text of a UUID")
X("m504","Uuid.v","parse_hyphenated","(nth 18 s 0 =? 45) && (nth 23 s 0 =? 45)","(nth 18 s 0 =? 45)","C74: the last hyphen may be any character")
X("m505","Uuid.v","try_parse","if last r 0 =? 125 then parse_hyphenated (removelast r) else None","parse_hyphenated (removelast r)","C74: the closing brace is not checked")
X("m506","Uuid.v","try_parse","if str_eqb (firstn 9 b) (lit \"urn:uuid:\") then parse_hyphenated (skipn 9 b) else None","parse_hyphenated (skipn 9 b)","C74: any nine characters before a UUID are accepted")
X("m507","Uuid.v","from_slice","if Nat.eqb (length b) 16 then Some b else None","if Nat.leb 16 (length b) then Some (firstn 16 b) else None","C74: longer byte strings are cut")
X("m508","Uuid.v","is_rfc4122","nth 8 b 0 / 64 =? 2","nth 8 b 0 / 64 =? 3","C74: the variant checked is another one")
X("m509","Uuid.v","hyphenate","firstn 4 (skipn 12 d) ++ 45 ::","firstn 4 (skipn 12 d) ++","C74: a hyphen missing in the text")
X("m510","Uuid.v","py_version","N.land (N.shiftr n 76) 15","N.land (N.shiftr n 72) 15","C74: the version read from another digit")
X("m511","Uuid.v","get_uuid","| None => match from_slice b with Some u => inl u | None => inr (UuParsing (length_msg (length b))) end","| None => inr (UuParsing (length_msg (length b)))","C74: 16 raw bytes are not accepted")
X("m512","Uuid.v","uuid_validate","if (match st with Some s => s | None => uv_strict c end) && is_py then","if (match st with Some s => s | None => uv_strict c end) then","C74: strict mode refuses texts in JSON")
X("m513","Uuid.v","uuid_validate","| Some w => if w =? v then (UuSame, Exact) else (UuErr (UuVersion v), Exact)","| Some w => (UuSame, Exact)","C74: the version of UUID objects is not compared")
X("m514","Uuid.v","uuid_validate","if negb (get_version_num b =? v) || negb (is_rfc4122 b) then","if negb (get_version_num b =? v) then","C74: the variant is not checked")
X("m515","Complex.v","validate_complex","| PFloat f => CNew (mk_c f f_zero) Lax","| PFloat f => CNew (mk_c f_zero f) Lax","C75: a float becomes imaginary")
X("m516","Complex.v","validate_complex","      if strict then CErr CInstance\n","      if false then CErr CInstance\n","C75: strict mode accepts floats and text from Python")
X("m517","Complex.v","validate_complex","if fits_i64 z then if strict then CErr CStrParsing else CNew (mk_c (f_of_Z z) f_zero) Lax","if fits_i64 z then CNew (mk_c (f_of_Z z) f_zero) Lax","C75: strict mode accepts JSON integers")
X("m518","Complex.v","complex_to_str","(if f_ge (c_im c) f_zero then [43] else [])","[43]","C75: +- before a negative imaginary part")
X("m519","Complex.v","complex_to_str","if negb (f_eqb (c_re c) f_zero) then","if f_eqb (c_re c) f_zero then","C75: the real part is written only if zero")
X("m520","Complex.v","string_to_complex","CNew c Strict","CSame Strict","C75: text is returned as it is")
X("m521","JsonCall.v","map_bytes_error","EBytesType => new_error EJsonType (le_input e)","EBytesType => e","C76: an int gives bytes_type instead of json_type")
X("m522","JsonCall.v","validate_json_bytes","validate_bytes false MUtf8 i","validate_bytes true MUtf8 i","C76: str documents are refused")
X("m523","JsonCall.v","json_validate","rebind (set_input_type ITJson) s (inner (IJson j))","inner (IJson j) s","C76: the document is validated in Python mode")
X("m524","JsonCall.v","json_validate","          | inr n => (val_err (EJsonInvalid n) i, s)\n          | inl j =>","          | inr n => (val_err EJsonType i, s)\n          | inl j =>","C76: syntax errors are reported as json_type")
X("m525","JsonCall.v","json_validate","          match parse b (st_partial s) with\n","          match parse b PartialOff with\n","C76: allow_partial has no effect inside a json schema")
X("m526","JsonCall.v","call_validate","          match f a k w with\n","          match f a [] w with\n","C77: keyword arguments are dropped")
X("m527","JsonCall.v","call_validate","  | (VErr e, s) => ((VErr e, s), w)\n  | (VOk v, s) =>\n      match call_shape v with","  | (VErr e, s) => ((VErr e, s), snd (f [] [] w))\n  | (VOk v, s) =>\n      match call_shape v with","C77: the function is called although the arguments are invalid")
X("m528","JsonCall.v","call_validate","((VErr (with_outer_err (LStr (lit \"return\")) e), s), w)","((VErr e, s), w)","C77: errors of the return value are not located under return")
X("m529","JsonCall.v","call_validate","                  | (VOk v, s) => ((VOk v, s), w)\n","                  | (VOk _, s) => ((VOk r, s), w)\n","C77: the return value before validation is returned")
X("m530","JsonCall.v","call_validate","          | (inr x, w) => ((VErr (InternalErr x), s), w)\n","          | (inr x, w) => (val_err (EOther 7) i, s, w)\n","C77: exceptions of the function become validation errors")
X("m531","JsonCall.v","callable_validate","  | _ => (val_err ECallableType i, s)\n  end.\n(** is_subclass","  | _ => (VOk PNone, s)\n  end.\n(** is_subclass","C78: JSON input is accepted as callable")
X("m532","JsonCall.v","is_subclass_validate","        | inl false => (val_err EIsSubclassOf i, s)\n","        | inl false => (VOk v, s)\n","C78: any class is accepted")
X("m533","JsonCall.v","is_subclass_validate","        | inr x => (VErr (InternalErr x), s)\n","        | inr x => (val_err EIsSubclassOf i, s)\n","C78: exceptions of issubclass become validation errors")
X("m534","DateText.v","date_text","pad 4 (da_year d) ++","pad 2 (da_year d) ++","C79: years written with two digits")
X("m535","DateText.v","offset_text","(if o <? 0 then lit \"-\" else lit \"+\")","lit \"+\"","C79: the sign of the offset is lost")
X("m536","DateText.v","offset_text","pad 2 (Z.abs (Z.rem minutes 60))","pad 2 0","C79: the minutes of the offset are lost")
X("m537","DateText.v","time_text","(if ti_micro t =? 0 then [] else lit \".\" ++ pad 6 (ti_micro t))","[]","C79: microseconds are not written")
X("m538","DateText.v","time_text","lit \".\" ++ pad 6 (ti_micro t)","lit \".\" ++ pad 3 (ti_micro t / 1000)","C79: only milliseconds are written")
X("m539","DateText.v","offset_text","if o =? 0 then lit \"Z\"","if o =? 0 then []","C79: UTC is written as a time without offset")
X("m540","DateText.v","date_to_string","match i with PyDate _ d => Some (TOk (date_text d)) | _ => None end","match i with PyDate _ d => Some (TOk (date_text d)) | PyDatetime _ d => Some (TOk (date_text (pd_date d))) | _ => None end","C79: a date schema cuts datetimes to dates")
X("m541","DateText.v","temporal_ser","| TRaise e => WRaise e end else WObject","| TRaise e => WRaise e end else WInferred","C79: Python mode does not return the object")
X("m542","DeltaText.v","dur_text","part (du_day d / 365) (lit \"Y\")","part (du_day d / 366) (lit \"Y\")","C80: years of 366 days with days of 365")
X("m543","DeltaText.v","dur_text","(if du_positive d then [] else lit \"-\")","[]","C80: negative timedeltas written without sign")
X("m544","DeltaText.v","dur_text","if (du_second d mod 60 =? 0) && (du_micro d =? 0) then []\n","if (du_second d mod 60 =? 0) then []\n","C80: microseconds of whole minutes are not written")
X("m545","DeltaText.v","dur_text","lit \".\" ++ trim_zeros (pad 6 (du_micro d))","lit \".\" ++ dec_Z (du_micro d)","C80: leading zeros of the fraction are missing")
X("m546","DeltaText.v","trim_zeros","rev (drop_zeros (rev s))","drop_zeros s","C80: leading zeros of the fraction are trimmed")
X("m547","DeltaText.v","dur_text","else lit \"T\" ++ part (du_second d / 3600)","else part (du_second d / 3600)","C80: no T before the time")
X("m548","DeltaText.v","value_duration","| SSub t => Some (match float_as_duration rnd (total_seconds t) with Some d => DOk d | None => DOverflow end)","| SSub t => Some (DOk (mk_dur true (td_days t) (td_seconds t) (td_micros t)))","C80: attributes of negative subclass instances taken as they are")
X("m549","DeltaText.v","delta_ser","match delta_to_json m v with Some w => w | None => DWInferred true end\n","match delta_to_json Iso8601 v with Some w => w | None => DWInferred true end\n","C80: the configured mode is ignored")
X("m550","DeltaText.v","total_seconds","(td_days t * 86400 + td_seconds t) * 1000000 + td_micros t","(td_days t * 86400 + td_seconds t) * 1000000","C80: total_seconds without microseconds")

X("m230","Tuple.v","push_output_item","if Nat.ltb mx (length out)","if Nat.leb mx (length out)","C37: max_length off by one")
X("m231","Tuple.v","tuple_items","| (VOk None, s) => TDone (ta_with (ta_out a') (ta_errs a' ++ [new_error_loc EMissing i (index_loc index)]) s a')","| (VOk None, s) => TDone (ta_with (ta_out a') (ta_errs a') s a')","C37: missing items accepted silently")
X("m232","Tuple.v","tuple_items","let index := ta_count a' - 1 in","let index := ta_count a' in","C37: missing item located one too far")
X("m233","Tuple.v","tuple_buffered","cv_validate v y (ta_state a)","cv_validate v x (ta_state a)","C37: variadic schema run on the suffix item")
X("m234","Tuple.v","tuple_variable","| (Some _, _) => TFail (LineErrors [new_error (ETooLong CTuple (length (tu_validators c)) actual) i]) (ta_state a1)\n          | (None, it)","| (_, it)","C37: extra items ignored by fixed tuples")
X("m235","Tuple.v","tuple_variable","ti_take (length tail) (ta_iter a1)","ti_take (length tail - 1) (ta_iter a1)","C37: suffix buffer too small")
X("m236","Tuple.v","tuple_variable","ta_count := index;\n","ta_count := S index;\n","C37: suffix locations (code's off-by-one changed)")
X("m237","Tuple.v","tuple_validate","if Nat.ltb (length (ta_out a)) mn then","if Nat.leb (length (ta_out a)) mn then","C37: min_length off by one")
X("m238","Tuple.v","use_item","| (VErr Omit, s) => TDone","| (VErr UseDefault, s) | (VErr Omit, s) => TDone","C37: UseDefault treated as omission")
X("m239","Tuple.v","stop_now","tu_fail_fast c && negb (is_nil (ta_errs a))","tu_fail_fast c","C37: fail_fast stops after the first item")
X("m240","Tuple.v","tuple_rest","if stop_now a' then TDone a' else tuple_rest","tuple_rest","C37/C14: fail_fast ignored in the repeated part")

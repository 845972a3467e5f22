X("m090","Collections.v","mc_incr","if Nat.ltb mx c then","if Nat.leb mx c then","C15: max_length off by one")
X("m091","Collections.v","vec_loop","| (VOk _, mc') => vec_loop child fail_fast allow_partial mc' (output ++ [v]) errors items' s'","| (VOk _, mc') => vec_loop child fail_fast allow_partial mc' (v :: output) errors items' s'","C12: items reversed")
X("m092","Collections.v","vec_loop","let errors' := errors ++ map (with_outer (index_loc index)) es in","let errors' := map (with_outer (index_loc index)) es in","C13: only the last failing item's errors kept")
X("m093","Collections.v","vec_loop","let errors' := errors ++ map (with_outer (index_loc index)) es in","let errors' := errors ++ es in","C13: errors lose the item index")
X("m094","Collections.v","vec_loop","if fail_fast then (VErr (LineErrors errors'), s')\n                    else vec_loop","vec_loop","C14: fail_fast ignored")
X("m095","Collections.v","vec_loop","| (VErr Omit, s') => vec_loop child fail_fast allow_partial mc output errors items' s'\n          | (VErr e, s') => (VErr e, s')","| (VErr e, s') => (VErr e, s')","C12: an omitted item aborts the list")
X("m096","Collections.v","vec_loop","let s := set_partial (if is_last_partial then allow_partial else PartialOff) s in\n      match it with\n      | Raise _ => (next_error (mc_input mc) index, s)","let s := set_partial allow_partial s in\n      match it with\n      | Raise _ => (next_error (mc_input mc) index, s)","C60: every item is validated in partial mode")
X("m097","Collections.v","list_validate","match min_check CList i (co_min c) (length out) with\n            | Some e => (VErr e, s')\n            | None => (VOk (PList out), s')\n            end","(VOk (PList out), s')","C15: min_length unchecked with item schema")
X("m098","Collections.v","set_loop","if Nat.ltb n (length set') then (val_err","if Nat.ltb n (S index) then (val_err","C16: max_length counted on input items instead of distinct ones")
X("m099","Collections.v","validate_add","if hashable v then (VOk (set_add v set), s') else (val_err ESetItemNotHashable i, s')","(VOk (v :: set), s')","C16: duplicates kept")
X("m100","Collections.v","dict_loop","(errors ++ map (fun e => with_outer kloc (with_outer key_marker e)) es)","(errors ++ map (fun e => with_outer key_marker (with_outer kloc e)) es)","C17: key marker on the wrong side")
X("m101","Collections.v","dict_loop","| (VErr (LineErrors es), s') =>\n              with_value None (errors","| (VErr (LineErrors es), s') =>\n              dict_loop kv vv allow_partial output (errors","C17: value not validated when the key fails") if False else None
X("m102","Collections.v","dict_loop","                (if is_last_partial then errors else errors ++ map (with_outer kloc) es) items' s'","                errors items' s'","C17: value errors dropped")
X("m103","Collections.v","dict_loop","let s := set_partial (if is_last_partial then allow_partial else PartialOff) s in\n            match vv","let s := set_partial allow_partial s in\n            match vv","C60: all dict values validated in partial mode")
X("m104","Values.v","dict_set","(k', v) :: d'","(k', v') :: d'","C17: first duplicate wins")
X("m105","Collections.v","dict_validate","match max_check_err CDict i (co_max c) (length output) with","match max_check_err CDict i (co_max c) 0 with","C15: dict max_length unchecked")
X("m106","VState.v","loc_path","LRev v => rev v","LRev v => v","C13: locations shown inside out")
X("m107","Collections.v","set_loop","if fail_fast && negb (is_nil errors') then (VErr (LineErrors errors'), s')\n        else set_loop","set_loop","C14 (sets): fail_fast ignored")
X("m108","Collections.v","no_validator_loop","| VOk vs => VOk (input_object x :: vs)","| VOk vs => VOk vs","C12: untyped list loses items")

X("m110","LookupKey.v","nth_neg","nth_error l (length l - n) else None.","nth_error l (length l - S n) else None.","C10: negative index off by one (Python)")
X("m111","LookupKey.v","json_get_item","if Nat.leb n (length l) then nth_error l (length l - n) else None\n      | PiS _ => None","if Nat.ltb n (length l) then nth_error l (length l - n) else None\n      | PiS _ => None","C11: -len not found in JSON arrays")
X("m112","LookupKey.v","json_last","assoc k (rev l)","assoc k l","C11: first duplicate JSON key wins")
X("m113","LookupKey.v","first_path","          | Some v => Some (p, v)\n          | None => first_path first get ps'","          | Some v => Some (p, v)\n          | None => None","C10: later paths not tried when an earlier one fails half way")
X("m114","LookupKey.v","py_get_dict_item","      match first (lp_first p1) with\n      | Some v => Some (p1, v)\n      | None => option_map (pair p2) (first (lp_first p2))\n      end\n  | PathChoices ps => first_path first py_get_item ps","      match first (lp_first p2) with\n      | Some v => Some (p2, v)\n      | None => option_map (pair p1) (first (lp_first p1))\n      end\n  | PathChoices ps => first_path first py_get_item ps","C10: name preferred to alias")
X("m115","LookupKey.v","key_from_py","Some n => ps ++ [path_from_str n]","Some n => path_from_str n :: ps","C10: name preferred to alias paths")
X("m116","LookupKey.v","collection_select","| true, false => BOk (unwrap_or (kc_by_alias c) (kc_by_name c))","| true, false => BOk (unwrap_or (kc_by_alias_then_name c) (kc_by_name c))","C10: name accepted although validate_by_name is off")
X("m117","LookupKey.v","collection_select","| false, true => BOk (kc_by_name c)","| false, true => BOk (unwrap_or (kc_by_alias_then_name c) (kc_by_name c))","C10: alias accepted although validate_by_alias is off")
X("m118","LookupKey.v","py_get_item","  | PStr _ => None\n  | PList l","  | PStr s => match i with PiPos n => option_map (fun c => PStr [c]) (nth_pos s n) | _ => None end\n  | PList l","C10: strings are indexed")
X("m119","LookupKey.v","apply_error_loc","(rev (lp_rest p)) e)","(lp_rest p) e)","C10: error location reversed")
X("m120","LookupKey.v","key_error","LRev (map to_loc_item (rev (lp_rest p)) ++ [LStr (lp_first p)])","LRev [LStr (lp_first p)]","C10: missing error located at the first key only")
X("m121","LookupKey.v","attr_path","| AMissing => attr_path v ps'\n      | ARaise e => inr e","| AMissing => attr_path v ps'\n      | ARaise e => attr_path v ps'","C10: raising attributes treated as missing")
X("m122","LookupKey.v","item_from_py","BOk (PiNeg (Z.to_nat (- z)))","BOk (PiPos (Z.to_nat (- z)))","C10: negative index taken as positive")
X("m123","LookupKey.v","to_loc_item","PiNeg n => LInt (- Z.of_nat n)","PiNeg n => LInt (Z.of_nat n)","C10: negative index reported as positive")
X("m124","LookupKey.v","path_from_list","| ALi (ASt f :: rest) =>","| ALi [] => BOk {| lp_first := []; lp_rest := [] |}\n  | ALi (ASt f :: rest) =>","C10: empty alias path accepted")

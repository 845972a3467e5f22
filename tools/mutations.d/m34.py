X("m727","Ser.v","filtered","          a <- each v ni ne ;;\n          r <- filtered f inc exc len each (S i) l' ;;","          a <- each v None ne ;;\n          r <- filtered f inc exc len each (S i) l' ;;","C95: include is not followed into the items of lists")
X("m728","Ser.v","pairs_js","          j <- each v ni ne ;;\n          r <- pairs_js f inc exc key each l' ;;","          j <- each v ne ni ;;\n          r <- pairs_js f inc exc key each l' ;;","C95: include and exclude are swapped for the values of dicts in JSON")
X("m729","Ser.v","pairs_py","          v <- each v ni ne ;;\n          d <- put k v d ;;","          v <- each v ni exc ;;\n          d <- put k v d ;;","C95: the values of dicts get the exclude of the dict")
X("m730","Ser.v","infer_py_body","  let seq l := filtered any_filter inc exc (zlen l) (fun e i e' => l_py L e i e' x) 0 l in","  let seq l := filtered any_filter inc exc (zlen l) (fun e i e' => l_py L e i e' x) 1 l in","C95: indices count from one")
X("m731","Ser.v","infer_js_body","  let elems l := r <- mapM (fun e => l_js L e inc exc x) l ;; ret (JArr r) in","  let elems l := r <- filtered any_filter inc exc (zlen l) (fun e i e' => l_js L e i e' x) 0 l ;; ret (JArr r) in","C95: filters remove elements of sets")
X("m732","Filter.v","merge_all_value","      if is_ell iv || is_ell av then Ok (Some iv)","      if is_ell iv || is_ell av then Ok (Some av)","C95/C45: __all__ wins over the item")
X("m733","Filter.v","map_negative_index","KInt (Z.modulo z n))","KInt (Z.modulo (z + 1) n))","C95/C46: an index names the next item")
X("m734","Filter.v","filter_tail","  | Some e => Some (None, Some e)","  | Some e => Some (Some e, Some e)","C95: what is excluded in part becomes an include")
X("m735","Ser.v","guard_failed_py","if x_json x then fail EOther else ret v.","fail EOther.","C95: too deep data fails in Python mode (the finding C95_deep_refuted)")

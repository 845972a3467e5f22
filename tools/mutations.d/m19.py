X("m349","SerBase.v","by_alias_or","match x_by_alias x with Some b => b | None => match own with Some b => b | None => false end end","match own with Some b => b | None => match x_by_alias x with Some b => b | None => false end end","C47: the schema's by_alias wins over the call's")
X("m350","SerBase.v","register","(if x_collect x then [w] else [])","[w]","C58: warnings recorded although warnings=False")
X("m351","SerBase.v","on_fallback","if check_enabled (x_check x) then fail EUnexpected else register (WFallback v) x","register (WFallback v) x","C50: a union member accepts a value of another type")
X("m352","SerBase.v","on_fallback","else register (WFallback v) x","else ret tt","C58: no warning for an unexpected value")
X("m353","SerBase.v","nested_extra","x_json := x_json x; x_by_alias := x_by_alias x; x_exclude_unset := x_exclude_unset x;\n     x_exclude_defaults := x_exclude_defaults x; x_exclude_none := x_exclude_none x; x_round_trip := x_round_trip x;\n     x_config := c;","x_json := false; x_by_alias := x_by_alias x; x_exclude_unset := x_exclude_unset x;\n     x_exclude_defaults := x_exclude_defaults x; x_exclude_none := x_exclude_none x; x_round_trip := x_round_trip x;\n     x_config := c;","C49: an inferred model is serialized in Python mode")
X("m354","SerBase.v","bind","| Bad e => (fst m, Bad e)\n  end.","| Bad e => ([], Bad e)\n  end.","C50: warnings of a failed member are dropped (the leak disappears)")
X("m355","Ser.v","key_push","if snd st then fst st ++ k else fst st ++ [44%N] ++ k","fst st ++ [44%N] ++ k","C57: a comma before the first part")
X("m356","Ser.v","key_push","if snd st then fst st ++ k else fst st ++ [44%N] ++ k","fst st ++ k","C57: no comma between the parts")
X("m357","Ser.v","key_push","((if snd st then fst st ++ k else fst st ++ [44%N] ++ k), false)","((if is_nil (fst st) then k else fst st ++ [44%N] ++ k), false)","C57: an empty first part is swallowed")
X("m358","Ser.v","infer_key_body","| TBool => ret (bool_key v)","| TBool => str_key v","C57: bool keys written True and False")
X("m359","Ser.v","infer_py_body","| TTuple => l <- opt (down_tuple v) ;; r <- seq l ;; ret (if x_json x then PList r else PTuple r)","| TTuple => l <- opt (down_tuple v) ;; r <- seq l ;; ret (PTuple r)","C49: an inferred tuple stays a tuple in JSON mode")
X("m360","Ser.v","infer_py_body","(fun k => if x_json x then s <- l_key L k x ;; ret (PStr s) else ret k)","(fun k => ret k)","C49: keys of inferred dicts are not turned into strings")
X("m361","Ser.v","infer_py_body","| TIntSub => if x_json x then z <- opt (get_int v) ;; ret (PInt z) else ret v","| TIntSub => ret v","C49: int subclass instances stay in JSON mode")
X("m362","Ser.v","infer_py_body","| TEnum => if x_json x then w <- opt (enum_value E v) ;; l_py L w inc exc x else ret v","| TEnum => ret v","C49: enum members stay in JSON mode")
X("m363","Ser.v","infer_js_body","| TInt | TIntSub => z <- opt (get_int v) ;; ret (JInt z)\n  | TBool","| TInt | TIntSub => z <- opt (get_int v) ;; ret (JStr (dec_Z z))\n  | TBool","C48: ints written as strings")
X("m364","Ser.v","infer_js_body","| TTuple => l <- opt (down_tuple v) ;; seq l\n  | TSet","| TTuple => l <- opt (down_tuple v) ;; seq (rev l)\n  | TSet","C48: tuples written backwards")
X("m365","Ser.v","float_js","if nonfinite f then\n    match m with\n    | INull => JNull","if nonfinite f then\n    match m with\n    | INull => JFloat f","C48/C52: NaN written as a constant under ser_json_inf_nan='null'")
X("m366","Ser.v","pairs_py","k <- key k ;;\n          v <- each v ni ne ;;\n          d <- put k v d ;;","k' <- key k ;;\n          v <- each v ni ne ;;\n          d <- put k v d ;;","C49: the keys of dicts are not serialized")
X("m367","Ser.v","str_ser","| Subclass => if x_json x then s <- opt (down_str v) ;; s <- to_str s ;; ret (PStr s) else ret v","| Subclass => ret v","C49: str subclass instances stay in JSON mode")
X("m368","Ser.v","bytes_ser","| Some b => if x_json x then s <- opt (bytes_to_string m b) ;; ret (PStr s) else ret v","| Some b => if x_json x then s <- opt (bytes_to_string MUtf8 b) ;; ret (PStr s) else ret v","C48: the bytes mode is ignored in to_python")
X("m369","Ser.v","nullable_ser","(fun v inc exc x => match v with PNone => ret JNull | _ => z_js s v inc exc x end)","(fun v inc exc x => z_js s v inc exc x)","C48/C58: None is given to the inner serializer in JSON only")
X("m370","Ser.v","is_default","x_exclude_defaults x && match z_default s with","match z_default s with","C47: defaults always left out")
X("m371","Ser.v","is_default","match z_default s with Some d => py_eq v d | None => false end","match z_default s with Some d => py_eq v d | None => is_py_none v end","C47: None left out by exclude_defaults")
X("m372","Ser.v","out_key","match f_alias f with Some a => a | None => name end else name","match f_alias f with Some a => a | None => name end else match f_alias f with Some a => a | None => name end","C47: by_alias ignored")
X("m373","Ser.v","main_to_json","if x_exclude_none x && is_py_none v then main_to_json l' inc exc x\n      else\n        ks","if is_py_none v then main_to_json l' inc exc x\n      else\n        ks","C47: None fields left out of JSON without exclude_none")
X("m374","Ser.v","main_to_json","o <- res_opt (filter any_filter (key_of k) inc exc) ;;\n        match o with\n        | None => main_to_json l' inc exc x","o <- res_opt (filter any_filter (key_of k) inc None) ;;\n        match o with\n        | None => main_to_json l' inc exc x","C47: exclude ignored in JSON")
X("m375","Ser.v","main_py_loop","if x_exclude_none x && is_py_none v then main_py_loop inc exc x l' d (n + used fo)","if x_exclude_none x && is_default v x (none_ser L) then main_py_loop inc exc x l' d (n + used fo)","C47: exclude_none does not leave out None fields in Python")
X("m376","Ser.v","main_py_loop","d <- put (PStr (out_key ks f x)) w d ;;\n                      main_py_loop","d <- put (PStr ks) w d ;;\n                      main_py_loop","C47: aliases not used in Python")
X("m377","Ser.v","comp_js_loop","if x_exclude_none x && is_py_none v then comp_js_loop m l' inc exc x","if x_exclude_none x then comp_js_loop m l' inc exc x","C47: exclude_none leaves out all computed fields")
X("m378","Ser.v","comp_to_json","| Some m => if x_round_trip x then ret [] else comp_js_loop m comp inc exc x","| Some m => comp_js_loop m comp inc exc x","C47: computed fields written with round_trip")
X("m379","Ser.v","comp_key","if by_alias_or x (cf_by_alias c) then cf_alias c else cf_name c","cf_alias c","C47: computed fields always written under their alias")
X("m380","Ser.v","fields_ser","ret (JObj (a ++ b ++ c))","ret (JObj (c ++ a ++ b))","C47: computed fields first in JSON")
X("m381","Ser.v","inner_value","(if x_exclude_unset x then","(if negb (x_exclude_unset x) then","C47: exclude_unset inverted")
X("m382","Ser.v","inner_value","ret (List.filter (fun kv => existsb (fun y => py_eq y (fst kv)) set) attrs)","ret (List.filter (fun kv => negb (existsb (fun y => py_eq y (fst kv)) set)) attrs)","C47: exclude_unset keeps the unset fields")
X("m383","Ser.v","class_allows","| CStrict => exact_instance v cls","| CStrict => is_instance (e_sub E) v cls","C50: a subclass instance accepted in the strict attempt")
X("m384","Ser.v","first_ok","match r with Some b => ret (Some b) | None => first_ok sel l' end","r' <- first_ok sel l' ;; ret (match r' with Some b => Some b | None => r end)","C50: the last accepting member is chosen")
X("m385","Ser.v","union_serialize","r <- (if negb (is_strict (x_check x)) && retry then","r <- (if negb (is_strict (x_check x)) then","C50: lax attempts without a member asking for it")
X("m386","Ser.v","union_serialize","r <- (if negb (is_strict (x_check x)) && retry then first_ok (fun s => sel s (set_check CLax x)) choices else ret None) ;;","r <- (if negb (is_strict (x_check x)) && retry then first_ok (fun s => sel s (set_check CStrict x)) choices else ret None) ;;","C50: the second attempt is strict again")
X("m387","Ser.v","union_serialize","else _ <- register_all choices x ;; ret None","else ret None","C50: no warning when no member accepts")
X("m388","Ser.v","union_ser","match r with Some w => l_js L w None None x | None => l_js L v inc exc x end)\n         (fun v x => or_infer (union_serialize","match r with Some w => l_js L v inc exc x | None => l_js L v inc exc x end)\n         (fun v x => or_infer (union_serialize","C50: JSON ignores the chosen member")
X("m389","Ser.v","int_ser","(fun v x => match is_int_type v with IsNot => fall_key L v x | _ => str_key v end) true","(fun v x => match is_int_type v with IsNot => fall_key L v x | _ => str_key v end) false","C50: int does not ask for a lax attempt")
X("m390","Ser.v","dataclass_ser","d <- m_py f (known_items names v) inc exc x ;;","d <- m_py f (known_items (rev names) v) inc exc x ;;","C47: dataclass fields in reverse order")
X("m391","Ser.v","dataclass_ser","a <- m_js f (known_items names v) inc exc x ;;","a <- m_js f (known_items names v) None None x ;;","C47: filters ignored for dataclasses in JSON")
X("m392","Ser.v","final_check","| WError => if is_nil (fst m) then Returned a [] else Raised","| WError => Returned a []","C58: warnings='error' does not raise")
X("m393","Ser.v","enum_ser","w <- opt (enum_value E v) ;;\n                match sub with Some s => z_py s w inc exc x | None => l_py L w inc exc x end\n              else ret v","w <- opt (enum_value E v) ;;\n                match sub with Some s => z_py s w inc exc x | None => ret w end\n              else ret v","C49: the value of an enum member is not serialized")
X("m394","Ser.v","literal_ser","| LInt z => ret (if x_json x then PInt z else v)","| LInt z => ret v","C49: int subclass instances stay in a literal")
X("m395","Ser.v","set_ser","if x_json x then ret (PList r) else r <- new_set r ;; ret (mk r)","r <- new_set r ;; ret (mk r)","C49: sets stay sets in JSON mode")
X("m396","Ser.v","tuple_each","_ <- register WExtraItems x ;;","_ <- ret tt ;;","C58: no warning for additional tuple items")
X("m397","Ser.v","dict_ser","(fun a => if x_json x then t <- z_key k a x ;; ret (PStr t) else z_py k a None None x)","(fun a => z_py k a None None x)","C49: dict keys stay Python objects in JSON mode")
X("m398","Ser.v","zip_items","a <- each s v ni ne ;; r <- zip_items f inc exc len each (S i) ss' l' ;; ret (a :: r)","a <- each s v ni ne ;; r <- zip_items f inc exc len each (S (S i)) ss' l' ;; ret (a :: r)","C45/C48: the index filter of tuples skips indices")
X("m399","Ser.v","function_ser","| inl o => z_js r o None None x\n              | inr e","| inl o => l_js L o None None x\n              | inr e","C48: the return schema is not used in JSON")
X("m400","Ser.v","json_ser","(fun v inc exc x => if x_round_trip x then t <- json_text_of (z_js s v inc exc x) ;; ret (JStr t) else z_js s v inc exc x)","(fun v inc exc x => z_js s v inc exc x)","C48: round_trip ignored in JSON by a json schema")

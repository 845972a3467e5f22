X("m421","TaggedUnion.v","find_call_validator","(VErr (with_outer_err (py_loc repr tag) e), s')","(VErr (with_outer_err (LStr (repr tag)) e), s')","C31: the tag is shown by its repr in locations")
X("m422","Classes.v","model_construct","        | (VOk out, s') => (call_post_init (mo_post_init c) (root_inst (mo_cls c) out (root_fields_set i)) i, s')\n        end","        | (VOk out, s') => (call_post_init (mo_post_init c) (root_inst (mo_cls c) out (root_fields_set i)) (IPy out), s')\n        end","C31: errors of post_init show the validated root")
X("m424","Ser.v","tuple_each","_ <- register WExtraItems x ;;","_ <- ret tt ;;","C58: no warning for additional tuple items",["C58_extra_items"])
X("m425","Enum.v","enum_validate","      else if strict && is_py then (val_err EIsInstance i, s)\n","      else if strict then (val_err EIsInstance i, s)\n","C63: strict validation of string data refuses members' values")
X("m426","Enum.v","enum_validate","if exact_instance v (en_cls c) then (VOk v, s)","if is_instance subclass v (en_cls c) then (VOk v, s)","C63: instances of subclasses are returned as they are")
X("m427","Enum.v","enum_validate","if is_instance subclass r (en_cls c) then (VOk r, s)\n","if is_instance subclass r (en_cls c) || true then (VOk r, s)\n","C63: _missing_ may return anything")
X("m428","Enum.v","enum_value","                   | PStr _ => VOk (lk_validate_str lk false i)\n","                   | PStr _ => VOk None\n","C63: subclasses of str are not looked up")
X("m429","Enum.v","enum_value","  | IntEnum => lk_validate_int lk strict i\n","  | IntEnum => lk_validate_int lk false i\n","C63: int enums are lax in strict mode")
X("m430","Enum.v","enum_validate","                | inr _ => (val_err EEnum i, s)\n                | inl r","                | inr e => (VErr (InternalErr e), s)\n                | inl r","C63: an exception of _missing_ is not turned into an enum error")
X("m431","Enum.v","lk_validate_int","      | VErr _ => VOk None\n","      | VErr e => VErr e\n","C63: an input that is no int is not an enum error")
X("m432","Arguments3.v","build3_loop","if bf_default b && negb (ps_default p) && negb (bf_kw_only b) then false","if bf_default b && negb (ps_default p) then false","C64: keyword-only parameters without default are refused after defaults")
X("m433","Arguments3.v","mode_refused","  | MPosOrKw => bf_var_args b || bf_kw_only b || bf_var_kwargs b\n","  | MPosOrKw => bf_kw_only b || bf_var_kwargs b\n","C64: positional-or-keyword parameters are accepted after *args")
X("m434","Arguments3.v","build3_loop","bf_default := bf_default b || ps_default p;","bf_default := ps_default p;","C64: only the last parameter's default counts")
X("m435","Arguments3.v","mapping_param","| (VOk (Some w), s') => (VOk (if positional3 (p3_mode p) then aa_push w a else aa_put (p3_name p) w a), s')","| (VOk (Some w), s') => (VOk (aa_put (p3_name p) w a), s')","C64: defaults of positional parameters are passed by keyword")
X("m436","Arguments3.v","extra3","          if mem_str k (aa_used a) then extra3 forbid es' a\n          else if forbid","          if forbid","C64: all keys are extra")
X("m437","Arguments3.v","kwargs3_loop","          if mem_str k (aa_used a) then kwargs3_loop c es' remaining a s\n          else\n","","C64: used keyword arguments are also put into **kwargs")
X("m438","Arguments3.v","params3_loop","| Some _, Some (_, value) => continue (aa_add [new_error_loc EMultipleArgumentValues value (LStr (p3_name p))] a) s","| Some _, Some (_, value) => continue (aa_push (input_object value) a) s","C64: an argument given twice is accepted")
X("m439","Arguments3.v","from_argskwargs","(skipn (positional_count3 c) l) a s","l a s","C64: *args also gets the positional arguments already bound")
X("m440","Arguments3.v","unpack3","| VErr (LineErrors es) => VOk (aa_add (map place es) a)","| VErr (LineErrors es) => VOk a","C64: errors of unpacked keyword arguments are lost")
X("m441","Arguments3.v","mapping_param","(unpack3 r (with_outer (LStr (p3_name p))) a, s')","(unpack3 r (fun e => e) a, s')","C64: errors of a missing unpacked dict have no location")
X("m442","Arguments3.v","items3","items3 v place (S index) xs' (aa_push w a) s'","items3 v place (S index) xs' a s'","C64: variadic items are dropped")
X("m443","ErrReport.v","loc_of_py","Ok (LRev (rev (map loc_item_of_py l)))","Ok (LRev (map loc_item_of_py l))","C65: locations are reversed by pickling")
X("m444","ErrReport.v","py_dict","Known r vals (Some c) => Some (dupdate c (fields_dict r vals))","Known r vals (Some c) => Some (dupdate (fields_dict r vals) c)","C65: the fields override the context")
X("m445","ErrReport.v","extract_number","  match extract_i64 v with\n  | Some z => Some (NInt z)\n  | None =>\n      match extract_f64 v with\n      | Some f => Some (NFloat f)","  match extract_f64 v with\n  | Some f => Some (NFloat f)\n  | None =>\n      match extract_i64 v with\n      | Some z => Some (NInt z)","C65: int limits become floats on unpickling")
X("m446","ErrReport.v","replace_from","if starts p s then v ++ replace_from p v (length p - 1)%nat s'","if starts p s then v ++ s'","C66: only the first occurrence of a placeholder is replaced")
X("m447","ErrReport.v","plural_s","if z =? 1 then","if z <=? 1 then","C66: zero items is singular")
X("m448","ErrReport.v","render_message","(template it r))\n","(r_py r))\n","C66: JSON input gets the messages for Python input")
X("m449","ErrReport.v","line_json","++ inp ++ ctx\n","++ ctx ++ inp\n","C67: json() has another order of keys than errors()")
X("m450","ErrReport.v","as_dict","d_input := if include_input then","d_input := if include_context then","C67: include_context governs the input")
X("m451","ErrReport.v","pretty","++ (if hide_input then []\n","++ (if negb hide_input then []\n","C67: inputs are shown when they are to be hidden")
X("m452","ErrReport.v","display","(if Nat.eqb (error_count v) 1 then [] else lit \"s\")","(if Nat.leb (error_count v) 1 then [] else lit \"s\")","C67: no plural for no errors")
X("m453","ErrReport.v","line_of_data","match i_input i with Some v => v | None => PNone end","PNone","C65: inputs are lost by pickling")
X("m454","ErrReport.v","itype_of_name","else if str_eqb s (lit \"json\") then Ok ITJson","else if str_eqb s (lit \"json\") then Ok ITPython","C65: the input type is lost by pickling")
X("m455","ErrReport.v","field_from_context","| Some v => match extract_field t v with Some f => Ok f | None => Raise TypeError end","| Some v => match extract_field TOptObj v with Some f => Ok f | None => Raise TypeError end","C65: context values of any type are accepted")
X("m456","ErrReport.v","snake_rest","95%N :: (c + 32)%N :: snake_rest s'","(c + 32)%N :: snake_rest s'","C65: error types are named without underscores")
X("m457","ErrReport.v","format_message","(show_ctx_value v) message) ctx'","(match v with PStr _ => py_str v | _ => show_ctx_value v end) message) ctx'","C66: custom messages show str() of strings and ints")
X("m458","ErrTable.v","table","[(lit \"min_length\"); (lit \"expected_plural\")] (Some (lit \"min_length\"));\n  mk (lit \"StringTooLong\")","[(lit \"min_length\")] (Some (lit \"min_length\"));\n  mk (lit \"StringTooLong\")","C66: a placeholder is not replaced")
X("m459","ErrTable.v","table","(lit \"Input should be less than {lt}\")\n    (lit \"Input should be less than {lt}\")","(lit \"Input should be less than {le}\")\n    (lit \"Input should be less than {lt}\")","C66: a template names another field")

X("m322","Scalars.v","str_validate","match too_long (sc_max c) (length t) with","match too_long (sc_min c) (length t) with","C29: strings longer than max_length returned")
X("m323","Scalars.v","bytes_validate","match too_long (bc_max c) (bytes_len b) with","match too_long (bc_max c) (pred (bytes_len b)) with","C29: bytes one longer than max_length returned")
X("m324","Scalars.v","int_validate","| Some c =>\n        match validate_constrained_int c n with","| Some c =>\n        match (if strict then validate_constrained_int c n else NOk n) with","C29: integer constraints skipped in lax mode")
X("m325","Interp.v","eval","set_validate frozen c (cv_validate (eval item)) (if frozen then validate_frozenset else validate_set)","set_validate (negb frozen) c (cv_validate (eval item)) (if frozen then validate_frozenset else validate_set)","C29: a set schema returns a frozenset")
X("m326","Interp.v","eval","(option_map (fun sc => cv_validate (eval sc)) ex) (option_map (fun sc => cv_validate (eval sc)) exk))","(option_map (fun sc => cv_validate (eval sc)) exk) (option_map (fun sc => cv_validate (eval sc)) ex))","C29: schemas of extra values and extra keys swapped")
X("m327","Wrappers.v","default_value","if wd_validate_default w then","if negb (wd_validate_default w) then","C29: validate_default inverted, an unvalidated default is returned")
X("m328","Wrappers.v","function_after","| (VOk v, s') => (call_fun f own v i s', s')","| (VOk v, s') => (call_fun f own (input_object i) i s', s')","C29: the after function gets the raw input")
X("m329","Tuple.v","push_output_item","if Nat.ltb mx (length out) then","if Nat.ltb (S mx) (length out) then","C29: tuples one longer than max_length returned")
X("m330","Classes.v","model_construct","match build_model c existing out with VOk inst","match build_model c existing (PTuple [input_object i; PNone; PSet []]) with VOk inst","C29: a model is built from the raw input")
X("m331","Classes.v","is_instance_validate","if is_instance v cls then (VOk v, s)","if is_instance v cls || match v with PSub _ _ => true | _ => false end then (VOk v, s)","C29: is_instance accepts instances of other classes")
X("m332","Interp.v","refs","match defs k with\n      | None =>","match defs (pred k) with\n      | None =>","C29: a reference resolves to another definition")
X("m333","Wrappers.v","chain_validate","| step :: steps' => match step i s with (VOk v, s') => chain_rest steps' v s'","| step :: steps' => match step i s with (VOk v, s') => chain_rest (removelast steps') v s'","C29: the last step of a chain is skipped")

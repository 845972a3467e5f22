X("m621","Core.v","build","fc_le := fk_le k; fc_lt := fk_lt k","fc_le := fk_lt k; fc_lt := fk_le k","C86: float 'le' and 'lt' are swapped")
X("m622","Core.v","build","sc_min := setting (sk_min k) g g_str_min; sc_max := setting (sk_max k) g g_str_max","sc_min := setting (sk_min k) g g_str_max; sc_max := setting (sk_max k) g g_str_min","C86: the config's str_min_length and str_max_length are swapped")
X("m623","Core.v","build","sc_to_lower := unwrap_or (setting (sk_lower k) g g_str_lower) false","sc_to_lower := unwrap_or (sk_lower k) false","C86: str_to_lower of the config is not read")
X("m624","Core.v","build","bind (optB (build g) kc) (fun a => bind (optB (build g) vc) (fun b => ret (SDict (coll_of g k) (unwrap_or a SAny) (unwrap_or b SAny))))","bind (optB (build g) kc) (fun a => bind (optB (build g) vc) (fun b => ret (SDict (coll_of g k) (unwrap_or b SAny) (unwrap_or a SAny))))","C86: the schemas of keys and values of a dict are swapped")
X("m625","Core.v","build","ret (SJsonOrPython a b)","ret (SJsonOrPython b a)","C86: json and python schemas are swapped")
X("m626","Core.v","build","unwrap_or collapse true","unwrap_or collapse false","C86: unions of one choice are kept unless told otherwise")
X("m627","Core.v","build","KModel g k c =>\n      bind (build g c)","KModel g' k c =>\n      bind (build g c)","C86: a model is built with the config around it")
X("m629","Core.v","typed_dict_field_B","else if required && omits s then fail","else if omits s then fail","C86: typed dict fields that are not required may not be left out on errors")
X("m630","Core.v","params_B","d && negb (has_default s) && negb kw","d && negb (has_default s)","C86: keyword-only parameters without a default may not follow ones with a default")
X("m631","Core.v","params_B","let kw := kw || is_kw_only mode in","let kw := is_kw_only mode in","C86: once a keyword-only parameter was seen, order is free")
X("m632","Core.v","dataclass_field_B","dn_kw_only := unwrap_or (ck_kw_only (fst p)) true","dn_kw_only := unwrap_or (ck_kw_only (fst p)) false","C86: dataclass fields are keyword-only unless told otherwise")
X("m633","Core.v","unpacked_of","str_eqb w (lit \"uniform\") then ret false","str_eqb w (lit \"uniform\") then ret true","C86: uniform kwargs are read as an unpacked typed dict")
X("m634","Core.v","mode_of","None => ret UnionSmart\n","None => ret UnionLeftToRight\n","C86: unions are smart unless told otherwise")
X("m635","Core.v","steps_of","SChain l => l | _ => [s]","_ => [s]","C86: chains in chains are flattened")
X("m636","Core.v","build","[s] => ret s\n        | l => ret (SChain l)","l => ret (SChain l)","C86: a chain of one step is that step")
X("m637","Core.v","schema_validator","then Built (fst r, fun k => find_def k (kn_defs (snd r))) else SchemaError","then Built (fst r, fun k => find_def k (kn_defs (snd r))) else Built (fst r, fun k => find_def k (kn_defs (snd r)))","C86: references that lead nowhere are not noticed")
X("m638","Core.v","build","po_by_alias := setting (ak_by_alias k) g g_by_alias; po_by_name := setting (ak_by_name k) g g_by_name","po_by_alias := setting (ak_by_alias k) g g_by_alias; po_by_name := setting (ak_by_name k) g g_by_alias","C86: validate_by_name of arguments is read from validate_by_alias of the config")
X("m639","Core.v","build","tn_strict := is_strict (lk_strict k) g; tn_variadic := variadic","tn_strict := is_strict (lk_strict k) None; tn_variadic := variadic","C86: tuples do not look at the config's strict")
X("m640","Core.v","extras_B","Some _, _ => fail","Some c, _ => bind (f c) (fun s => ret (Some s))","C86: extras_schema without extra allow is refused")
X("m641","Core.v","default_of","Some _, Some _ => fail","Some v, Some _ => ret (DValue v)","C86: a default and a default factory together are refused")
X("m642","Core.v","build","match it with Some SAny => None | _ => it end","it","C86: (list of any: no item validator; a matter of what the table says)")
X("m643","Core.v","setting","or_else own (get g f)","or_else (get g f) own","C86: the config overrides what schemas say")
X("m644","Core.v","define","Some _ => SchemaError\n","Some _ => Built (tt, n)\n","C86: a reference declared twice is refused")
X("m645","Core.v","build","KDefinitions defs c => bind (mapB (fun p => bind (build g (snd p)) (define (fst p))) defs) (fun _ => build g c)","KDefinitions defs c => bind (mapB (fun p => bind (build None (snd p)) (define (fst p))) defs) (fun _ => build g c)","C86: definitions are built without the config around them")
X("m646","Core.v","pattern_of","(lit \"rust-regex\") in","(lit \"python-re\") in","C86: patterns are for the Rust engine unless told otherwise")

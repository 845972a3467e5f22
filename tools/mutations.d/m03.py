X("m050","Defs.v","add_definition","match set_slot r v b with Some b' => Ok b' | None => Err (DuplicateRef r) end","Err (DuplicateRef r)","C35: a definition used before it is declared is reported as duplicate")
X("m051","Defs.v","set_slot","match c with None => Some ((k, Some v) :: b') | Some _ => None end","Some ((k, Some v) :: b')","C35: a second definition silently replaces the first")
X("m052","Defs.v","get_definition","| Some i => (i, b)\n  | None => (length b, b ++ [(r, None)])","| _ => (length b, b ++ [(r, None)])","C35: each use gets its own slot")
X("m053","Defs.v","build_schema","match finish b with Some r => Err (NeverFilled r) | None => Ok (v, b) end","Ok (v, b)","C35: dangling references accepted")
X("m054","Defs.v","build","                       | Ok b2 => go ds' b2\n","                       | Ok b2 => go ds' b1\n","C35: definition lost")
X("m055","Filter.v","merge_all_value","| None, o => Ok o","| None, o => Ok None","C45: __all__ ignored for keys without their own entry")
X("m056","Filter.v","merge_dicts","| Ok m => go ad' (set_item k (FDict m) item)","| Ok m => go ad' item","C45: nested merge dropped")
X("m057","Filter.v","merge_dicts","             | None => go ad' (set_item k av item)","             | None => go ad' item","C45: __all__ entry missing from merged filter")
X("m058","Filter.v","exclude_phase","Ok (if mem k l || mem ALL l then None else Some None)","Ok (if mem k l then None else Some None)","C45: '__all__' in an exclude set ignored")
X("m059","Filter.v","filter","| Ok (Some v) => Ok (Some ((if is_ell v then None else Some v), next_exclude))","| Ok (Some v) => Ok (Some (Some v, next_exclude))","C45: ellipsis passed down as a nested include")
X("m060","Filter.v","filter","if mem k l || mem ALL l then Ok (Some (None, next_exclude))","if mem k l || mem ALL l then Ok (Some (None, None))","C45: nested exclude lost when an include set names the item")
X("m061","Filter.v","filter","          | Ok None => if explicit_include sf k then tail else Ok None","          | Ok None => tail","C45: include dict does not restrict")
X("m062","Filter.v","default_filter","| Some i, Some e => mem k i && negb (mem k e)","| Some i, Some e => mem k i","C45: schema exclude ignored when schema include given")
X("m063","Filter.v","map_negative_index","KInt (Z.modulo z n)","KInt (Z.rem z n)","C46: truncating remainder keeps negative indices negative")
X("m064","Filter.v","map_elems","Ok (if mem k' r then r else k' :: r)","Ok r","C46: indices lost")
X("m065","Filter.v","map_negative_index","if Z.ltb z 0 then ValueErr else Ok k","Ok k","C46: negative index on unsized iterable not reported")
X("m066","Filter.v","as_dict","Ok (map (fun k => (k, FEll)) l)","Ok []","C45: item set lost when merged with __all__")

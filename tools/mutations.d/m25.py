X("m595","Prebuilt.v","usable","TFunc After _ _ _ | TFunc Wrap _ _ _ => false","TFunc After _ _ _ => false","C84: validators with a wrap function outermost are reused, calling it twice")
X("m596","Prebuilt.v","get_prebuilt","if dataclass && generic then None","if generic then None","C84: (parametrized models are built from the schema; used in C84_used)")
X("m597","Prebuilt.v","get_prebuilt","  if dataclass && generic then None\n  else if","  if","C84: a parametrized generic dataclass takes the validator of its origin")
X("m598","Prebuilt.v","get_prebuilt","if complete (w cls) then match","if true then match","C84: classes that are not complete are used")
X("m599","Prebuilt.v","get_prebuilt","Some (TPre t) else None","Some t else None","C84: (harmless: the stored validator itself)")
X("m600","Prebuilt.v","build","TClass dc cls g c (build w c s) end","TClass dc cls g c (build w cfg s) end","C84: the config around a class is used inside of it")
X("m601","Prebuilt.v","build","  | Func k f s => TFunc k f cfg (build w cfg s)","  | Func k f s => build w cfg s","C84: functions are dropped")
X("m602","Prebuilt.v","behaviour","  | TPre t => behaviour t","  | TPre t => TPre (behaviour t)","C84: a prebuilt validator is visible")
X("m603","Prebuilt.v","set","if (x =? cls)%N then c else w x","c","C84: storing a validator replaces those of other classes")
X("m604","Prebuilt.v","define","let w := set w (d_cls d) {| complete := false; stored := None |} in\n","","C84: a class is complete while it is built (a redefinition takes its old validator)")
X("m605","SerOf.v","ser_of","  | SNullable sc => bbind (ser_of sc) (fun s => Built (SerNullable s))","  | SNullable sc => ser_of sc","C85: None warns (rather: a nullable is written by the schema inside)")
X("m606","SerOf.v","ser_of","  | SInt _ _ => Built SerInt","  | SInt _ _ => Built SerBool","C85: integers are written by another serializer")
X("m607","SerOf.v","ser_of","Built (if frozen then SerFrozenSet s else SerSet s)","Built (if frozen then SerSet s else SerFrozenSet s)","C85: sets and frozensets are swapped")
X("m608","SerOf.v","ser_of","  | SChain steps => last (map ser_of steps) Panics","  | SChain steps => hd Panics (map ser_of steps)","C85: chains are written by their first step")
X("m609","SerOf.v","ser_of","  | SDict _ k v => bbind (ser_of k) (fun k => bbind (ser_of v) (fun v => Built (SerDict Filter.any_filter k v)))","  | SDict _ k v => bbind (ser_of k) (fun k => bbind (ser_of v) (fun v => Built (SerDict Filter.any_filter v k)))","C85: keys and values are swapped")
X("m610","SerOf.v","ser_of","if Nat.leb (length l) k then Panics","if Nat.ltb (length l) k then Panics","C85: the bound of the variadic item is off by one")
X("m611","SerOf.v","ser_of","else Built (SerTuple Filter.any_filter l (Some k))","else Built (SerTuple Filter.any_filter l None)","C85: the variadic item is forgotten")
X("m612","SerOf.v","ser_of","Built (SerFields (if w_td_extra w c then TypedDictAllow else SimpleDict) fs ex [])","Built (SerFields (if w_td_extra w c then ModelExtra else SimpleDict) fs ex [])","C85: typed dicts with additional items are taken for models")
X("m613","SerOf.v","ser_of","Built (SerModel (mo_cls c) s (w_model_extra w (mo_cls c)) (mo_root c))","Built (SerModel (mo_cls c) s (w_model_extra w (mo_cls c)) false)","C85: root models are written as models")
X("m614","SerOf.v","ser_of","Built (SerModel (mo_cls c) s (w_model_extra w (mo_cls c)) (mo_root c))","Built (SerModel (mo_cls c) s true (mo_root c))","C85: every model is taken to have additional items")
X("m615","SerOf.v","ser_of","  | SRef k => Built (SerDef k (w_retry w k))","  | SRef k => Built (SerDef (S k) (w_retry w k))","C85: references point to the next definition")
X("m616","SerOf.v","field_of","Built (name, {| f_alias := w_alias w name; f_ser := Some s;","Built (lit \"x\", {| f_alias := w_alias w name; f_ser := Some s;","C85: fields are found under another name")
X("m617","SerOf.v","extras_of","  | Some _, false => SchemaError","  | Some _, false => Panics","C85: a forbidden extras schema panics")
X("m618","SerOf.v","from_choices","[] => SchemaError | [s] => Built s","[] => Panics | [s] => Built s","C85: an empty union panics")
X("m619","Ser.v","tuple_each","        | [] => ret r\n        | rest =>\n            _ <- register WExtraItems x ;;","        | rest =>\n            _ <- register WExtraItems x ;;","C85: every tuple warns")
X("m620","Ser.v","nullable_ser","match v with PNone => ret PNone | _ => z_py s v inc exc x end","match v with PNone => z_py s v inc exc x | _ => z_py s v inc exc x end","C85: (None never warns as a fallback; other claims on nullables)")

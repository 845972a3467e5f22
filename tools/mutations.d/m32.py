X("m703","SerPrebuilt.v","usable","match t with TWrap _ _ _ _ => false | _ => true end","match t with _ => true end","C93: the serializer of a class with a wrap function is reused inside of that function")
X("m704","SerPrebuilt.v","usable","match t with TWrap _ _ _ _ => false | _ => true end","match t with TPlain _ _ _ _ => false | _ => true end","C93: plain instead of wrap functions are excluded")
X("m705","SerPrebuilt.v","get_prebuilt","if dataclass && generic then None","if dataclass && negb generic then None","C93: parametrized generic dataclasses take the serializer of the unparametrized class")
X("m706","SerPrebuilt.v","get_prebuilt","else if complete (w cls) then match","else if true then match","C93: incomplete classes are reused")
X("m707","SerPrebuilt.v","build","TClass dc cls g c (build w c s)","TClass dc cls g c (build w cfg s)","C93: the config around a class is used inside of it")
X("m708","SerPrebuilt.v","build","match u with Always => None | _ => Some (build w cfg s) end","match u with Json => Some (build w cfg s) | _ => None end","C93: functions with unless-none have no fallback")
X("m709","SerPrebuilt.v","build","| SerOther k l _ => TNode k cfg (map (build w cfg) l)","| SerOther k l s => build w cfg s","C93: a replacing serialization is ignored")
X("m710","SerPrebuilt.v","should_use","| Json => json |","| Json => true |","C93: when_used of json is always used (the fallback is never reached)")
X("m711","SerPrebuilt.v","means","else match b with Some m => ans m (unfiltered i q) | None => panic i q end","else match b with Some m => plain i f m (unfiltered i q) | None => panic i q end","C93: a function that is not to be used is called on the fallback")
X("m712","SerPrebuilt.v","define","stored := Some (build w (d_cfg d) (d_schema d))","stored := Some (TPre (TPre (build w 0 (d_schema d))))","C93: the stored serializer ignores the config of its class definition (harmless by the theorem, but no wrap function is seen any more)")
X("m713","SerPrebuilt.v","build","match inner with Some i => build w cfg i | None => build w cfg s end","build w cfg s","C93: serialization.schema of a wrap function is ignored")
X("m714","SerPrebuilt.v","get_prebuilt","if usable t then Some (TPre t) else None","if usable t then Some t else Some (TPre t)","C93: an unusable serializer is reused")

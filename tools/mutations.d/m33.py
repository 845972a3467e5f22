X("m715","Ser.v","out_key","if by_alias_or x (f_by_alias f) then","if by_alias_or x (f_by_alias f) || x_round_trip x then","C94: round_trip writes aliases (a key that the full output does not have)")
X("m716","Ser.v","comp_to_json","| Some m => if x_round_trip x then ret [] else comp_js_loop m comp inc exc x","| Some m => if x_round_trip x && negb (is_nil comp) then fail EOther else comp_js_loop m comp inc exc x","C94: round_trip fails for computed fields")
X("m717","Ser.v","zlen","Definition zlen {A} (l : list A) : option Z := Some (Z.of_nat (length l)).","Definition zlen {A} (l : list A) : option Z := None.","C94: negative indices in filters fail for lists and tuples")
X("m718","Ser.v","inner_value","ret (List.filter (fun kv => existsb (fun y => py_eq y (fst kv)) set) attrs)","ret (map (fun y => (y, match dict_get y attrs with Some w => w | None => PNone end)) set)","C94: exclude_unset lists the fields set instead of the fields that are set")
X("m719","Ser.v","main_to_json","                    if is_default v x s then main_to_json l' inc exc x\n                    else\n                      j <- z_js s v ni ne x ;;","                    if x_exclude_defaults x && negb (is_some (z_default s)) then fail EOther\n                    else\n                      j <- z_js s v ni ne x ;;","C94: exclude_defaults fails for a field without default")
X("m720","Ser.v","tuple_each","            _ <- register WExtraItems x ;;","            _ <- (if is_some exc then ret tt else register WExtraItems x) ;; _ <- (if is_some inc then register WExtraItems x else ret tt) ;;","C94: include makes a tuple warn once more")
X("m721","Ser.v","extras_js","            k <- l_key L k x ;;\n            j <- l_js L v ni ne x ;;\n            r <- extras_js l' inc exc x ;;","            k <- (if x_exclude_none x then key_str k else l_key L k x) ;;\n            j <- l_js L v ni ne x ;;\n            r <- extras_js l' inc exc x ;;","C94: with exclude_none a key of an extra that is not a string fails")
X("m722","Ser.v","set_ser","            | Some l => r <- mapM (fun e => z_js s e inc exc x) l ;; ret (JArr r)","            | Some l => r <- mapM (fun e => z_js s e inc exc x) l ;; ret (if is_some inc && is_nil r then JNull else JArr r)","C94: an empty set is written as null when something is included")
X("m723","Ser.v","dict_ser","            | Some l => d <- pairs_js f inc exc (fun a => z_key k a x) (fun e i e' => z_js s e i e' x) (items l) ;; ret (JObj d)","            | Some l => d <- pairs_js f inc exc (fun a => z_key k a x) (fun e i e' => if x_exclude_none x && is_py_none e then ret (JStr []) else z_js s e i e' x) (items l) ;; ret (JObj d)","C94: exclude_none blanks the values of dicts")
X("m725","SerBase.v","on_fallback","  | _ => if check_enabled (x_check x) then","  | _ => if check_enabled (x_check x) || x_round_trip x then","C94: round_trip raises where a warning is recorded")
X("m726","Ser.v","model_ser","            else if class_allows cls has_dict v x then i <- inner_value has_extra v x ;; z_js s i inc exc x\n            else fall_js L v inc exc x)","            else if class_allows cls has_dict v x && negb (x_exclude_unset x && is_none (get_attr E v dunder_fields_set)) then i <- inner_value has_extra v x ;; z_js s i inc exc x\n            else fall_js L v inc exc x)","C94: with exclude_unset an instance without a set of fields set is written by inference, with a warning")

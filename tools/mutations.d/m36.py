X("m745","Assign.v","model_fields_assign","    | (VOk w, s') => done w s'\n","    | (VOk w, s') => done value s'\n","C97: the raw value is stored instead of the validated one")
X("m746","Assign.v","model_fields_assign","          | None => done value s\n          end\n      | _ => (VErr","          | None => done value s\n          end\n      | ExtraIgnore => done value s\n      | _ => (VErr","C97/C40: with extra=ignore an unknown attribute is stored")
X("m747","Assign.v","split_fields","split_fields fs' (dict_del (PStr (f_name f)) d) (dict_set (PStr (f_name f)) v non_extra)","split_fields fs' d (dict_set (PStr (f_name f)) v non_extra)","C97/C40: fields are also left in the extras")
X("m748","Assign.v","model_assign","Some e => dict_update e (mi_dict m) | None","Some e => e | None","C97/C40: with extras the fields are forgotten on assignment")
X("m749","Assign.v","model_fields_assign","          | Some v => prepare (rebind (set_data (Some data)) s (v (IPy value)))","          | Some v => done value s","C97: assigned extras are not validated")
X("m750","Assign.v","model_assign","{| mi_dict := dict_set (PStr root_name) w (mi_dict m)","{| mi_dict := dict_set (PStr root_name) value (mi_dict m)","C97: the root value is stored unvalidated")
X("m751","Assign.v","model_fields_assign","PDict rest; PSet [PStr name]]","PDict rest; PSet [PStr name; PStr (lit \"x\")]]","C97/C40: assignment marks an attribute that is not there")

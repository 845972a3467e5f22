X("m260","Assign.v","model_fields_assign","let data := dict_del (PStr name) d in","let data := d in","C40: the validator sees the raw new value among the data")
X("m261","Assign.v","model_fields_assign","if f_frozen f then (VErr (LineErrors [new_error_loc EFrozenField (IPy value) (LStr name)]), d, s)\n      else\n        prepare","if false then (VErr (LineErrors [new_error_loc EFrozenField (IPy value) (LStr name)]), d, s)\n      else\n        prepare","C40: frozen fields assigned")
X("m262","Assign.v","model_fields_assign","| _ => (VOk (PTuple [PDict d1; PNone; PSet [PStr name]]), d1, s)","| _ => (VOk (PTuple [PDict d; PNone; PSet [PStr name]]), d1, s)","C40: raw value stored instead of the validated one")
X("m263","Assign.v","model_assign","| (VErr e, _, s') => (VErr e, m, s')\n    | (VOk out, _, s') =>\n        match extract_output","| (VErr e, d', s') => (VErr e, {| mi_dict := d'; mi_extra := mi_extra m; mi_set := mi_set m |}, s')\n    | (VOk out, _, s') =>\n        match extract_output","C40: dict not copied, raw value stays after failure")
X("m264","Assign.v","model_assign","mi_set := Some (PSet (fold_left (fun a x => set_add x a) l old))","mi_set := Some (PSet l)","C40: fields_set replaced")
X("m265","Assign.v","model_assign","Some e => dict_update e (mi_dict m)","Some e => mi_dict m","C40: extras dropped on assignment")
X("m266","Assign.v","split_fields","split_fields fs' (dict_del (PStr (f_name f)) d)","split_fields fs' d","C40: fields duplicated in the extras")
X("m267","Assign.v","model_fields_assign","prepare (rebind (set_data (Some data)) s (v (IPy value)))","done value s","C40: extras schema ignored on assignment")
X("m268","Assign.v","model_fields_assign","(VErr (with_outer_err (LStr name) e), d, s')\n    end in\n  match find","(VErr e, d, s')\n    end in\n  match find","C40: errors not located at the field")
X("m269","Assign.v","dataclass_assign","{| di_attrs := dict_set (PStr name) w (di_attrs o) |}","{| di_attrs := dict_set (PStr name) value (di_attrs o) |}","C40: slots store the raw value")
X("m270","Assign.v","dataclass_assign","if frozen then (val_err EFrozenInstance (IPy value), o, s)\n  else\n    match dataclass_to_dict","if frozen then (val_err EFrozenInstance (IPy value), {| di_attrs := dict_set (PStr name) value (di_attrs o) |}, s)\n  else\n    match dataclass_to_dict","C40: frozen dataclass changed")
X("m271","Assign.v","dataclass_args_assign","set_data (Some (dict_del (PStr name) d)) x","set_data (Some d) x","C40: dataclass validator sees the raw value")
X("m272","Assign.v","model_assign","if negb (str_eqb name root_name) then","if false then","C40: any attribute name assigns the root")
X("m273","Assign.v","model_fields_assign","| None => done value s","| None => (VErr (LineErrors [new_error_loc ENoSuchAttribute (IPy value) (LStr name)]), d, s)","C40: extras without schema refused")

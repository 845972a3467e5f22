X("m766","Assign.v","model_fields_assign","match find (fun f => str_eqb (f_name f) name) (fc_fields c) with\n  | Some f =>\n      if f_frozen f then (VErr (LineErrors [new_error_loc EFrozenField (IPy value) (LStr name)]), d, s)\n      else\n        prepare","match find (fun f => str_eqb (f_name f) name) (fc_fields c) with\n  | Some f =>\n      if f_frozen f && negb (f_required f) then (VErr (LineErrors [new_error_loc EFrozenField (IPy value) (LStr name)]), d, s)\n      else\n        prepare","C99: a required frozen field can be assigned")
X("m767","Assign.v","dataclass_assign","then\n                  match dict_get (PStr name) d with\n                  | Some w => (VOk tt, {| di_attrs := dict_set (PStr name) w (di_attrs o) |}, s')","then\n                  match dict_get (PStr name) d with\n                  | Some w => (VOk tt, {| di_attrs := dict_set (PStr name) value (di_attrs o) |}, s')","C99: with slots the raw value is stored")
X("m768","Assign.v","dataclass_args_assign","let d' := dict_set (PStr name) w d in (VOk (PTuple [PDict d'; PNone]), d', s) in","let d' := dict_set (PStr name) w [] in (VOk (PTuple [PDict d'; PNone]), d', s) in","C99: assigning a field of a dataclass drops the others")
X("m769","Assign.v","dataclass_assign","if frozen then (val_err EFrozenInstance (IPy value), o, s)","if frozen && negb slots then (val_err EFrozenInstance (IPy value), o, s)","C99: a frozen dataclass with slots can be assigned to")

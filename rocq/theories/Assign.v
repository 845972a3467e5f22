(** Model of validate_assignment (model_fields.rs:381-480, model.rs:184-240,
    dataclass.rs:373-437 and 583-620, function.rs:136-149 and 210-223).  Objects are
    returned as they are after the call, also after a failed one. *)
From Coq Require Import List NArith ZArith Bool.
From Verif Require Import Base Float64 Values VState LookupKey Collections Child Wrappers.
Import ListNotations.
Open Scope nat_scope.

Definition pydict := list (pyval * pyval).
(** [del d[k]], with the KeyError ignored; [d.update(e)]. *)
Fixpoint dict_del (k : pyval) (d : pydict) : pydict :=
  match d with [] => [] | (k', v) :: d' => if py_eq k' k then d' else (k', v) :: dict_del k d' end.
Definition dict_update (e d : pydict) : pydict := fold_left (fun d kv => dict_set (fst kv) (snd kv) d) e d.

(** A validator's [validate_assignment(obj, field_name, field_value)] where [obj] is a
    dict: the result, and the dict afterwards. *)
Definition dict_assigner := pydict -> str -> pyval -> state -> vres pyval * pydict * state.

(** model_fields.rs:454-473: the fields are moved out of [new_data] one by one; the rest
    are the extras. *)
Fixpoint split_fields (fs : list field) (d non_extra : pydict) : pydict * pydict :=
  match fs with
  | [] => (d, non_extra)
  | f :: fs' =>
      match dict_get (PStr (f_name f)) d with
      | Some v => split_fields fs' (dict_del (PStr (f_name f)) d) (dict_set (PStr (f_name f)) v non_extra)
      | None => split_fields fs' d non_extra
      end
  end.

(** model_fields.rs:381-480. *)
Definition model_fields_assign (c : fields_cfg) : dict_assigner := fun d name value s =>
  let data := dict_del (PStr name) d in
  let done (w : pyval) (s : state) : vres pyval * pydict * state :=
    let d1 := dict_set (PStr name) w d in
    match fc_extra c with
    | ExtraAllow =>
        let '(rest, fields) := split_fields (fc_fields c) d1 [] in
        (VOk (PTuple [PDict fields; PDict rest; PSet [PStr name]]), fields, s)
    | _ => (VOk (PTuple [PDict d1; PNone; PSet [PStr name]]), d1, s)
    end in
  let prepare (r : vres pyval * state) : vres pyval * pydict * state :=
    match r with
    | (VOk w, s') => done w s'
    | (VErr e, s') => (VErr (with_outer_err (LStr name) e), d, s')
    end in
  match find (fun f => str_eqb (f_name f) name) (fc_fields c) with
  | Some f =>
      if f_frozen f then (VErr (LineErrors [new_error_loc EFrozenField (IPy value) (LStr name)]), d, s)
      else
        prepare (rebind (set_data (Some data)) s (fun s1 => rebind (set_field_name (Some (f_name f))) s1 (cv_validate (f_cv f) (IPy value))))
  | None =>
      match fc_extra c with
      | ExtraAllow =>
          match fc_extras c with
          | Some v => prepare (rebind (set_data (Some data)) s (v (IPy value)))
          | None => done value s
          end
      | _ => (VErr (LineErrors [new_error_loc ENoSuchAttribute (IPy value) (LStr name)]), d, s)
      end
  end.

(** A model instance: __dict__, __pydantic_extra__, __pydantic_fields_set__ (if the
    attribute exists). *)
Record minst := { mi_dict : pydict; mi_extra : pyval; mi_set : option pyval }.

Definition root_name : str := lit "root".

(** [downcast::<PyDict>], [downcast::<PySet>]: subclasses are accepted. *)
Fixpoint as_dict (v : pyval) : option pydict := match v with PDict d => Some d | PSub _ v' => as_dict v' | _ => None end.
Fixpoint as_set (v : pyval) : option (list pyval) := match v with PSet l => Some l | PSub _ v' => as_set v' | _ => None end.

(** model.rs:220-224: [output.extract()]. *)
Definition extract_output (v : pyval) : option (pydict * pyval * list pyval) :=
  match v with
  | PTuple [d; e; st] => match as_dict d, as_set st with Some d, Some l => Some (d, e, l) | _, _ => None end
  | _ => None
  end.

Definition type_error : verror := InternalErr XTypeError.

(** model.rs:184-240, for an inner validator whose [validate_assignment] is [inner] (and
    whose [validate] is [root], for root models). *)
Definition model_assign (frozen root_model : bool) (root : validator) (inner : dict_assigner)
    (m : minst) (name : str) (value : pyval) (s : state) : vres unit * minst * state :=
  if frozen then (val_err EFrozenInstance (IPy value), m, s)
  else if root_model then
    if negb (str_eqb name root_name) then (VErr (LineErrors [new_error_loc ENoSuchAttribute (IPy value) (LStr name)]), m, s)
    else
      match rebind (set_field_name (Some root_name)) s (root (IPy value)) with
      | (VOk w, s') => (VOk tt, {| mi_dict := dict_set (PStr root_name) w (mi_dict m); mi_extra := mi_extra m; mi_set := mi_set m |}, s')
      | (VErr e, s') => (VErr e, m, s')
      end
  else
    let input_dict := match as_dict (mi_extra m) with Some e => dict_update e (mi_dict m) | None => mi_dict m end in
    let input_dict := dict_set (PStr name) value input_dict in
    match inner input_dict name value s with
    | (VErr e, _, s') => (VErr e, m, s')
    | (VOk out, _, s') =>
        match extract_output out with
        | None => (VErr type_error, m, s')
        | Some (d, e, l) =>
            match mi_set m with
            | Some fs =>
                match as_set fs with
                | None => (VErr type_error, m, s')
                | Some old => (VOk tt, {| mi_dict := d; mi_extra := e; mi_set := Some (PSet (fold_left (fun a x => set_add x a) l old)) |}, s')
                end
            | None => (VOk tt, {| mi_dict := d; mi_extra := e; mi_set := None |}, s')
            end
        end
    end.

(** function.rs:210-223 around a model: the function is called with the model as the
    inner assignment left it.  [f] says whether it raises. *)
Definition model_assign_after (f : minst -> option pyexc) (shown : minst -> pyval)
    (inner : minst -> str -> pyval -> state -> vres unit * minst * state) (m : minst) (name : str) (value : pyval) (s : state)
  : vres unit * minst * state :=
  match inner m name value s with
  | (VOk tt, m', s') =>
      match f m' with
      | Some x => (VErr (convert_err x (IPy (shown m'))), m', s')
      | None => (VOk tt, m', s')
      end
  | r => r
  end.

(** function.rs:136-149 and 210-223 between a model and its fields: functions on the
    dict before, on the result after. *)
Definition dict_assign_before (f : pyfun) (own : option str) (inner : dict_assigner) : dict_assigner := fun d name value s =>
  match call_fun f own (PDict d) (IPy (PDict d)) s with
  | VOk v => match as_dict v with Some d' => let '(r, _, s') := inner d' name value s in (r, d, s') | None => (VErr type_error, d, s) end
  | VErr e => (VErr e, d, s)
  end.
Definition dict_assign_after (f : pyfun) (own : option str) (inner : dict_assigner) : dict_assigner := fun d name value s =>
  match inner d name value s with
  | (VOk v, d', s') => (call_fun f own v (IPy (PDict d)) s', d', s')
  | r => r
  end.

(** A dataclass instance: its own attributes (in __dict__ or in slots); [class_attr]
    are the attributes found on the class. *)
Record dinst := { di_attrs : pydict }.
Definition dc_getattr (class_attr : str -> option pyval) (o : dinst) (n : str) : option pyval :=
  match dict_get (PStr n) (di_attrs o) with Some v => Some v | None => class_attr n end.

(** dataclass.rs:644-652 [dataclass_to_dict]. *)
Fixpoint dataclass_to_dict (class_attr : str -> option pyval) (fields : list str) (o : dinst) (d : pydict) : option pydict :=
  match fields with
  | [] => Some d
  | n :: fs => match dc_getattr class_attr o n with Some v => dataclass_to_dict class_attr fs o (dict_set (PStr n) v d) | None => None end
  end.

(** dataclass.rs:373-437. *)
Definition dataclass_args_assign (c : fields_cfg) : dict_assigner := fun d name value s =>
  let ok (w : pyval) (s : state) := let d' := dict_set (PStr name) w d in (VOk (PTuple [PDict d'; PNone]), d', s) in
  match find (fun f => str_eqb (f_name f) name) (fc_fields c) with
  | Some f =>
      if f_frozen f then (VErr (LineErrors [new_error_loc EFrozenField (IPy value) (LStr name)]), d, s)
      else
        match rebind (fun x => set_field_name (Some (f_name f)) (set_data (Some (dict_del (PStr name) d)) x)) s (cv_validate (f_cv f) (IPy value)) with
        | (VOk w, s') => ok w s'
        | (VErr e, s') => (VErr (with_outer_err (LStr name) e), d, s')
        end
  | None =>
      match fc_extra c with
      | ExtraAllow => ok value s
      | _ => (VErr (LineErrors [new_error_loc ENoSuchAttribute (IPy value) (LStr name)]), d, s)
      end
  end.

Definition extract_pair (v : pyval) : option pydict := match v with PTuple [d; _] => as_dict d | _ => None end.

(** dataclass.rs:583-620. *)
Definition dataclass_assign (frozen slots : bool) (fields : list str) (class_attr : str -> option pyval) (inner : dict_assigner)
    (o : dinst) (name : str) (value : pyval) (s : state) : vres unit * dinst * state :=
  if frozen then (val_err EFrozenInstance (IPy value), o, s)
  else
    match dataclass_to_dict class_attr fields o [] with
    | None => (VErr (InternalErr XAttributeError), o, s)
    | Some d0 =>
        match inner (dict_set (PStr name) value d0) name value s with
        | (VErr e, _, s') => (VErr e, o, s')
        | (VOk out, _, s') =>
            match extract_pair out with
            | None => (VErr type_error, o, s')
            | Some d =>
                if slots then
                  match dict_get (PStr name) d with
                  | Some w => (VOk tt, {| di_attrs := dict_set (PStr name) w (di_attrs o) |}, s')
                  | None => (VErr (InternalErr (XOther 2)), o, s')
                  end
                else (VOk tt, {| di_attrs := d |}, s')
            end
        end
    end.

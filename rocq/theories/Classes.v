(** Model of the validators of model and dataclass classes: instances, revalidation,
    construction (src/validators/model.rs:112-182 and 243-352,
    src/validators/dataclass.rs:519-572 and 623-690), and of is_instance.rs.
    Simplifications: creating an empty instance ([tp_new]) and setting its attributes
    does not raise; a class has no attributes of its own; the attribute
    __pydantic_private__ (always None here) is left out. *)
From Coq Require Import List NArith ZArith Bool.
From Verif Require Import Base Float64 Values VState LookupKey Collections Child Inputs Wrappers Assign.
Import ListNotations.
Open Scope nat_scope.

(** model.rs:26-51 [Revalidate]. *)
Inductive revalidate := RAlways | RNever | RSubclassInstances.

(** model.rs:20-24. *)
Definition dunder_dict : str := lit "__dict__".
Definition dunder_fields_set : str := lit "__pydantic_fields_set__".
Definition dunder_extra : str := lit "__pydantic_extra__".

Definition class_of (v : pyval) : option N := match v with PObj c _ | PSub c _ => Some c | _ => None end.
(** [getattr(v, name)] on the attributes of an instance. *)
Definition inst_attr (v : pyval) (name : str) : vres pyval :=
  match v with
  | PObj _ attrs => match assoc name attrs with Some x => VOk x | None => VErr (InternalErr XAttributeError) end
  | _ => VErr (InternalErr XAttributeError)
  end.

(** A model instance (model.rs:336-352 [set_model_attrs]) and a root model instance
    (287-298). *)
Definition model_inst (cls : N) (d extra fields_set : pyval) : pyval :=
  PObj cls [(dunder_dict, d); (dunder_extra, extra); (dunder_fields_set, fields_set)].
Definition root_inst (cls : N) (root fields_set : pyval) : pyval :=
  PObj cls [(dunder_fields_set, fields_set); (root_name, root)].
(** A dataclass instance: a dict or slots with the fields. *)
Definition attrs_of (d : pydict) : list (str * pyval) :=
  flat_map (fun kv => match as_str (fst kv) with Some k => [(k, snd kv)] | None => [] end) d.

Section Classes.
(** [issubclass(c, d)] for user classes. *)
Variable subclass : N -> N -> bool.

Definition is_instance (v : pyval) (cls : N) : bool := match class_of v with Some c => subclass c cls | None => false end.
Definition exact_instance (v : pyval) (cls : N) : bool := match class_of v with Some c => N.eqb c cls | None => false end.
(** model.rs:44-50. *)
Definition should_revalidate (r : revalidate) (v : pyval) (cls : N) : bool :=
  match r with RAlways => true | RNever => false | RSubclassInstances => negb (exact_instance v cls) end.

(** model.rs:125-146, dataclass.rs:531-549: the instance to use, and whether it must be
    revalidated because only its generic origin matches. *)
Definition instance_input (cls : N) (origin : option N) (i : input) : option (pyval * bool) :=
  match i with
  | IPy v =>
      if is_instance v cls then Some (v, false)
      else match origin with Some g => if is_instance v g then Some (v, true) else None | None => None end
  | _ => None
  end.

(** input_python.rs:95-97, input_json.rs:61-74 and 384-386, input_string.rs:78-80. *)
Definition as_kwargs (i : input) : option pydict :=
  match i with
  | IPy v => as_dict v
  | IJson (JObj l) => match json_to_py (JObj l) with PDict d => Some d | _ => None end
  | _ => None
  end.

(** [custom_init] is [cls( **kwargs)]; [post_init] returns the instance after its own
    changes. *)
Record model_cfg := {
  mo_cls : N; mo_origin : option N; mo_revalidate : revalidate; mo_root : bool;
  mo_custom_init : option (pydict -> pyval + pyexc); mo_post_init : option (pyval -> pyval + pyexc) }.

(** model.rs:320-333 [call_post_init]. *)
Definition call_post_init (f : option (pyval -> pyval + pyexc)) (inst : pyval) (i : input) : vres pyval :=
  match f with
  | None => VOk inst
  | Some f => match f inst with inl v => VOk v | inr e => VErr (convert_err e i) end
  end.

(** model.rs:292-299: fields_set of a root model. *)
Definition root_fields_set (i : input) : pyval := PSet (if is_undefined i then [] else [PStr root_name]).

(** What the attributes of the new instance are, from the output of the inner
    validator: model.rs:305-312. *)
Definition build_model (c : model_cfg) (existing : option pyval) (out : pyval) : vres pyval :=
  match out with
  | PTuple [d; e; fs] => VOk (model_inst (mo_cls c) d e (unwrap_or existing fs))
  | _ => VErr type_error
  end.

(** model.rs:271-318 [validate_construct]. *)
Definition model_construct (c : model_cfg) (inner : validator) (i : input) (existing : option pyval) (s : state) : vres pyval * state :=
  match match mo_custom_init c with Some f => match as_kwargs i with Some kw => Some (f kw) | None => None end | None => None end with
  | Some (inl v) => (VOk v, s)
  | Some (inr e) => (VErr (convert_err e i), s)
  | None =>
      if mo_root c then
        match rebind (set_field_name (Some root_name)) s (inner i) with
        | (VErr e, s') => (VErr e, s')
        | (VOk out, s') => (call_post_init (mo_post_init c) (root_inst (mo_cls c) out (root_fields_set i)) i, s')
        end
      else
        match inner i s with
        | (VErr e, s') => (VErr e, s')
        | (VOk out, s') =>
            (match build_model c existing out with VOk inst => call_post_init (mo_post_init c) inst i | VErr e => VErr e end, s')
        end
  end.

(** model.rs:150-172: the data of an instance to revalidate. *)
Definition model_data (root : bool) (v : pyval) : vres pyval :=
  if root then inst_attr v root_name
  else
    match inst_attr v dunder_dict, inst_attr v dunder_extra with
    | VOk d, VOk PNone => VOk d
    | VOk d, VOk e =>
        match as_dict d, as_dict e with
        | Some d, Some e => VOk (PDict (dict_update e d))
        | _, _ => VErr type_error
        end
    | VErr e, _ | _, VErr e => VErr e
    end.

(** model.rs:112-182 [validate], called outside of a class's own __init__. *)
Definition model_validate (c : model_cfg) (inner : validator) : validator := fun i s =>
  match instance_input (mo_cls c) (mo_origin c) i with
  | Some (v, force) =>
      if should_revalidate (mo_revalidate c) v (mo_cls c) || force then
        match inst_attr v dunder_fields_set with
        | VErr e => (VErr e, s)
        | VOk fs =>
            match model_data (mo_root c) v with
            | VErr e => (VErr e, s)
            | VOk d => model_construct c inner (IPy d) (Some fs) s
            end
        end
      else (VOk v, s)
  | None => model_construct c inner i None (floor_exactness Strict s)
  end.

(** model.rs:248-269 [validate_init]: validation called by the __init__ of a class with
    the new instance, whose attributes are set.  The instance before is irrelevant. *)
Definition model_init (c : model_cfg) (inner : validator) : validator := fun i s =>
  if mo_root c then
    match rebind (set_field_name (Some root_name)) s (inner i) with
    | (VErr e, s') => (VErr e, s')
    | (VOk out, s') => (call_post_init (mo_post_init c) (root_inst (mo_cls c) out (root_fields_set i)) i, s')
    end
  else
    match inner i s with
    | (VErr e, s') => (VErr e, s')
    | (VOk out, s') =>
        (match build_model c None out with VOk inst => call_post_init (mo_post_init c) inst i | VErr e => VErr e end, s')
    end.

(** Dataclasses.  [__post_init__] gets the init-only values. *)
Record dataclass_cfg := {
  da_cls : N; da_origin : option N; da_revalidate : revalidate; da_strict : bool; da_names : list str; da_slots : bool;
  da_post_init : option (pyval -> list pyval -> pyval + pyexc) }.

(** dataclass.rs:641-649. *)
Fixpoint inst_to_dict (names : list str) (v : pyval) (d : pydict) : vres pydict :=
  match names with
  | [] => VOk d
  | n :: names' => match inst_attr v n with VOk x => inst_to_dict names' v (dict_set (PStr n) x d) | VErr e => VErr e end
  end.

(** dataclass.rs:651-681 [set_dict_call]: the instance, then __post_init__.  Slots and
    dict attributes are alike in the model. *)
Definition set_dict_call (c : dataclass_cfg) (out : pyval) (i : input) : vres pyval :=
  match out with
  | PTuple [d; kw] =>
      match as_dict d with
      | None => VErr type_error
      | Some d =>
          let inst := PObj (da_cls c) (attrs_of d) in
          match da_post_init c with
          | None => VOk inst
          | Some f =>
              match kw with
              | PNone => match f inst [] with inl v => VOk v | inr e => VErr (convert_err e i) end
              | PTuple l => match f inst l with inl v => VOk v | inr e => VErr (convert_err e i) end
              | _ => VErr type_error
              end
          end
      end
  | _ => VErr type_error
  end.

(** dataclass.rs:519-572 [validate].  [EOther 2] is dataclass_exact_type. *)
Definition dataclass_validate (c : dataclass_cfg) (inner : validator) : validator := fun i s =>
  match instance_input (da_cls c) (da_origin c) i with
  | Some (v, force) =>
      if should_revalidate (da_revalidate c) v (da_cls c) || force then
        match inst_to_dict (da_names c) v [] with
        | VErr e => (VErr e, s)
        | VOk d =>
            match inner (IPy (PDict d)) s with
            | (VErr e, s') => (VErr e, s')
            | (VOk out, s') => (set_dict_call c out i, s')
            end
        end
      else (VOk v, s)
  | None =>
      if strict_or s (da_strict c) && match x_input_type (st_extra s) with ITPython => true | _ => false end
      then (val_err (EOther 2) i, s)
      else
        match inner i s with
        | (VErr e, s') => (VErr e, s')
        | (VOk out, s') => (set_dict_call c out i, floor_exactness Strict s')
        end
  end.

(** is_instance.rs:49-77.  [EOther 1] is needs_python_object. *)
Definition is_instance_validate (cls : N) : validator := fun i s =>
  match i with
  | IPy v => if is_instance v cls then (VOk v, s) else (val_err EIsInstance i, s)
  | _ => (val_err (EOther 1) i, s)
  end.
End Classes.

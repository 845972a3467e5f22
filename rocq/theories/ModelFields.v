(** Model of src/validators/model_fields.rs: validation of a model's fields. *)
From Coq Require Import List NArith ZArith Bool.
From Verif Require Import Base Float64 Values VState LookupKey Collections Child.
Import ListNotations.
Open Scope nat_scope.

(** The local variables of [validate]: model_dict, errors, fields_set_vec and
    used_keys ([fields_set_count] is the length of [fields_set_vec] when the field
    loop ends). *)
Record facc := { fa_dict : list (pyval * pyval); fa_errors : list line_error; fa_set : list str; fa_used : list str }.
Definition fa_init : facc := {| fa_dict := []; fa_errors := []; fa_set := []; fa_used := [] |}.
Definition fa_add_errors (es : list line_error) (a : facc) : facc :=
  {| fa_dict := fa_dict a; fa_errors := fa_errors a ++ es; fa_set := fa_set a; fa_used := fa_used a |}.
Definition fa_use (k : str) (a : facc) : facc :=
  {| fa_dict := fa_dict a; fa_errors := fa_errors a; fa_set := fa_set a; fa_used := k :: fa_used a |}.
Definition fa_put (k : str) (v : pyval) (a : facc) : facc :=
  {| fa_dict := dict_set (PStr k) v (fa_dict a); fa_errors := fa_errors a; fa_set := fa_set a; fa_used := fa_used a |}.
Definition fa_mark (k : str) (a : facc) : facc :=
  {| fa_dict := fa_dict a; fa_errors := fa_errors a; fa_set := fa_set a ++ [k]; fa_used := fa_used a |}.

(** The schema error raised by [select] when names and aliases are both disabled. *)
Definition schema_error : verror := InternalErr (XOther 1).

(** model_fields.rs:178-248: one field after the other.  [model_dict] is shared with
    [extra.data], so a validator sees the fields before it. *)
Fixpoint fields_loop (c : fields_cfg) (md : mdict) (i : input) (by_alias by_name : bool)
    (fs : list field) (a : facc) (s : state) : vres facc * state :=
  match fs with
  | [] => (VOk a, s)
  | f :: fs' =>
      let s := set_extra (set_data (Some (fa_dict a)) (st_extra s)) s in
      match collection_select (f_keys f) by_alias by_name with
      | BErr => (VErr schema_error, s)
      | BOk key =>
          match md_get md key with
          | VErr (LineErrors es) => fields_loop c md i by_alias by_name fs' (fa_add_errors (map (with_outer (LStr (f_name f))) es) a) s
          | VErr e => (VErr e, s)
          | VOk (Some (path, value)) =>
              let a := fa_use (lp_first path) a in
              match rebind (set_field_name (Some (f_name f))) s (cv_validate (f_cv f) value) with
              | (VOk v, s') => fields_loop c md i by_alias by_name fs' (fa_mark (f_name f) (fa_put (f_name f) v a)) s'
              | (VErr Omit, s') => fields_loop c md i by_alias by_name fs' a s'
              | (VErr (LineErrors es), s') =>
                  fields_loop c md i by_alias by_name fs'
                    (fa_add_errors (map (fun e => apply_error_loc path e (fc_loc_by_alias c) (f_name f)) es) a) s'
              | (VErr e, s') => (VErr e, s')
              end
          | VOk None =>
              match cv_default (f_cv f) (Some (LStr (f_name f))) s with
              | (VOk (Some v), s') => fields_loop c md i by_alias by_name fs' (fa_put (f_name f) v a) s'
              | (VOk None, s') =>
                  match key_error key EMissing i (fc_loc_by_alias c) (f_name f) with
                  | None => (VErr Panic, s')
                  | Some e => fields_loop c md i by_alias by_name fs' (fa_add_errors [e] a) s'
                  end
              | (VErr Omit, s') => fields_loop c md i by_alias by_name fs' a s'
              | (VErr (LineErrors es), s') => fields_loop c md i by_alias by_name fs' (fa_add_errors es a) s'
              | (VErr e, s') => (VErr e, s')
              end
          end
      end
  end.

(** model_fields.rs:268-344 [ValidateToModelExtra::consume_iterator]: the extra dict,
    the errors, the names set. *)
Fixpoint extras_loop (c : fields_cfg) (used : list str) (es : list entry)
    (out : list (pyval * pyval)) (errors : list line_error) (fset : list str) (s : state)
  : vres (list (pyval * pyval) * list line_error * list str) * state :=
  match es with
  | [] => (VOk (out, errors, fset), s)
  | BadEntry e :: _ => (VErr e, s)
  | Entry key kloc value :: es' =>
      match key_str key with
      | VErr (LineErrors l) =>
          extras_loop c used es' out (errors ++ map (fun e => set_type EInvalidKey (with_outer kloc e)) l) fset s
      | VErr e => (VErr e, s)
      | VOk k =>
          if mem_str k used then extras_loop c used es' out errors fset s
          else
            match fc_extra c with
            | ExtraForbid => extras_loop c used es' out (errors ++ [new_error_loc EExtraForbidden value kloc]) fset s
            | ExtraIgnore => extras_loop c used es' out errors fset s
            | ExtraAllow =>
                let with_key (py_key : str) (s : state) :=
                  match fc_extras c with
                  | Some v =>
                      match v value s with
                      | (VOk x, s') => extras_loop c used es' (dict_set (PStr py_key) x out) errors (fset ++ [py_key]) s'
                      | (VErr (LineErrors l), s') => extras_loop c used es' out (errors ++ map (with_outer kloc) l) fset s'
                      | (VErr e, s') => (VErr e, s')
                      end
                  | None => extras_loop c used es' (dict_set (PStr py_key) (input_object value) out) errors (fset ++ [py_key]) s
                  end in
                match fc_extras_keys c with
                | Some v =>
                    match v key s with
                    | (VOk x, s') => match as_str x with Some k' => with_key k' s' | None => (VErr (InternalErr XTypeError), s') end
                    | (VErr (LineErrors l), s') => extras_loop c used es' out (errors ++ map (with_outer kloc) l) fset s'
                    | (VErr e, s') => (VErr e, s')
                    end
                | None => with_key k s
                end
            end
      end
  end.

(** [PySet::new] of names. *)
Definition name_set (l : list str) : list pyval := fold_left (fun s k => set_add (PStr k) s) l [].

(** model_fields.rs:139-156: DictType errors become ModelType errors. *)
Definition model_type_errors (es : list line_error) : list line_error :=
  map (fun e => match le_type e with EDictType => set_type EModelType e | _ => e end) es.

(** model_fields.rs:124-379 [validate], from [input.validate_model_fields] on. *)
Definition model_fields_validate (c : fields_cfg) (validate_model_fields : bool -> bool -> input -> vres mdict)
    (i : input) (s : state) : vres pyval * state :=
  let s := set_partial PartialOff s in
  match validate_model_fields (strict_or s (fc_strict c)) (unwrap_or (x_from_attributes (st_extra s)) (fc_from_attributes c)) i with
  | VErr (LineErrors es) => (VErr (LineErrors (model_type_errors es)), s)
  | VErr e => (VErr e, s)
  | VOk md =>
      let by_alias := validate_by_alias_or s (fc_by_alias c) in
      let by_name := validate_by_name_or s (fc_by_name c) in
      match rebind (set_data (Some [])) s (fields_loop c md i by_alias by_name (fc_fields c) fa_init) with
      | (VErr e, s') => (VErr e, s')
      | (VOk a, s') =>
          let count := length (fa_set a) in
          let finish (extra_dict : option (list (pyval * pyval))) (errors : list line_error) (fset : list str) (s' : state) :=
            if is_nil errors then
              (VOk (PTuple [PDict (fa_dict a);
                            match fc_extra c with ExtraAllow => PDict (unwrap_or extra_dict []) | _ => PNone end;
                            PSet (name_set fset)]),
               add_fields_set count s')
            else (VErr (LineErrors errors), s') in
          if extra_behavior_eqb (fc_extra c) ExtraIgnore || md_is_attr md then finish None (fa_errors a) (fa_set a) s'
          else
            match md_iter md with
            | VErr e => (VErr e, s')
            | VOk es =>
                match extras_loop c (fa_used a) es [] (fa_errors a) (fa_set a) s' with
                | (VErr e, s'') => (VErr e, s'')
                | (VOk (out, errors, fset), s'') => finish (Some out) errors fset s''
                end
            end
      end
  end.

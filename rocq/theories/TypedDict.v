(** Model of src/validators/typed_dict.rs. *)
From Coq Require Import List NArith ZArith Bool.
From Verif Require Import Base Float64 Values VState LookupKey Collections Child ModelFields.
Import ListNotations.
Open Scope nat_scope.

Definition last_is (last : option loc_item) (l : loc_item) : bool :=
  match last with Some k => loc_item_eqb k l | None => false end.

(** typed_dict.rs:183-266: one field after the other.  [last] is partial_last_key,
    [p] the caller's allow_partial. *)
Fixpoint td_loop (c : fields_cfg) (md : mdict) (i : input) (last : option loc_item) (p : partial_mode) (by_alias by_name : bool)
    (fs : list field) (a : facc) (s : state) : vres facc * state :=
  match fs with
  | [] => (VOk a, s)
  | f :: fs' =>
      let s := set_extra (set_data (Some (fa_dict a)) (st_extra s)) s in
      match collection_select (f_keys f) by_alias by_name with
      | BErr => (VErr schema_error, s)
      | BOk key =>
          match md_get md key with
          | VErr (LineErrors es) =>
              td_loop c md i last p by_alias by_name fs'
                (if last_is last (LStr (f_name f)) then fa_add_errors (map (with_outer (LStr (f_name f))) es) a else a) s
          | VErr e => (VErr e, s)
          | VOk (Some (path, value)) =>
              let a := fa_use (lp_first path) a in
              let is_last_partial := last_is last (LStr (lp_first path)) in
              let s := set_partial (if is_last_partial then p else PartialOff) s in
              match rebind (set_field_name (Some (f_name f))) s (cv_validate (f_cv f) value) with
              | (VOk v, s') => td_loop c md i last p by_alias by_name fs' (fa_mark (f_name f) (fa_put (f_name f) v a)) s'
              | (VErr Omit, s') => td_loop c md i last p by_alias by_name fs' a s'
              | (VErr (LineErrors es), s') =>
                  td_loop c md i last p by_alias by_name fs'
                    (if negb is_last_partial || f_required f
                     then fa_add_errors (map (fun e => apply_error_loc path e (fc_loc_by_alias c) (f_name f)) es) a else a) s'
              | (VErr e, s') => (VErr e, s')
              end
          | VOk None =>
              match cv_default (f_cv f) (Some (LStr (f_name f))) s with
              | (VOk (Some v), s') => td_loop c md i last p by_alias by_name fs' (fa_put (f_name f) v a) s'
              | (VOk None, s') =>
                  if f_required f then
                    match key_error key EMissing i (fc_loc_by_alias c) (f_name f) with
                    | None => (VErr Panic, s')
                    | Some e => td_loop c md i last p by_alias by_name fs' (fa_add_errors [e] a) s'
                    end
                  else td_loop c md i last p by_alias by_name fs' a s'
              | (VErr Omit, s') => td_loop c md i last p by_alias by_name fs' a s'
              | (VErr (LineErrors es), s') => td_loop c md i last p by_alias by_name fs' (fa_add_errors es a) s'
              | (VErr e, s') => (VErr e, s')
              end
          end
      end
  end.

(** typed_dict.rs:288-353 [ValidateExtras::consume_iterator]: extras go into the same
    output dict. *)
Fixpoint td_extras (c : fields_cfg) (used : list str) (last : option loc_item) (p : partial_mode) (es : list entry)
    (out : list (pyval * pyval)) (errors : list line_error) (s : state)
  : vres (list (pyval * pyval) * list line_error) * state :=
  match es with
  | [] => (VOk (out, errors), s)
  | BadEntry e :: _ => (VErr e, s)
  | Entry key kloc value :: es' =>
      match key_str key with
      | VErr (LineErrors l) =>
          td_extras c used last p es' out (errors ++ map (fun e => set_type EInvalidKey (with_outer kloc e)) l) s
      | VErr e => (VErr e, s)
      | VOk k =>
          if mem_str k used then td_extras c used last p es' out errors s
          else
            match fc_extra c with
            | ExtraForbid => td_extras c used last p es' out (errors ++ [new_error_loc EExtraForbidden value kloc]) s
            | ExtraIgnore => td_extras c used last p es' out errors s
            | ExtraAllow =>
                match fc_extras c with
                | Some v =>
                    let last_partial := last_is last kloc in
                    match v value (set_partial (if last_partial then p else PartialOff) s) with
                    | (VOk x, s') => td_extras c used last p es' (dict_set (PStr k) x out) errors s'
                    | (VErr (LineErrors l), s') =>
                        td_extras c used last p es' out (if last_partial then errors else errors ++ map (with_outer kloc) l) s'
                    | (VErr e, s') => (VErr e, s')
                    end
                | None => td_extras c used last p es' (dict_set (PStr k) (input_object value) out) errors s
                end
            end
      end
  end.

(** typed_dict.rs:152-380 [validate]. *)
Definition typed_dict_validate (c : fields_cfg) (validate_dict : bool -> input -> vres mdict) (i : input) (s : state) : vres pyval * state :=
  match validate_dict (strict_or s (fc_strict c)) i with
  | VErr e => (VErr e, s)
  | VOk md =>
      let p := st_partial s in
      let last := if is_active p then md_last_key md else None in
      let by_alias := validate_by_alias_or s (fc_by_alias c) in
      let by_name := validate_by_name_or s (fc_by_name c) in
      match rebind (set_data (Some [])) s (fun s =>
              match td_loop c md i last p by_alias by_name (fc_fields c) fa_init s with
              | (VOk a, s') => (VOk a, add_fields_set (length (fa_set a)) s')
              | r => r
              end) with
      | (VErr e, s') => (VErr e, s')
      | (VOk a, s') =>
          let finish (out : list (pyval * pyval)) (errors : list line_error) (s' : state) :=
            if is_nil errors then (VOk (PDict out), s') else (VErr (LineErrors errors), s') in
          if extra_behavior_eqb (fc_extra c) ExtraIgnore || md_is_attr md then finish (fa_dict a) (fa_errors a) s'
          else
            match md_iter md with
            | VErr e => (VErr e, s')
            | VOk es =>
                match td_extras c (fa_used a) last p es (fa_dict a) (fa_errors a) s' with
                | (VErr e, s'') => (VErr e, s'')
                | (VOk (out, errors), s'') => finish out errors s''
                end
            end
      end
  end.

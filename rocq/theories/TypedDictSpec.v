(** What validating a TypedDict means; the outcomes are those of ModelFieldsSpec.v. *)
From Coq Require Import List NArith ZArith Bool.
From Verif Require Import Base Float64 Values VState LookupKey LookupKeySpec Collections CollectionsSpec Child ModelFieldsSpec.
Import ListNotations.
Open Scope nat_scope.

(** [l] is the last key of a partial input. *)
Definition is_last (last : option loc_item) (l : loc_item) : bool :=
  match last, l with
  | Some (LStr a), LStr b => str_eqb a b
  | Some (LInt a), LInt b => Z.eqb a b
  | _, _ => false
  end.

(** As for models, but a value found under the last key is validated in the partial
    mode [p]. *)
Definition td_look (md : mdict) (last : option loc_item) (p : partial_mode) (key : lookup_key) (f : field) (s : state) : outcome * state :=
  match md_get md key with
  | VErr e => (Unreadable e, s)
  | VOk (Some (path, x)) =>
      let '(r, s') := rebind (set_field_name (Some (f_name f)))
                        (set_partial (if is_last last (LStr (lp_first path)) then p else PartialOff) s) (cv_validate (f_cv f) x) in
      (Found path r, s')
  | VOk None => let '(r, s') := cv_default (f_cv f) (Some (LStr (f_name f))) s in (Absent key r, s')
  end.
Fixpoint td_trace (md : mdict) (last : option loc_item) (p : partial_mode) (key_of : field -> lookup_key)
    (done : list (field * outcome)) (fs : list field) (s : state) : list (field * outcome) * state :=
  match fs with
  | [] => ([], s)
  | f :: fs' =>
      let '(o, s1) := td_look md last p (key_of f) f (set_extra (set_data (Some (data_of done)) (st_extra s)) s) in
      let '(os, s2) := td_trace md last p key_of (done ++ [(f, o)]) fs' s1 in ((f, o) :: os, s2)
  end.

(** The errors a field contributes: those of an optional field at the last key are
    forgiven, only required fields can be missing, and a value that could not be read
    is reported for the last key only. *)
Definition td_field_errors (last : option loc_item) (loc_by_alias : bool) (i : input) (fo : field * outcome) : list line_error :=
  let f := fst fo in
  match snd fo with
  | Unreadable (LineErrors es) => if is_last last (LStr (f_name f)) then map (under [LStr (f_name f)]) es else []
  | Found p (VErr (LineErrors es)) =>
      if is_last last (LStr (lp_first p)) && negb (f_required f) then [] else map (under (field_loc loc_by_alias p (f_name f))) es
  | Absent key (VOk None) =>
      if f_required f then map (fun p => missing_error i (field_loc loc_by_alias p (f_name f))) (firstn 1 (paths_of key)) else []
  | Absent _ (VErr (LineErrors es)) => es
  | _ => []
  end.

(** Extra keys. *)
Definition td_extra_look (c : fields_cfg) (last : option loc_item) (p : partial_mode) (consumed : list str)
    (e : input * loc_item * input) (s : state) : eoutcome * state :=
  match key_str (fst (fst e)) with
  | VErr _ => (NotAString, s)
  | VOk k =>
      if mem_str k consumed then (Consumed, s)
      else
        match fc_extra c with
        | ExtraAllow =>
            let '(r, s2) := match fc_extras c with
                            | Some v => v (snd e) (set_partial (if is_last last (snd (fst e)) then p else PartialOff) s)
                            | None => (VOk (input_object (snd e)), s)
                            end in
            (Kept k r, s2)
        | _ => (Unknown, s)
        end
  end.
Fixpoint td_extra_trace (c : fields_cfg) (last : option loc_item) (p : partial_mode) (consumed : list str)
    (xs : list (input * loc_item * input)) (s : state) : list eoutcome * state :=
  match xs with
  | [] => ([], s)
  | x :: xs' => let '(o, s1) := td_extra_look c last p consumed x s in let '(os, s2) := td_extra_trace c last p consumed xs' s1 in (o :: os, s2)
  end.
Definition td_extra_errors (c : fields_cfg) (last : option loc_item) (xo : (input * loc_item * input) * eoutcome) : list line_error :=
  match xo with
  | ((_, kloc, _), Kept _ (VErr (LineErrors es))) => if is_last last kloc then [] else map (under [kloc]) es
  | _ => extra_errors c xo
  end.

(** [d] with these entries written over it. *)
Definition overwrite (d : list (pyval * pyval)) (kvs : list (str * pyval)) : list (pyval * pyval) :=
  fold_left (fun d kv => dict_set (PStr (fst kv)) (snd kv) d) kvs d.

(** The run of a TypedDict schema on an input. *)
Record td_run (c : fields_cfg) (vd : bool -> input -> vres mdict) (i : input) (s : state)
    (md : mdict) (last : option loc_item) (vs : list (field * outcome)) (xs : list (input * loc_item * input)) (os : list eoutcome) (s2 : state) : Prop := {
  td_input : vd (strict_or s (fc_strict c)) i = VOk md;
  td_last : last = if is_active (st_partial s) then md_last_key md else None;
  td_fields : exists key_of s1,
    good_fields c key_of (validate_by_alias_or s (fc_by_alias c)) (validate_by_name_or s (fc_by_name c)) /\
    td_trace md last (st_partial s) key_of [] (fc_fields c) (set_extra (set_data (Some []) (st_extra s)) s) = (vs, s1) /\
    let s1' := set_extra (st_extra s) (add_fields_set (length (found_names vs)) s1) in
    (if looks_at_extras c md then md_iter md = VOk (map to_entry xs) /\ td_extra_trace c last (st_partial s) (consumed vs) xs s1' = (os, s2)
     else xs = [] /\ os = [] /\ s2 = s1') }.
Definition td_errors (c : fields_cfg) (last : option loc_item) (i : input) vs xs os : list line_error :=
  flat_map (td_field_errors last (fc_loc_by_alias c) i) vs ++ flat_map (td_extra_errors c last) (combine xs os).

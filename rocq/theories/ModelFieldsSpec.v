(** What validating the fields of a model means. *)
From Coq Require Import List NArith ZArith Bool.
From Verif Require Import Base Float64 Values VState LookupKey LookupKeySpec Collections CollectionsSpec Child.
Import ListNotations.
Open Scope nat_scope.

(** What happened to one field: it could not be read, it was found at a path and
    validated, or it was absent under all its names and its default was asked for. *)
Inductive outcome :=
| Unreadable (e : verror)
| Found (p : lookup_path) (r : vres pyval)
| Absent (key : lookup_key) (r : vres (option pyval)).

Definition value_of (o : outcome) : option pyval :=
  match o with Found _ (VOk v) => Some v | Absent _ (VOk (Some v)) => Some v | _ => None end.
(** The name/value pairs of the fields visited so far, in order. *)
Definition data_of (vs : list (field * outcome)) : list (pyval * pyval) :=
  flat_map (fun fo => match value_of (snd fo) with Some v => [(PStr (f_name (fst fo)), v)] | None => [] end) vs.

(** Look one field up and validate it (or take its default). *)
Definition look (md : mdict) (key : lookup_key) (f : field) (s : state) : outcome * state :=
  match md_get md key with
  | VErr e => (Unreadable e, s)
  | VOk (Some (p, x)) => let '(r, s') := rebind (set_field_name (Some (f_name f))) s (cv_validate (f_cv f) x) in (Found p r, s')
  | VOk None => let '(r, s') := cv_default (f_cv f) (Some (LStr (f_name f))) s in (Absent key r, s')
  end.

(** All fields in schema order; each validator sees the data of the fields before. *)
Fixpoint fields_trace (md : mdict) (key_of : field -> lookup_key) (done : list (field * outcome)) (fs : list field) (s : state)
  : list (field * outcome) * state :=
  match fs with
  | [] => ([], s)
  | f :: fs' =>
      let '(o, s1) := look md (key_of f) f (set_extra (set_data (Some (data_of done)) (st_extra s)) s) in
      let '(os, s2) := fields_trace md key_of (done ++ [(f, o)]) fs' s1 in ((f, o) :: os, s2)
  end.

(** The field does not stop the model's validation. *)
Definition field_regular (fo : field * outcome) : Prop :=
  match snd fo with
  | Unreadable (LineErrors _) => True
  | Found _ (VOk _) | Found _ (VErr Omit) | Found _ (VErr (LineErrors _)) => True
  | Absent _ (VOk _) | Absent _ (VErr Omit) | Absent _ (VErr (LineErrors _)) => True
  | _ => False
  end.

(** Where a field's problems are reported: under the path at which it was found, or
    under the field name. *)
Definition field_loc (loc_by_alias : bool) (p : lookup_path) (name : str) : list loc_item :=
  if loc_by_alias then map to_loc_item (items p) else [LStr name].
Definition under (loc : list loc_item) (e : line_error) : line_error := fold_right with_outer e loc.
Definition missing_error (i : input) (loc : list loc_item) : line_error :=
  {| le_type := EMissing; le_loc := LRev (rev loc); le_input := i |}.

(** The errors a field contributes. *)
Definition field_errors (loc_by_alias : bool) (i : input) (fo : field * outcome) : list line_error :=
  let name := f_name (fst fo) in
  match snd fo with
  | Unreadable (LineErrors es) => map (under [LStr name]) es
  | Found p (VErr (LineErrors es)) => map (under (field_loc loc_by_alias p name)) es
  | Absent key (VOk None) =>
      map (fun p => missing_error i (field_loc loc_by_alias p name)) (firstn 1 (paths_of key))
  | Absent _ (VErr (LineErrors es)) => es
  | _ => []
  end.

Definition found_names (vs : list (field * outcome)) : list str :=
  flat_map (fun fo => match snd fo with Found _ (VOk _) => [f_name (fst fo)] | _ => [] end) vs.
(** The keys of the input that some field was found under. *)
Definition consumed (vs : list (field * outcome)) : list str :=
  flat_map (fun fo => match snd fo with Found p _ => [lp_first p] | _ => [] end) vs.

(** ** Extra keys *)
Inductive eoutcome :=
| NotAString                                   (* the key is not a string *)
| Consumed                                     (* a field was found under it *)
| Unknown                                      (* and not kept: extra is not "allow" *)
| KeyRejected (e : verror)                     (* by the extras_keys schema *)
| Kept (k : str) (r : vres pyval).             (* value kept, or rejected by the extras schema *)

Definition extra_look (c : fields_cfg) (consumed : list str) (e : input * loc_item * input) (s : state) : eoutcome * state :=
  match key_str (fst (fst e)) with
  | VErr _ => (NotAString, s)
  | VOk k =>
      if mem_str k consumed then (Consumed, s)
      else
        match fc_extra c with
        | ExtraAllow =>
            let '(rk, s1) := match fc_extras_keys c with Some v => v (fst (fst e)) s | None => (VOk (PStr k), s) end in
            match rk with
            | VErr e => (KeyRejected e, s1)
            | VOk kv =>
                match as_str kv with
                | None => (KeyRejected (InternalErr XTypeError), s1)
                | Some k' =>
                    let '(r, s2) := match fc_extras c with Some v => v (snd e) s1 | None => (VOk (input_object (snd e)), s1) end in
                    (Kept k' r, s2)
                end
            end
        | _ => (Unknown, s)
        end
  end.
Fixpoint extra_trace (c : fields_cfg) (consumed : list str) (xs : list (input * loc_item * input)) (s : state) : list eoutcome * state :=
  match xs with
  | [] => ([], s)
  | x :: xs' => let '(o, s1) := extra_look c consumed x s in let '(os, s2) := extra_trace c consumed xs' s1 in (o :: os, s2)
  end.
Definition extra_regular (o : eoutcome) : Prop :=
  match o with
  | NotAString | Consumed | Unknown | KeyRejected (LineErrors _) | Kept _ (VOk _) | Kept _ (VErr (LineErrors _)) => True
  | _ => False
  end.
Definition extra_errors (c : fields_cfg) (xo : (input * loc_item * input) * eoutcome) : list line_error :=
  let '((key, kloc, value), o) := xo in
  match o with
  | NotAString => [{| le_type := EInvalidKey; le_loc := LRev [kloc]; le_input := key |}]
  | Unknown => match fc_extra c with ExtraForbid => [{| le_type := EExtraForbidden; le_loc := LRev [kloc]; le_input := value |}] | _ => [] end
  | KeyRejected (LineErrors es) => map (under [kloc]) es
  | Kept _ (VErr (LineErrors es)) => map (under [kloc]) es
  | _ => []
  end.
Definition kept (os : list eoutcome) : list (str * pyval) :=
  flat_map (fun o => match o with Kept k (VOk v) => [(k, v)] | _ => [] end) os.

(** The dict with these entries, later ones winning. *)
Definition dict_of (kvs : list (str * pyval)) : list (pyval * pyval) :=
  fold_left (fun d kv => dict_set (PStr (fst kv)) (snd kv) d) kvs [].
Definition set_of (ks : list str) : list pyval := fold_left (fun s k => set_add (PStr k) s) ks [].

(** Extra keys are looked at: the policy is not "ignore" and the input has keys. *)
Definition looks_at_extras (c : fields_cfg) (md : mdict) : bool :=
  match fc_extra c with ExtraIgnore => false | _ => negb (md_is_attr md) end.

(** A well-formed model schema: distinct field names, keys as built by the library. *)
Definition good_fields (c : fields_cfg) (key_of : field -> lookup_key) (by_alias by_name : bool) : Prop :=
  NoDup (map f_name (fc_fields c)) /\
  Forall (fun f => collection_select (f_keys f) by_alias by_name = BOk (key_of f) /\ built_key (key_of f)) (fc_fields c).

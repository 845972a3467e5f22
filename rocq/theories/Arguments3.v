(** Model of the second kind of function-call arguments (src/validators/arguments_v3.rs):
    parameters of all modes in one list, given as a mapping or as an ArgsKwargs. *)
From Coq Require Import List NArith ZArith Bool.
From Verif Require Import Base Float64 Values VState LookupKey Collections Child Inputs ModelFields Assign Arguments Classes.
Import ListNotations.
Open Scope nat_scope.

(** arguments_v3.rs:24-32 [ParameterMode]. *)
Inductive pmode3 := MPosOnly | MPosOrKw | MVarArgs | MKwOnly | MVarKwargs | MUnpacked.
(** arguments_v3.rs:50-56. *)
Record param3 := { p3_name : str; p3_mode : pmode3; p3_keys : key_collection; p3_cv : cv }.
(** arguments_v3.rs:67-75. *)
Record args3_cfg := {
  a3_params : list param3; a3_extra : extra_behavior; a3_loc_by_alias : bool; a3_by_alias : option bool; a3_by_name : option bool }.
(** arguments_v3.rs:58-65. *)
Definition is_variadic (m : pmode3) : bool := match m with MVarArgs | MVarKwargs | MUnpacked => true | _ => false end.
Definition positional3 (m : pmode3) : bool := match m with MPosOnly | MPosOrKw => true | _ => false end.
Definition by_keyword3 (m : pmode3) : bool := match m with MPosOrKw | MKwOnly => true | _ => false end.
(** arguments_v3.rs:197-205. *)
Definition positional_count3 (c : args3_cfg) : nat := length (filter (fun p => positional3 (p3_mode p)) (a3_params c)).

(** [output_kwargs.set_item] with a Python object as the key, [output_kwargs.update]. *)
Definition aa_set (k v : pyval) (a : aacc) : aacc :=
  {| aa_args := aa_args a; aa_kwargs := dict_set k v (aa_kwargs a); aa_errors := aa_errors a; aa_used := aa_used a |}.
Definition aa_update (d : pydict) (a : aacc) : aacc :=
  {| aa_args := aa_args a; aa_kwargs := dict_update d (aa_kwargs a); aa_errors := aa_errors a; aa_used := aa_used a |}.

(** arguments_v3.rs:91-178: which parameter lists a schema may have.  One parameter is
    its name, its mode, whether its schema has a default and whether it has
    [on_error="omit"].  Building the parameter schemas and the messages of the errors are
    not modelled. *)
Record param_schema := { ps_name : str; ps_mode : pmode3; ps_default : bool; ps_omit : bool }.
Record build_flags := { bf_names : list str; bf_default : bool; bf_pos_or_kw : bool; bf_var_args : bool; bf_kw_only : bool; bf_var_kwargs : bool }.
Definition bf_init : build_flags := {| bf_names := []; bf_default := false; bf_pos_or_kw := false; bf_var_args := false; bf_kw_only := false; bf_var_kwargs := false |}.
(** arguments_v3.rs:115-160. *)
Definition mode_refused (m : pmode3) (b : build_flags) : bool :=
  match m with
  | MPosOnly => bf_pos_or_kw b || bf_var_args b || bf_kw_only b || bf_var_kwargs b
  | MPosOrKw => bf_var_args b || bf_kw_only b || bf_var_kwargs b
  | MVarArgs => bf_var_args b || bf_kw_only b || bf_var_kwargs b
  | MKwOnly => bf_var_kwargs b
  | MVarKwargs | MUnpacked => bf_var_kwargs b
  end.
Definition had (m : pmode3) (b : build_flags) : build_flags :=
  {| bf_names := bf_names b; bf_default := bf_default b;
     bf_pos_or_kw := match m with MPosOrKw => true | _ => bf_pos_or_kw b end;
     bf_var_args := match m with MVarArgs => true | _ => bf_var_args b end;
     bf_kw_only := match m with MKwOnly => true | _ => bf_kw_only b end;
     bf_var_kwargs := match m with MVarKwargs | MUnpacked => true | _ => bf_var_kwargs b end |}.
(** arguments_v3.rs:99-187. *)
Fixpoint build3_loop (b : build_flags) (ps : list param_schema) : bool :=
  match ps with
  | [] => true
  | p :: ps' =>
      if mem_str (ps_name p) (bf_names b) then false
      else if mode_refused (ps_mode p) b then false
      else
        let b := had (ps_mode p) b in
        if ps_omit p then false
        else if bf_default b && negb (ps_default p) && negb (bf_kw_only b) then false
        else build3_loop {| bf_names := ps_name p :: bf_names b; bf_default := bf_default b || ps_default p; bf_pos_or_kw := bf_pos_or_kw b;
                            bf_var_args := bf_var_args b; bf_kw_only := bf_kw_only b; bf_var_kwargs := bf_var_kwargs b |} ps'
  end.
Definition build3 : list param_schema -> bool := build3_loop bf_init.

Section V3.
Variable repr : pyval -> str.

(** arguments_v3.rs:279-306: the items of the tuple for variadic positional arguments;
    an item that cannot be read is unwrapped. *)
Fixpoint items3 (v : validator) (place : line_error -> line_error) (index : nat) (xs : list (item input)) (a : aacc) (s : state) : vres aacc * state :=
  match xs with
  | [] => (VOk a, s)
  | Raise _ :: _ => (VErr Panic, s)
  | It x :: xs' =>
      match v x s with
      | (VOk w, s') => items3 v place (S index) xs' (aa_push w a) s'
      | (VErr (LineErrors es), s') => items3 v place (S index) xs' (aa_add (map (fun e => place (with_outer (index_loc index) e)) es) a) s'
      | (VErr e, s') => (VErr e, s')
      end
  end.

(** arguments_v3.rs:329-360: the entries of the dict for variadic keyword arguments. *)
Fixpoint keywords3 (v : validator) (name : str) (place : line_error -> line_error) (d : pydict) (a : aacc) (s : state) : vres aacc * state :=
  match d with
  | [] => (VOk a, s)
  | (k, x) :: d' =>
      match key_str (IPy k) with
      | VErr (LineErrors es) => keywords3 v name place d' (aa_add (map (fun e => set_type EInvalidKey (with_outer (LStr name) (with_outer (py_loc repr k) e))) es) a) s
      | VErr e => (VErr e, s)
      | VOk _ =>
          match v (IPy x) s with
          | (VOk w, s') => keywords3 v name place d' (aa_set k w a) s'
          | (VErr (LineErrors es), s') => keywords3 v name place d' (aa_add (map (fun e => place (with_outer (py_loc repr k) e)) es) a) s'
          | (VErr e, s') => (VErr e, s')
          end
      end
  end.

(** arguments_v3.rs:367-381 and 735-747: the dict an unpacked typed dict gives; anything
    else than a dict is unwrapped. *)
Definition unpack3 (r : vres pyval) (place : line_error -> line_error) (a : aacc) : vres aacc :=
  match r with
  | VOk w => match as_dict w with Some d => VOk (aa_update d a) | None => VErr Panic end
  | VErr (LineErrors es) => VOk (aa_add (map place es) a)
  | VErr e => VErr e
  end.

(** arguments_v3.rs:258-436: one parameter.  [used_keys] is recorded even if the extra
    behaviour does not need it. *)
Definition mapping_param (c : args3_cfg) (validate_tuple : bool -> input -> vres seq) (i : input)
    (p : param3) (key : lookup_key) (found : option (lookup_path * input)) (a : aacc) (s : state) : vres aacc * state :=
  match found with
  | Some (path, x) =>
      let a := aa_use (lp_first path) a in
      let place e := apply_error_loc path e (a3_loc_by_alias c) (p3_name p) in
      match p3_mode p with
      | MPosOnly | MPosOrKw | MKwOnly =>
          match cv_validate (p3_cv p) x s with
          | (VOk w, s') => (VOk (if positional3 (p3_mode p) then aa_push w a else aa_put (p3_name p) w a), s')
          | (VErr (LineErrors es), s') => (VOk (aa_add (map place es) a), s')
          | (VErr e, s') => (VErr e, s')
          end
      | MVarArgs =>
          match validate_tuple false x with
          | VOk sq => items3 (cv_validate (p3_cv p)) place 0 (sq_items sq) a (floor_exactness (sq_exactness sq) s)
          | VErr _ => (VOk (aa_add [place (new_error ETupleType x)] a), s)
          end
      | MVarKwargs =>
          match as_kwargs x with
          | Some d => keywords3 (cv_validate (p3_cv p)) (p3_name p) place d a s
          | None => (VOk (aa_add [place (new_error EDictType x)] a), s)
          end
      | MUnpacked => let '(r, s') := cv_validate (p3_cv p) x s in (unpack3 r place a, s')
      end
  | None =>
      match p3_mode p with
      | MPosOnly | MPosOrKw | MKwOnly =>
          match cv_default (p3_cv p) (Some (LStr (p3_name p))) s with
          | (VErr e, s') => (VErr e, s')
          | (VOk (Some w), s') => (VOk (if positional3 (p3_mode p) then aa_push w a else aa_put (p3_name p) w a), s')
          | (VOk None, s') =>
              let t := match p3_mode p with MPosOnly => EMissingPositionalOnly | MPosOrKw => EMissingArgument | _ => EMissingKeywordOnly end in
              match key_error key t i (a3_loc_by_alias c) (p3_name p) with
              | Some e => (VOk (aa_add [e] a), s')
              | None => (VErr Panic, s')
              end
          end
      | MUnpacked => let '(r, s') := cv_validate (p3_cv p) (IPy (PDict [])) s in (unpack3 r (with_outer (LStr (p3_name p))) a, s')
      | MVarArgs | MVarKwargs => (VOk a, s)
      end
  end.
(** arguments_v3.rs:252-437. *)
Fixpoint mapping_loop (c : args3_cfg) (validate_tuple : bool -> input -> vres seq) (md : mdict) (i : input) (by_alias by_name : bool)
    (ps : list param3) (a : aacc) (s : state) : vres aacc * state :=
  match ps with
  | [] => (VOk a, s)
  | p :: ps' =>
      match collection_select (p3_keys p) by_alias by_name with
      | BErr => (VErr schema_error, s)
      | BOk key =>
          match md_get md key with
          | VErr e => (VErr e, s)
          | VOk found =>
              match mapping_param c validate_tuple i p key found a s with
              | (VErr e, s') => (VErr e, s')
              | (VOk a', s') => mapping_loop c validate_tuple md i by_alias by_name ps' a' s'
              end
          end
      end
  end.
(** arguments_v3.rs:452-489: the keys of no parameter. *)
Fixpoint extra3 (forbid : bool) (es : list entry) (a : aacc) : vres aacc :=
  match es with
  | [] => VOk a
  | BadEntry e :: _ => VErr e
  | Entry key kloc value :: es' =>
      match key_str key with
      | VErr (LineErrors l) => extra3 forbid es' (aa_add (map (fun e => set_type EInvalidKey (with_outer kloc e)) l) a)
      | VErr e => VErr e
      | VOk k =>
          if mem_str k (aa_used a) then extra3 forbid es' a
          else if forbid then extra3 forbid es' (aa_add [new_error_loc EExtraForbidden value kloc] a)
          else extra3 forbid es' a
      end
  end.
(** arguments_v3.rs:231-504 [validate_from_mapping]. *)
Definition from_mapping (c : args3_cfg) (validate_tuple : bool -> input -> vres seq) (md : mdict) (i : input) (s : state) : vres pyval * state :=
  match mapping_loop c validate_tuple md i (validate_by_alias_or s (a3_by_alias c)) (validate_by_name_or s (a3_by_name c)) (a3_params c) aa_init s with
  | (VErr e, s) => (VErr e, s)
  | (VOk a, s) =>
      match a3_extra c, md_is_attr md with
      | ExtraIgnore, _ | _, true => args_finish a s
      | x, false =>
          match md_iter md with
          | VErr e => (VErr e, s)
          | VOk es =>
              match extra3 (match x with ExtraForbid => true | _ => false end) es a with
              | VErr e => (VErr e, s)
              | VOk a => args_finish a s
              end
          end
      end
  end.

(** arguments_v3.rs:529-628: the parameters that are not variadic, counted from 0. *)
Fixpoint params3_loop (c : args3_cfg) (ai : arg_input) (i : input) (by_alias by_name : bool)
    (index : nat) (ps : list param3) (a : aacc) (s : state) : vres aacc * state :=
  match ps with
  | [] => (VOk a, s)
  | p :: ps' =>
      let continue a s := params3_loop c ai i by_alias by_name (S index) ps' a s in
      match collection_select (p3_keys p) by_alias by_name with
      | BErr => (VErr schema_error, s)
      | BOk key =>
          let pos := match ai_args ai with Some l => if positional3 (p3_mode p) then nth_error l index else None | None => None end in
          match (match ai_kwargs ai with Some (md, _) => if by_keyword3 (p3_mode p) then md_get md key else VOk None | None => VOk None end) with
          | VErr e => (VErr e, s)
          | VOk kw =>
              let a := match kw with Some (path, _) => aa_use (lp_first path) a | None => a end in
              match pos, kw with
              | Some _, Some (_, value) => continue (aa_add [new_error_loc EMultipleArgumentValues value (LStr (p3_name p))] a) s
              | Some value, None =>
                  match cv_validate (p3_cv p) value s with
                  | (VOk v, s') => continue (aa_push v a) s'
                  | (VErr (LineErrors es), s') => continue (aa_add (map (with_outer (index_loc index)) es) a) s'
                  | (VErr e, s') => (VErr e, s')
                  end
              | None, Some (path, value) =>
                  match cv_validate (p3_cv p) value s with
                  | (VOk v, s') => continue (aa_put (p3_name p) v a) s'
                  | (VErr (LineErrors es), s') => continue (aa_add (map (fun e => apply_error_loc path e (a3_loc_by_alias c) (p3_name p)) es) a) s'
                  | (VErr e, s') => (VErr e, s')
                  end
              | None, None =>
                  match cv_default (p3_cv p) (Some (LStr (p3_name p))) s with
                  | (VErr e, s') => (VErr e, s')
                  | (VOk (Some v), s') => continue (match p3_mode p with MPosOnly => aa_push v a | _ => aa_put (p3_name p) v a end) s'
                  | (VOk None, s') =>
                      match p3_mode p with
                      | MPosOnly => continue (aa_add [new_error_loc EMissingPositionalOnly i (index_loc index)] a) s'
                      | m =>
                          match key_error key (match m with MPosOrKw => EMissingArgument | _ => EMissingKeywordOnly end) i (a3_loc_by_alias c) (p3_name p) with
                          | Some e => continue (aa_add [e] a) s'
                          | None => (VErr Panic, s')
                          end
                      end
                  end
              end
          end
      end
  end.
(** arguments_v3.rs:634, 681-686 and 730-733: the first parameter of a mode. *)
Definition find_mode (f : pmode3 -> bool) (c : args3_cfg) : option param3 := find (fun p => f (p3_mode p)) (a3_params c).
Definition is_var_args (m : pmode3) : bool := match m with MVarArgs => true | _ => false end.
Definition is_unpacked (m : pmode3) : bool := match m with MUnpacked => true | _ => false end.
Definition is_var_kwargs (m : pmode3) : bool := match m with MVarKwargs | MUnpacked => true | _ => false end.

(** arguments_v3.rs:661-726: the keyword arguments not used yet. *)
Fixpoint kwargs3_loop (c : args3_cfg) (es : list entry) (remaining : pydict) (a : aacc) (s : state) : vres (aacc * pydict) * state :=
  match es with
  | [] => (VOk (a, remaining), s)
  | BadEntry e :: _ => (VErr e, s)
  | Entry key kloc value :: es' =>
      match key_str key with
      | VErr (LineErrors l) => kwargs3_loop c es' remaining (aa_add (map (fun e => set_type EInvalidKey (with_outer kloc e)) l) a) s
      | VErr e => (VErr e, s)
      | VOk k =>
          if mem_str k (aa_used a) then kwargs3_loop c es' remaining a s
          else
            match find_mode is_var_kwargs c with
            | None =>
                match a3_extra c with
                | ExtraForbid => kwargs3_loop c es' remaining (aa_add [new_error_loc EUnexpectedKeyword value kloc] a) s
                | _ => kwargs3_loop c es' remaining a s
                end
            | Some p =>
                match p3_mode p with
                | MUnpacked => kwargs3_loop c es' (dict_set (PStr k) (input_object value) remaining) a s
                | _ =>
                    match cv_validate (p3_cv p) value s with
                    | (VOk w, s') => kwargs3_loop c es' remaining (aa_put k w a) s'
                    | (VErr (LineErrors l), s') => kwargs3_loop c es' remaining (aa_add (map (with_outer kloc) l) a) s'
                    | (VErr e, s') => (VErr e, s')
                    end
                end
            end
      end
  end.
(** arguments_v3.rs:513-755 [validate_from_argskwargs]. *)
Definition from_argskwargs (c : args3_cfg) (ai : arg_input) (i : input) (s : state) : vres pyval * state :=
  match params3_loop c ai i (validate_by_alias_or s (a3_by_alias c)) (validate_by_name_or s (a3_by_name c)) 0
          (filter (fun p => negb (is_variadic (p3_mode p))) (a3_params c)) aa_init s with
  | (VErr e, s) => (VErr e, s)
  | (VOk a, s) =>
      match (match ai_args ai with
             | Some l =>
                 if Nat.ltb (positional_count3 c) (length l)
                 then var_args_loop (option_map (fun p => cv_validate (p3_cv p)) (find_mode is_var_args c)) (positional_count3 c) (skipn (positional_count3 c) l) a s
                 else (VOk a, s)
             | None => (VOk a, s)
             end) with
      | (VErr e, s) => (VErr e, s)
      | (VOk a, s) =>
          match (match ai_kwargs ai with
                 | Some (md, len) =>
                     if Nat.ltb (length (aa_used a)) len
                     then match md_iter md with VErr e => (VErr e, s) | VOk es => kwargs3_loop c es [] a s end
                     else (VOk (a, []), s)
                 | None => (VOk (a, []), s)
                 end) with
          | (VErr e, s) => (VErr e, s)
          | (VOk (a, remaining), s) =>
              match find_mode is_unpacked c with
              | Some p =>
                  let '(r, s') := cv_validate (p3_cv p) (IPy (PDict remaining)) s in
                  match unpack3 r (fun e => e) a with VOk a => args_finish a s' | VErr e => (VErr e, s') end
              | None => args_finish a s
              end
          end
      end
  end.

(** input_python.rs:120-128, input_json.rs:90-92 and 396-398, input_string.rs:92-95. *)
Definition validate_args3 (i : input) : vres arg_input :=
  match i with
  | IPy v =>
      match as_args_kwargs v with
      | Some (args, kw) => VOk {| ai_args := Some (map IPy args); ai_kwargs := option_map (py_kwargs repr) kw |}
      | None => val_err EArgumentsType i
      end
  | _ => val_err EArgumentsType i
  end.

(** arguments_v3.rs:759-777 [validate]. *)
Definition arguments3_validate (c : args3_cfg) (validate_dict : bool -> input -> vres mdict) (validate_tuple : bool -> input -> vres seq)
    (i : input) (s : state) : vres pyval * state :=
  let s := set_partial PartialOff s in
  match validate_dict false i with
  | VOk md => from_mapping c validate_tuple md i s
  | VErr _ =>
      match validate_args3 i with
      | VErr e => (VErr e, s)
      | VOk ai => from_argskwargs c ai i s
      end
  end.
End V3.

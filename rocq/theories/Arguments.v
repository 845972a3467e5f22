(** Model of function-call arguments (src/validators/arguments.rs) and dataclass
    arguments (src/validators/dataclass.rs:129-371). *)
From Coq Require Import List NArith ZArith Bool.
From Verif Require Import Base Float64 Values VState LookupKey Collections Child Inputs ModelFields Assign.
Import ListNotations.
Open Scope nat_scope.

(** input_abstract.rs:330-350 [Arguments]: positional and keyword arguments; the number
    of keyword arguments. *)
Record arg_input := { ai_args : option (list input); ai_kwargs : option (mdict * nat) }.
Definition args_list (a : arg_input) : list input := unwrap_or (ai_args a) [].

(** [ArgsKwargs] objects (argument_markers.rs:9-27) are objects of class 1. *)
Definition args_kwargs (args : list pyval) (kwargs : pydict) : pyval :=
  PObj 1 [(lit "args", PTuple args); (lit "kwargs", if is_nil kwargs then PNone else PDict kwargs)].
Definition as_args_kwargs (v : pyval) : option (list pyval * option pydict) :=
  match v with
  | PObj 1%N [(_, PTuple args); (_, PDict kw)] => Some (args, Some kw)
  | PObj 1%N [(_, PTuple args); (_, PNone)] => Some (args, None)
  | _ => None
  end.

Section Input.
Variable repr : pyval -> str.
Definition py_kwargs (d : pydict) : mdict * nat := (py_mdict repr d, length d).

(** input_python.rs:104-118, input_json.rs:81-87 and 391-393, input_string.rs:87-90. *)
Definition validate_args (i : input) : vres arg_input :=
  match i with
  | IPy v =>
      match dict_items v with
      | Some d => VOk {| ai_args := None; ai_kwargs := Some (py_kwargs d) |}
      | None =>
          match as_args_kwargs v with
          | Some (args, kw) => VOk {| ai_args := Some (map IPy args); ai_kwargs := option_map py_kwargs kw |}
          | None =>
              match strip v with
              | PTuple l | PList l => VOk {| ai_args := Some (map IPy l); ai_kwargs := None |}
              | _ => val_err EArgumentsType i
              end
          end
      end
  | IJson (JObj l) => VOk {| ai_args := None; ai_kwargs := Some (json_mdict l, length l) |}
  | IJson (JArr l) => VOk {| ai_args := Some (map IJson l); ai_kwargs := None |}
  | _ => val_err EArgumentsType i
  end.

(** input_python.rs:130-147, input_json.rs:94-108 and 401-410, input_string.rs:97-102. *)
Definition validate_dataclass_args (i : input) : vres arg_input :=
  match i with
  | IPy v =>
      match dict_items v with
      | Some d => VOk {| ai_args := None; ai_kwargs := Some (py_kwargs d) |}
      | None =>
          match as_args_kwargs v with
          | Some (args, kw) => VOk {| ai_args := Some (map IPy args); ai_kwargs := option_map py_kwargs kw |}
          | None => val_err EDataclassType i
          end
      end
  | IJson (JObj l) => VOk {| ai_args := None; ai_kwargs := Some (json_mdict l, length l) |}
  | IStrings v => match as_str v, dict_items v with None, Some d => VOk {| ai_args := None; ai_kwargs := Some (strings_mdict repr d, length d) |} | _, _ => val_err EArgumentsType i end
  | _ => val_err EDataclassType i
  end.
End Input.

(** ** Function calls *)
Inductive pmode := PosOnly | PosOrKw | KwOnly.
(** arguments.rs:85-90 and 96-100: [positional], [kwarg_key]. *)
Definition positional (m : pmode) : bool := match m with KwOnly => false | _ => true end.
Definition by_keyword (m : pmode) : bool := match m with PosOnly => false | _ => true end.
Record param := { pa_name : str; pa_mode : pmode; pa_keys : key_collection; pa_cv : cv }.
Record args_cfg := {
  ac_params : list param; ac_var_args : option validator; ac_unpacked : bool; ac_var_kwargs : option validator;
  ac_extra : extra_behavior; ac_loc_by_alias : bool; ac_by_alias : option bool; ac_by_name : option bool }.

(** arguments.rs:72-89 [positional_params_count]: one more than the last index of a
    positional parameter. *)
Fixpoint positional_count_from (index : nat) (ps : list param) : nat :=
  match ps with
  | [] => 0
  | p :: ps' => Nat.max (if positional (pa_mode p) then S index else 0) (positional_count_from (S index) ps')
  end.
Definition positional_count (c : args_cfg) : nat := positional_count_from 0 (ac_params c).

Record aacc := { aa_args : list pyval; aa_kwargs : pydict; aa_errors : list line_error; aa_used : list str }.
Definition aa_init : aacc := {| aa_args := []; aa_kwargs := []; aa_errors := []; aa_used := [] |}.
Definition aa_push (v : pyval) (a : aacc) : aacc := {| aa_args := aa_args a ++ [v]; aa_kwargs := aa_kwargs a; aa_errors := aa_errors a; aa_used := aa_used a |}.
Definition aa_put (k : str) (v : pyval) (a : aacc) : aacc :=
  {| aa_args := aa_args a; aa_kwargs := dict_set (PStr k) v (aa_kwargs a); aa_errors := aa_errors a; aa_used := aa_used a |}.
Definition aa_add (es : list line_error) (a : aacc) : aacc := {| aa_args := aa_args a; aa_kwargs := aa_kwargs a; aa_errors := aa_errors a ++ es; aa_used := aa_used a |}.
(** [AHashSet::insert]. *)
Definition use_key (k : str) (l : list str) : list str := if mem_str k l then l else k :: l.
Definition aa_use (k : str) (a : aacc) : aacc := {| aa_args := aa_args a; aa_kwargs := aa_kwargs a; aa_errors := aa_errors a; aa_used := use_key k (aa_used a) |}.

(** arguments.rs:203-285. *)
Fixpoint params_loop (c : args_cfg) (ai : arg_input) (i : input) (by_alias by_name : bool)
    (index : nat) (ps : list param) (a : aacc) (s : state) : vres aacc * state :=
  match ps with
  | [] => (VOk a, s)
  | p :: ps' =>
      let continue a s := params_loop c ai i by_alias by_name (S index) ps' a s in
      let pos := match ai_args ai with Some l => if positional (pa_mode p) then nth_error l index else None | None => None end in
      match (if by_keyword (pa_mode p) then match collection_select (pa_keys p) by_alias by_name with BOk k => Some (BOk k) | BErr => Some BErr end else None) with
      | Some BErr => (VErr schema_error, s)
      | key =>
          match (match ai_kwargs ai, key with Some (md, _), Some (BOk k) => md_get md k | _, _ => VOk None end) with
          | VErr e => (VErr e, s)
          | VOk kw =>
              let a := match kw with Some (path, _) => aa_use (lp_first path) a | None => a end in
              match pos, kw with
              | Some _, Some (_, value) => continue (aa_add [new_error_loc EMultipleArgumentValues value (LStr (pa_name p))] a) s
              | Some value, None =>
                  match rebind (set_field_name (Some (pa_name p))) s (cv_validate (pa_cv p) value) with
                  | (VOk v, s') => continue (aa_push v a) s'
                  | (VErr (LineErrors es), s') => continue (aa_add (map (with_outer (index_loc index)) es) a) s'
                  | (VErr e, s') => (VErr e, s')
                  end
              | None, Some (path, value) =>
                  match rebind (set_field_name (Some (pa_name p))) s (cv_validate (pa_cv p) value) with
                  | (VOk v, s') => continue (aa_put (pa_name p) v a) s'
                  | (VErr (LineErrors es), s') => continue (aa_add (map (fun e => apply_error_loc path e (ac_loc_by_alias c) (pa_name p)) es) a) s'
                  | (VErr e, s') => (VErr e, s')
                  end
              | None, None =>
                  match rebind (set_field_name (Some (pa_name p))) s (cv_default (pa_cv p) (Some (LStr (pa_name p)))) with
                  | (VErr e, s') => (VErr e, s')
                  | (VOk (Some v), s') => continue (if by_keyword (pa_mode p) then aa_put (pa_name p) v a else aa_push v a) s'
                  | (VOk None, s') =>
                      match key with
                      | Some (BOk k) =>
                          match key_error k (if positional (pa_mode p) then EMissingArgument else EMissingKeywordOnly) i (ac_loc_by_alias c) (pa_name p) with
                          | Some e => continue (aa_add [e] a) s'
                          | None => (VErr Panic, s')
                          end
                      | _ => continue (aa_add [new_error_loc EMissingPositionalOnly i (index_loc index)] a) s'
                      end
                  end
              end
          end
      end
  end.

(** arguments.rs:286-312: the remaining positional arguments. *)
Fixpoint var_args_loop (v : option validator) (index : nat) (xs : list input) (a : aacc) (s : state) : vres aacc * state :=
  match xs with
  | [] => (VOk a, s)
  | x :: xs' =>
      match v with
      | None => var_args_loop v (S index) xs' (aa_add [new_error_loc EUnexpectedPositional x (index_loc index)] a) s
      | Some val =>
          match val x s with
          | (VOk w, s') => var_args_loop v (S index) xs' (aa_push w a) s'
          | (VErr (LineErrors es), s') => var_args_loop v (S index) xs' (aa_add (map (with_outer (index_loc index)) es) a) s'
          | (VErr e, s') => (VErr e, s')
          end
      end
  end.

(** arguments.rs:314-372: the remaining keyword arguments; also the dict for an unpacked
    typed dict. *)
Fixpoint var_kwargs_loop (c : args_cfg) (es : list entry) (remaining : pydict) (a : aacc) (s : state) : vres (aacc * pydict) * state :=
  match es with
  | [] => (VOk (a, remaining), s)
  | BadEntry e :: _ => (VErr e, s)
  | Entry key kloc value :: es' =>
      match key_str key with
      | VErr (LineErrors l) => var_kwargs_loop c es' remaining (aa_add (map (fun e => set_type EInvalidKey (with_outer kloc e)) l) a) s
      | VErr e => (VErr e, s)
      | VOk k =>
          if mem_str k (aa_used a) then var_kwargs_loop c es' remaining a s
          else if ac_unpacked c then var_kwargs_loop c es' (dict_set (PStr k) (input_object value) remaining) a s
          else
            match ac_var_kwargs c with
            | Some v =>
                match v value s with
                | (VOk w, s') => var_kwargs_loop c es' remaining (aa_put k w a) s'
                | (VErr (LineErrors l), s') => var_kwargs_loop c es' remaining (aa_add (map (with_outer kloc) l) a) s'
                | (VErr e, s') => (VErr e, s')
                end
            | None =>
                match ac_extra c with
                | ExtraForbid => var_kwargs_loop c es' remaining (aa_add [new_error_loc EUnexpectedKeyword value kloc] a) s
                | _ => var_kwargs_loop c es' remaining a s
                end
            end
      end
  end.

(** arguments.rs:286-312. *)
Definition var_args_stage (c : args_cfg) (ai : arg_input) (a : aacc) (s : state) : vres aacc * state :=
  match ai_args ai with
  | Some l =>
      if Nat.ltb (positional_count c) (length l)
      then var_args_loop (ac_var_args c) (positional_count c) (skipn (positional_count c) l) a s
      else (VOk a, s)
  | None => (VOk a, s)
  end.
(** arguments.rs:314-372. *)
Definition var_kwargs_stage (c : args_cfg) (ai : arg_input) (a : aacc) (s : state) : vres (aacc * pydict) * state :=
  match ai_kwargs ai with
  | Some (md, len) =>
      if Nat.ltb (length (aa_used a)) len
      then match md_iter md with VErr e => (VErr e, s) | VOk es => var_kwargs_loop c es [] a s end
      else (VOk (a, []), s)
  | None => (VOk (a, []), s)
  end.
(** arguments.rs:394-400. *)
Definition args_finish (a : aacc) (s : state) : vres pyval * state :=
  if is_nil (aa_errors a) then (VOk (PTuple [PTuple (aa_args a); PDict (aa_kwargs a)]), s) else (VErr (LineErrors (aa_errors a)), s).
(** arguments.rs:374-400: with an unpacked typed dict, the collected keywords are
    validated as a dict and merged. *)
Definition unpacked_stage (c : args_cfg) (remaining : pydict) (a : aacc) (s : state) : vres pyval * state :=
  if ac_unpacked c then
    match ac_var_kwargs c with
    | None => (VErr Panic, s)
    | Some v =>
        match v (IPy (PDict remaining)) s with
        | (VOk w, s') =>
            match as_dict w with
            | Some d => args_finish {| aa_args := aa_args a; aa_kwargs := dict_update d (aa_kwargs a); aa_errors := aa_errors a; aa_used := aa_used a |} s'
            | None => (VErr Panic, s')
            end
        | (VErr (LineErrors es), s') => args_finish (aa_add es a) s'
        | (VErr e, s') => (VErr e, s')
        end
    end
  else args_finish a s.

(** arguments.rs:184-400 [validate], after [input.validate_args()]. *)
Definition arguments_validate (c : args_cfg) (validate_args : input -> vres arg_input) (i : input) (s : state) : vres pyval * state :=
  let s := set_partial PartialOff s in
  match validate_args i with
  | VErr e => (VErr e, s)
  | VOk ai =>
      match params_loop c ai i (validate_by_alias_or s (ac_by_alias c)) (validate_by_name_or s (ac_by_name c)) 0 (ac_params c) aa_init s with
      | (VErr e, s) => (VErr e, s)
      | (VOk a, s) =>
          match var_args_stage c ai a s with
          | (VErr e, s) => (VErr e, s)
          | (VOk a, s) =>
              match var_kwargs_stage c ai a s with
              | (VErr e, s) => (VErr e, s)
              | (VOk (a, remaining), s) => unpacked_stage c remaining a s
              end
          end
      end
  end.

(** ** Dataclasses *)
(** dataclass.rs:23-46. *)
Record dc_field := { df_name : str; df_keys : key_collection; df_cv : cv; df_kw_only : bool; df_init : bool; df_init_only : bool }.
Record dc_cfg := {
  dc_fields : list dc_field; dc_collect_init_only : bool; dc_extra : extra_behavior; dc_extras : option validator;
  dc_loc_by_alias : bool; dc_by_alias : option bool; dc_by_name : option bool }.
(** dataclass.rs:92-95: the number of fields that are not keyword-only. *)
Definition dc_positional_count (c : dc_cfg) : nat := length (filter (fun f => negb (df_kw_only f)) (dc_fields c)).

Record dacc := { da_dict : pydict; da_init : list pyval; da_errors : list line_error; da_used : list str; da_count : nat }.
Definition da_init0 : dacc := {| da_dict := []; da_init := []; da_errors := []; da_used := []; da_count := 0 |}.
Definition da_add (es : list line_error) (a : dacc) : dacc :=
  {| da_dict := da_dict a; da_init := da_init a; da_errors := da_errors a ++ es; da_used := da_used a; da_count := da_count a |}.
Definition da_use (k : str) (a : dacc) : dacc :=
  {| da_dict := da_dict a; da_init := da_init a; da_errors := da_errors a; da_used := use_key k (da_used a); da_count := da_count a |}.
Definition da_counted (a : dacc) : dacc :=
  {| da_dict := da_dict a; da_init := da_init a; da_errors := da_errors a; da_used := da_used a; da_count := S (da_count a) |}.
(** dataclass.rs:157-168 [set_item!]. *)
Definition da_set (c : dc_cfg) (f : dc_field) (v : pyval) (a : dacc) : dacc :=
  if df_init_only f
  then {| da_dict := da_dict a; da_init := if dc_collect_init_only c then da_init a ++ [v] else da_init a; da_errors := da_errors a; da_used := da_used a; da_count := da_count a |}
  else {| da_dict := dict_set (PStr (df_name f)) v (da_dict a); da_init := da_init a; da_errors := da_errors a; da_used := da_used a; da_count := da_count a |}.

(** dataclass.rs:171-270.  [output_dict] is shared with [extra.data]. *)
Fixpoint dc_loop (c : dc_cfg) (ai : arg_input) (i : input) (by_alias by_name : bool)
    (index : nat) (fs : list dc_field) (a : dacc) (s : state) : vres dacc * state :=
  match fs with
  | [] => (VOk a, s)
  | f :: fs' =>
      let s := set_extra (set_data (Some (da_dict a)) (st_extra s)) s in
      let continue a s := dc_loop c ai i by_alias by_name (S index) fs' a s in
      if negb (df_init f) then
        match cv_default (df_cv f) (Some (LStr (df_name f))) s with
        | (VOk (Some v), s') => continue (da_counted (da_set c f v a)) s'
        | (VOk None, s') | (VErr Omit, s') => continue a s'
        | (VErr (LineErrors es), s') => continue (da_add es a) s'
        | (VErr e, s') => (VErr e, s')
        end
      else
        let pos := match ai_args ai with Some l => if negb (df_kw_only f) then nth_error l index else None | None => None end in
        match collection_select (df_keys f) by_alias by_name with
        | BErr => (VErr schema_error, s)
        | BOk key =>
            match (match ai_kwargs ai with Some (md, _) => md_get md key | None => VOk None end) with
            | VErr e => (VErr e, s)
            | VOk kw =>
                let a := match kw with Some (path, _) => da_use (lp_first path) a | None => a end in
                match pos, kw with
                | Some _, Some (_, value) => continue (da_add [new_error_loc EMultipleArgumentValues value (LStr (df_name f))] a) s
                | Some value, None =>
                    match rebind (set_field_name (Some (df_name f))) s (cv_validate (df_cv f) value) with
                    | (VOk v, s') => continue (da_counted (da_set c f v a)) s'
                    | (VErr (LineErrors es), s') => continue (da_add (map (with_outer (index_loc index)) es) a) s'
                    | (VErr e, s') => (VErr e, s')
                    end
                | None, Some (path, value) =>
                    match rebind (set_field_name (Some (df_name f))) s (cv_validate (df_cv f) value) with
                    | (VOk v, s') => continue (da_counted (da_set c f v a)) s'
                    | (VErr (LineErrors es), s') => continue (da_add (map (fun e => apply_error_loc path e (dc_loc_by_alias c) (df_name f)) es) a) s'
                    | (VErr e, s') => (VErr e, s')
                    end
                | None, None =>
                    match rebind (set_field_name (Some (df_name f))) s (cv_default (df_cv f) (Some (LStr (df_name f)))) with
                    | (VOk (Some v), s') => continue (da_set c f v a) s'
                    | (VOk None, s') =>
                        match key_error key EMissing i (dc_loc_by_alias c) (df_name f) with
                        | Some e => continue (da_add [e] a) s'
                        | None => (VErr Panic, s')
                        end
                    | (VErr Omit, s') => continue a s'
                    | (VErr (LineErrors es), s') => continue (da_add es a) s'
                    | (VErr e, s') => (VErr e, s')
                    end
                end
            end
        end
  end.

(** dataclass.rs:271-283: one error for every positional argument beyond the count. *)
Definition dc_unexpected (n : nat) (l : list input) : list line_error :=
  map (fun ix => new_error_loc EUnexpectedPositional (snd ix) (index_loc (fst ix))) (skipn n (combine (List.seq 0 (length l)) l)).

(** dataclass.rs:284-349. *)
Fixpoint dc_extras_loop (c : dc_cfg) (es : list entry) (a : dacc) (s : state) : vres dacc * state :=
  match es with
  | [] => (VOk a, s)
  | BadEntry e :: _ => (VErr e, s)
  | Entry key kloc value :: es' =>
      match key_str key with
      | VErr (LineErrors l) => dc_extras_loop c es' (da_add (map (fun e => set_type EInvalidKey (with_outer kloc e)) l) a) s
      | VErr e => (VErr e, s)
      | VOk k =>
          let put v := {| da_dict := dict_set (PStr k) v (da_dict a); da_init := da_init a; da_errors := da_errors a; da_used := da_used a; da_count := da_count a |} in
          if mem_str k (da_used a) then dc_extras_loop c es' a s
          else
            match dc_extra c with
            | ExtraForbid => dc_extras_loop c es' (da_add [new_error_loc EUnexpectedKeyword value kloc] a) s
            | ExtraIgnore => dc_extras_loop c es' a s
            | ExtraAllow =>
                match dc_extras c with
                | Some v =>
                    match v value (set_extra (set_data (Some (da_dict a)) (st_extra s)) s) with
                    | (VOk w, s') => dc_extras_loop c es' (put w) s'
                    | (VErr (LineErrors l), s') => dc_extras_loop c es' (da_add (map (with_outer kloc) l) a) s'
                    | (VErr e, s') => (VErr e, s')
                    end
                | None => dc_extras_loop c es' (put (input_object value)) s
                end
            end
      end
  end.

(** dataclass.rs:271-283. *)
Definition dc_args_stage (c : dc_cfg) (ai : arg_input) (a : dacc) : dacc :=
  match ai_args ai with Some l => da_add (dc_unexpected (dc_positional_count c) l) a | None => a end.
(** dataclass.rs:284-349. *)
Definition dc_kwargs_stage (c : dc_cfg) (ai : arg_input) (a : dacc) (s : state) : vres dacc * state :=
  match ai_kwargs ai with
  | Some (md, len) =>
      if negb (Nat.eqb len (length (da_used a)))
      then match md_iter md with VErr e => (VErr e, s) | VOk es => dc_extras_loop c es a s end
      else (VOk a, s)
  | None => (VOk a, s)
  end.
(** dataclass.rs:351-371. *)
Definition dc_finish (c : dc_cfg) (a : dacc) (s : state) : vres pyval * state :=
  let s := add_fields_set (da_count a) s in
  if is_nil (da_errors a)
  then (VOk (PTuple [PDict (da_dict a); if dc_collect_init_only c then PTuple (da_init a) else PNone]), s)
  else (VErr (LineErrors (da_errors a)), s).

(** dataclass.rs:131-371 [validate], after [input.validate_dataclass_args()]. *)
Definition dataclass_args_validate (c : dc_cfg) (validate_dataclass_args : input -> vres arg_input) (i : input) (s : state) : vres pyval * state :=
  let s := set_partial PartialOff s in
  match validate_dataclass_args i with
  | VErr e => (VErr e, s)
  | VOk ai =>
      rebind (set_data (Some [])) s (fun s =>
        match dc_loop c ai i (validate_by_alias_or s (dc_by_alias c)) (validate_by_name_or s (dc_by_name c)) 0 (dc_fields c) da_init0 s with
        | (VErr e, s) => (VErr e, s)
        | (VOk a, s) =>
            match dc_kwargs_stage c ai (dc_args_stage c ai a) s with
            | (VErr e, s) => (VErr e, s)
            | (VOk a, s) => dc_finish c a s
            end
        end)
  end.

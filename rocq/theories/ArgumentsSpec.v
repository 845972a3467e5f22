(** What validating the arguments of a call means. *)
From Coq Require Import List NArith ZArith Bool.
From Verif Require Import Base Float64 Values VState LookupKey LookupKeySpec Collections CollectionsSpec Child ModelFieldsSpec Assign Arguments.
Import ListNotations.
Open Scope nat_scope.

(** What happened to one parameter: its keyword could not be read; it was given both by
    position and by keyword; by position only; by keyword only; or not at all. *)
Inductive pout := Lost (e : verror) | Twice (p : lookup_path) (x : input) | AtPos (r : vres pyval) | AtKey (p : lookup_path) (r : vres pyval) | Dflt (r : vres (option pyval)).

(** The keyword under which a parameter is given, if any. *)
Definition keyword_value (ai : arg_input) (key : option lookup_key) : vres (option (lookup_path * input)) :=
  match ai_kwargs ai, key with Some (md, _), Some k => md_get md k | _, _ => VOk None end.
Definition give (name : str) (c : cv) (pos : option input) (kw : vres (option (lookup_path * input))) (s : state) : pout * state :=
  match kw, pos with
  | VErr e, _ => (Lost e, s)
  | VOk (Some (p, x)), Some _ => (Twice p x, s)
  | VOk None, Some x => let '(r, s') := rebind (set_field_name (Some name)) s (cv_validate c x) in (AtPos r, s')
  | VOk (Some (p, x)), None => let '(r, s') := rebind (set_field_name (Some name)) s (cv_validate c x) in (AtKey p r, s')
  | VOk None, None => let '(r, s') := rebind (set_field_name (Some name)) s (cv_default c (Some (LStr name))) in (Dflt r, s')
  end.
(** The value a parameter gets. *)
Definition pout_value (o : pout) : option pyval :=
  match o with AtPos (VOk v) | AtKey _ (VOk v) | Dflt (VOk (Some v)) => Some v | _ => None end.

(** ** Function calls *)
(** The parameters in order, with their index. *)
Fixpoint params_trace (ai : arg_input) (key_of : param -> lookup_key) (k : nat) (ps : list param) (s : state) : list (nat * param * pout) * state :=
  match ps with
  | [] => ([], s)
  | p :: ps' =>
      let '(o, s1) := give (pa_name p) (pa_cv p) (if positional (pa_mode p) then nth_error (args_list ai) k else None)
                        (keyword_value ai (if by_keyword (pa_mode p) then Some (key_of p) else None)) s in
      let '(os, s2) := params_trace ai key_of (S k) ps' s1 in ((k, p, o) :: os, s2)
  end.
(** The parameter does not stop the call's validation. *)
Definition pout_regular (o : pout) : Prop :=
  match o with
  | Twice _ _ | AtPos (VOk _) | AtPos (VErr (LineErrors _)) | AtKey _ (VOk _) | AtKey _ (VErr (LineErrors _)) | Dflt (VOk _) => True
  | _ => False
  end.
Definition error_at (t : etype) (i : input) (loc : list loc_item) : line_error := {| le_type := t; le_loc := LRev (rev loc); le_input := i |}.
Definition param_errors (loc_by_alias : bool) (i : input) (key_of : param -> lookup_key) (kpo : nat * param * pout) : list line_error :=
  let '(k, p, o) := kpo in
  match o with
  | Twice _ x => [error_at EMultipleArgumentValues x [LStr (pa_name p)]]
  | AtPos (VErr (LineErrors es)) => map (under [index_loc k]) es
  | AtKey path (VErr (LineErrors es)) => map (under (field_loc loc_by_alias path (pa_name p))) es
  | Dflt (VOk None) =>
      match pa_mode p with
      | PosOnly => [error_at EMissingPositionalOnly i [index_loc k]]
      | PosOrKw => map (fun path => error_at EMissingArgument i (field_loc loc_by_alias path (pa_name p))) (firstn 1 (paths_of (key_of p)))
      | KwOnly => map (fun path => error_at EMissingKeywordOnly i (field_loc loc_by_alias path (pa_name p))) (firstn 1 (paths_of (key_of p)))
      end
  | _ => []
  end.
(** Values passed on by position and by keyword. *)
Definition by_position (kpo : nat * param * pout) : list pyval :=
  match snd kpo with
  | AtPos (VOk v) => [v]
  | Dflt (VOk (Some v)) => if by_keyword (pa_mode (snd (fst kpo))) then [] else [v]
  | _ => []
  end.
Definition by_name (kpo : nat * param * pout) : list (str * pyval) :=
  match snd kpo with
  | AtKey _ (VOk v) => [(pa_name (snd (fst kpo)), v)]
  | Dflt (VOk (Some v)) => if by_keyword (pa_mode (snd (fst kpo))) then [(pa_name (snd (fst kpo)), v)] else []
  | _ => []
  end.
(** The keyword a parameter was found under. *)
Definition pout_key (o : pout) : list str := match o with Twice p _ | AtKey p _ => [lp_first p] | _ => [] end.
Definition call_keys (vs : list (nat * param * pout)) : list str := flat_map (fun kpo => pout_key (snd kpo)) vs.

(** ** Surplus positional arguments *)
Fixpoint surplus_trace (v : option validator) (xs : list input) (s : state) : list (input * option (vres pyval)) * state :=
  match xs with
  | [] => ([], s)
  | x :: xs' =>
      let '(r, s1) := match v with Some v => let '(r, s') := v x s in (Some r, s') | None => (None, s) end in
      let '(os, s2) := surplus_trace v xs' s1 in ((x, r) :: os, s2)
  end.
Definition surplus_regular (o : input * option (vres pyval)) : Prop :=
  match snd o with None | Some (VOk _) | Some (VErr (LineErrors _)) => True | _ => False end.
Fixpoint surplus_errors (k : nat) (os : list (input * option (vres pyval))) : list line_error :=
  match os with
  | [] => []
  | (x, r) :: os' =>
      match r with
      | None => [error_at EUnexpectedPositional x [index_loc k]]
      | Some (VErr (LineErrors es)) => map (under [index_loc k]) es
      | _ => []
      end ++ surplus_errors (S k) os'
  end.
Definition surplus_values (os : list (input * option (vres pyval))) : list pyval :=
  flat_map (fun o => match snd o with Some (VOk v) => [v] | _ => [] end) os.

(** ** Surplus keyword arguments *)
Inductive kout :=
| KeyNotStr                         (* the key is not a string *)
| KeyUsed                           (* a parameter was found under it *)
| KeyDropped                        (* ignored *)
| KeyRefused                        (* not allowed *)
| KeyKept (k : str) (r : vres pyval).

(** What to do with an unused keyword. *)
Definition key_look (used : list str) (policy : str -> input -> state -> kout * state) (e : input * loc_item * input) (s : state) : kout * state :=
  match key_str (fst (fst e)) with
  | VErr _ => (KeyNotStr, s)
  | VOk k => if mem_str k used then (KeyUsed, s) else policy k (snd e) s
  end.
Definition kout_regular (o : kout) : Prop :=
  match o with KeyKept _ (VErr (LineErrors _)) | KeyKept _ (VOk _) => True | KeyKept _ _ => False | _ => True end.
Definition kout_errors (xo : (input * loc_item * input) * kout) : list line_error :=
  let '((key, kloc, value), o) := xo in
  match o with
  | KeyNotStr => [error_at EInvalidKey key [kloc]]
  | KeyRefused => [error_at EUnexpectedKeyword value [kloc]]
  | KeyKept _ (VErr (LineErrors es)) => map (under [kloc]) es
  | _ => []
  end.
Definition kout_kept (os : list kout) : list (str * pyval) :=
  flat_map (fun o => match o with KeyKept k (VOk v) => [(k, v)] | _ => [] end) os.

(** A function's policy: validate with the **kwargs schema, or refuse, or ignore; with an
    unpacked typed dict, collect. *)
Definition call_policy (c : args_cfg) (k : str) (x : input) (s : state) : kout * state :=
  if ac_unpacked c then (KeyKept k (VOk (input_object x)), s)
  else match ac_var_kwargs c with
       | Some v => let '(r, s') := v x s in (KeyKept k r, s')
       | None => (match ac_extra c with ExtraForbid => KeyRefused | _ => KeyDropped end, s)
       end.
Fixpoint keys_trace (used : list str) (policy : str -> input -> state -> kout * state) (xs : list (input * loc_item * input)) (s : state) : list kout * state :=
  match xs with
  | [] => ([], s)
  | x :: xs' => let '(o, s1) := key_look used policy x s in let '(os, s2) := keys_trace used policy xs' s1 in (o :: os, s2)
  end.

(** The keyword arguments [xs]: every key that a parameter is found under is one of them. *)
Definition kwargs_are (kw : option (mdict * nat)) (xs : list (input * loc_item * input)) : Prop :=
  match kw with
  | None => xs = []
  | Some (md, len) =>
      md_iter md = VOk (map to_entry xs) /\ len = length xs /\
      forall k p x, md_get md k = VOk (Some (p, x)) -> exists e, In e xs /\ key_str (fst (fst e)) = VOk (lp_first p)
  end.

(** ** The result of validating the arguments of a call *)
Section CallResult.
Variables (c : args_cfg) (i : input) (key_of : param -> lookup_key) (xs : list (input * loc_item * input))
  (vs : list (nat * param * pout)) (ps : list (input * option (vres pyval))) (ks : list kout) (s : state).
(** Parameters first, then surplus positional arguments, then surplus keywords. *)
Definition call_errors : list line_error :=
  flat_map (param_errors (ac_loc_by_alias c) i key_of) vs ++ surplus_errors (positional_count c) ps ++ flat_map kout_errors (combine xs ks).
Definition call_args : list pyval := flat_map by_position vs ++ surplus_values ps.
Definition call_regular : Prop := Forall (fun kpo => pout_regular (snd kpo)) vs /\ Forall surplus_regular ps /\ Forall kout_regular ks.
Definition call_result (kwargs : list (pyval * pyval)) (errors : list line_error) (s : state) : vres pyval * state :=
  match errors with [] => (VOk (PTuple [PTuple call_args; PDict kwargs]), s) | _ => (VErr (LineErrors errors), s) end.
Definition call_finish : vres pyval * state :=
  if ac_unpacked c then
    match ac_var_kwargs c with
    | None => (VErr Panic, s)
    | Some v =>
        match v (IPy (PDict (dict_of (kout_kept ks)))) s with
        | (VOk w, s') => match as_dict w with Some d => call_result (dict_update d (dict_of (flat_map by_name vs))) call_errors s' | None => (VErr Panic, s') end
        | (VErr (LineErrors es), s') => call_result (dict_of (flat_map by_name vs)) (call_errors ++ es) s'
        | (VErr e, s') => (VErr e, s')
        end
    end
  else call_result (dict_of (flat_map by_name vs ++ kout_kept ks)) call_errors s.
End CallResult.

(** ** What the called function receives (CPython's binding rule) *)
(** The value bound to the parameter at index [k], when the call [f( *args, **kwargs)]
    does not raise TypeError for it. *)
Inductive bound := Unbound | Bound (v : pyval) | BoundTwice.
Definition python_binds (ps : list param) (args : list pyval) (kwargs : list (pyval * pyval)) (k : nat) : bound :=
  match nth_error ps k with
  | None => Unbound
  | Some p =>
      let pos := if positional (pa_mode p) then nth_error args k else None in
      let kw := if by_keyword (pa_mode p) then dict_get (PStr (pa_name p)) kwargs else None in
      match pos, kw with
      | Some _, Some _ => BoundTwice
      | Some v, None | None, Some v => Bound v
      | None, None => Unbound
      end
  end.
(** The parameter list of a Python function: positional-only, then positional-or-keyword,
    then keyword-only, with distinct names. *)
Definition rank (m : pmode) : nat := match m with PosOnly => 0 | PosOrKw => 1 | KwOnly => 2 end.
Fixpoint ordered (ps : list param) : Prop :=
  match ps with [] => True | p :: ps' => Forall (fun q => rank (pa_mode p) <= rank (pa_mode q)) ps' /\ ordered ps' end.
Definition positionals (ps : list param) : nat := length (filter (fun p => positional (pa_mode p)) ps).

(** ** Dataclasses *)
Inductive fout := FPout (o : pout) | FNoInit (r : vres (option pyval)).
Definition fout_value (o : fout) : option pyval := match o with FPout o => pout_value o | FNoInit (VOk r) => r | FNoInit _ => None end.
(** The values of the dataclass dict so far. *)
Definition dc_values (vs : list (nat * dc_field * fout)) : list (str * pyval) :=
  flat_map (fun kfo => match fout_value (snd kfo) with Some v => if df_init_only (snd (fst kfo)) then [] else [(df_name (snd (fst kfo)), v)] | None => [] end) vs.
Definition dc_init_values (vs : list (nat * dc_field * fout)) : list pyval :=
  flat_map (fun kfo => match fout_value (snd kfo) with Some v => if df_init_only (snd (fst kfo)) then [v] else [] | None => [] end) vs.
Definition field_look (ai : arg_input) (key : lookup_key) (k : nat) (f : dc_field) (s : state) : fout * state :=
  if df_init f then
    let '(o, s') := give (df_name f) (df_cv f) (if df_kw_only f then None else nth_error (args_list ai) k) (keyword_value ai (Some key)) s in (FPout o, s')
  else let '(r, s') := cv_default (df_cv f) (Some (LStr (df_name f))) s in (FNoInit r, s').
Fixpoint dc_trace (ai : arg_input) (key_of : dc_field -> lookup_key) (k : nat) (done : list (nat * dc_field * fout)) (fs : list dc_field) (s : state)
  : list (nat * dc_field * fout) * state :=
  match fs with
  | [] => ([], s)
  | f :: fs' =>
      let '(o, s1) := field_look ai (key_of f) k f (set_extra (set_data (Some (dict_of (dc_values done))) (st_extra s)) s) in
      let '(os, s2) := dc_trace ai key_of (S k) (done ++ [(k, f, o)]) fs' s1 in ((k, f, o) :: os, s2)
  end.
Definition default_regular (r : vres (option pyval)) : Prop := match r with VOk _ | VErr Omit | VErr (LineErrors _) => True | _ => False end.
Definition fout_regular (o : fout) : Prop :=
  match o with FNoInit r | FPout (Dflt r) => default_regular r | FPout o => pout_regular o end.
Definition dc_errors (loc_by_alias : bool) (i : input) (key_of : dc_field -> lookup_key) (kfo : nat * dc_field * fout) : list line_error :=
  let '(k, f, o) := kfo in
  match o with
  | FNoInit (VErr (LineErrors es)) | FPout (Dflt (VErr (LineErrors es))) => es
  | FPout (Twice _ x) => [error_at EMultipleArgumentValues x [LStr (df_name f)]]
  | FPout (AtPos (VErr (LineErrors es))) => map (under [index_loc k]) es
  | FPout (AtKey path (VErr (LineErrors es))) => map (under (field_loc loc_by_alias path (df_name f))) es
  | FPout (Dflt (VOk None)) => map (fun path => error_at EMissing i (field_loc loc_by_alias path (df_name f))) (firstn 1 (paths_of (key_of f)))
  | _ => []
  end.
Definition dc_keys (vs : list (nat * dc_field * fout)) : list str :=
  flat_map (fun kfo => match snd kfo with FPout o => pout_key o | _ => [] end) vs.
(** Fields that received a value from the input, or are not init fields. *)
Definition dc_set_count (vs : list (nat * dc_field * fout)) : nat :=
  length (filter (fun kfo => match snd kfo with FPout (AtPos (VOk _)) | FPout (AtKey _ (VOk _)) | FNoInit (VOk (Some _)) => true | _ => false end) vs).
Definition dc_policy (c : dc_cfg) (k : str) (x : input) (s : state) : kout * state :=
  match dc_extra c with
  | ExtraForbid => (KeyRefused, s)
  | ExtraIgnore => (KeyDropped, s)
  | ExtraAllow => match dc_extras c with Some v => let '(r, s') := v x s in (KeyKept k r, s') | None => (KeyKept k (VOk (input_object x)), s) end
  end.
(** Extras see the fields and the extras before them as data. *)
Fixpoint dc_keys_trace (c : dc_cfg) (used : list str) (values : list (str * pyval)) (xs : list (input * loc_item * input)) (s : state) : list kout * state :=
  match xs with
  | [] => ([], s)
  | x :: xs' =>
      let '(o, s1) := key_look used (fun k v s => dc_policy c k v (match dc_extra c, dc_extras c with ExtraAllow, Some _ => set_extra (set_data (Some (dict_of values)) (st_extra s)) s | _, _ => s end)) x s in
      let '(os, s2) := dc_keys_trace c used (values ++ kout_kept [o]) xs' s1 in (o :: os, s2)
  end.

(** The result of validating the arguments of a dataclass: fields first, then surplus
    positional arguments, then surplus keywords. *)
Section DcResult.
Variables (c : dc_cfg) (ai : arg_input) (i : input) (key_of : dc_field -> lookup_key) (xs : list (input * loc_item * input))
  (vs : list (nat * dc_field * fout)) (ks : list kout).
Definition dc_surplus : list input := skipn (dc_positional_count c) (args_list ai).
Definition dc_call_errors : list line_error :=
  flat_map (dc_errors (dc_loc_by_alias c) i key_of) vs ++ surplus_errors (dc_positional_count c) (map (fun x => (x, None)) dc_surplus) ++ flat_map kout_errors (combine xs ks).
Definition dc_regular : Prop := Forall (fun x => fout_regular (snd x)) vs /\ Forall kout_regular ks.
Definition dc_result : vres pyval :=
  match dc_call_errors with
  | [] => VOk (PTuple [PDict (dict_of (dc_values vs ++ kout_kept ks)); if dc_collect_init_only c then PTuple (dc_init_values vs) else PNone])
  | es => VErr (LineErrors es)
  end.
End DcResult.

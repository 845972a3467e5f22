(** What validating the arguments of a call means when the parameters are given by name
    in a mapping, and which parameter lists Python functions have. *)
From Coq Require Import List NArith ZArith Bool.
From Verif Require Import Base Float64 Values VState LookupKey LookupKeySpec Collections CollectionsSpec Child Inputs ModelFieldsSpec Assign Arguments ArgumentsSpec Classes Arguments3.
Import ListNotations.
Open Scope nat_scope.

(** ** Signatures *)
(** Positional-only, then positional-or-keyword, then *args, then keyword-only, then
    **kwargs; at most one *args and one **kwargs; different names. *)
Definition rank3 (m : pmode3) : nat :=
  match m with MPosOnly => 0 | MPosOrKw => 1 | MVarArgs => 2 | MKwOnly => 3 | MVarKwargs | MUnpacked => 4 end.
Fixpoint signature (ms : list pmode3) : Prop :=
  match ms with
  | [] => True
  | m :: ms' => Forall (fun n => rank3 m <= rank3 n /\ (rank3 m = rank3 n -> rank3 m <> 2 /\ rank3 m <> 4)) ms' /\ signature ms'
  end.
(** A parameter without default follows one with a default only if it or a parameter
    before it is keyword-only. *)
Definition defaults_last (ps : list param_schema) : Prop :=
  forall before p after q, ps = before ++ p :: after -> In q before -> ps_default q = true -> ps_default p = false ->
  exists k, In k (before ++ [p]) /\ ps_mode k = MKwOnly.

(** ** What happened to one parameter of a mapping *)
Inductive mout :=
| MLost (e : verror)                                                                (* its key could not be read *)
| MOne (path : lookup_path) (r : vres pyval)                                        (* given: the validated value *)
| MMany (path : lookup_path) (x : input) (rs : option (list (vres pyval)))          (* *args: not a sequence, or its items *)
| MKeys (path : lookup_path) (x : input) (rs : option (list (pyval * option (vres pyval)))) (* **kwargs: not a dict, or its entries; None: key not a string *)
| MDict (path : option lookup_path) (r : vres pyval)                                (* **kwargs as a typed dict; given or not *)
| MNone (r : vres (option pyval))                                                   (* not given: its default *)
| MSkip.                                                                            (* *args or **kwargs not given *)

Fixpoint many_trace (v : validator) (xs : list (item input)) (s : state) : list (vres pyval) * state :=
  match xs with
  | [] => ([], s)
  | x :: xs' =>
      let '(r, s1) := match x with It x => v x s | Raise _ => (VErr Panic, s) end in
      let '(rs, s2) := many_trace v xs' s1 in (r :: rs, s2)
  end.
Fixpoint entries_trace (v : validator) (d : pydict) (s : state) : list (pyval * option (vres pyval)) * state :=
  match d with
  | [] => ([], s)
  | (k, x) :: d' =>
      let '(r, s1) := match as_str k with Some _ => let '(r, s1) := v (IPy x) s in (Some r, s1) | None => (None, s) end in
      let '(rs, s2) := entries_trace v d' s1 in ((k, r) :: rs, s2)
  end.
Definition look3 (validate_tuple : bool -> input -> vres seq) (p : param3) (found : vres (option (lookup_path * input))) (s : state) : mout * state :=
  match found with
  | VErr e => (MLost e, s)
  | VOk (Some (path, x)) =>
      match p3_mode p with
      | MVarArgs =>
          match validate_tuple false x with
          | VOk sq => let '(rs, s') := many_trace (cv_validate (p3_cv p)) (sq_items sq) (floor_exactness (sq_exactness sq) s) in (MMany path x (Some rs), s')
          | VErr _ => (MMany path x None, s)
          end
      | MVarKwargs =>
          match as_kwargs x with
          | Some d => let '(rs, s') := entries_trace (cv_validate (p3_cv p)) d s in (MKeys path x (Some rs), s')
          | None => (MKeys path x None, s)
          end
      | MUnpacked => let '(r, s') := cv_validate (p3_cv p) x s in (MDict (Some path) r, s')
      | _ => let '(r, s') := cv_validate (p3_cv p) x s in (MOne path r, s')
      end
  | VOk None =>
      match p3_mode p with
      | MVarArgs | MVarKwargs => (MSkip, s)
      | MUnpacked => let '(r, s') := cv_validate (p3_cv p) (IPy (PDict [])) s in (MDict None r, s')
      | _ => let '(r, s') := cv_default (p3_cv p) (Some (LStr (p3_name p))) s in (MNone r, s')
      end
  end.
Fixpoint mapping_trace (vt : bool -> input -> vres seq) (md : mdict) (key_of : param3 -> lookup_key) (ps : list param3) (s : state) : list (param3 * mout) * state :=
  match ps with
  | [] => ([], s)
  | p :: ps' =>
      let '(o, s1) := look3 vt p (md_get md (key_of p)) s in
      let '(os, s2) := mapping_trace vt md key_of ps' s1 in ((p, o) :: os, s2)
  end.

(** Nothing stops the validation of the call. *)
Definition line_or_ok (r : vres pyval) : Prop := match r with VOk _ | VErr (LineErrors _) => True | _ => False end.
Definition mout_regular (o : mout) : Prop :=
  match o with
  | MLost _ => False
  | MOne _ r => line_or_ok r
  | MMany _ _ rs => match rs with Some rs => Forall line_or_ok rs | None => True end
  | MKeys _ _ rs => match rs with Some rs => Forall (fun kr => match snd kr with Some r => line_or_ok r | None => True end) rs | None => True end
  | MDict _ r => match r with VOk w => as_dict w <> None | VErr (LineErrors _) => True | _ => False end
  | MNone r => match r with VOk _ => True | _ => False end
  | MSkip => True
  end.

Section Outcome.
Variable repr : pyval -> str.
Variables (loc_by_alias : bool) (i : input) (key_of : param3 -> lookup_key).
Definition result_errors (loc : list loc_item) (r : vres pyval) : list line_error :=
  match r with VErr (LineErrors es) => map (under loc) es | _ => [] end.
Fixpoint many_errors (loc : list loc_item) (k : nat) (rs : list (vres pyval)) : list line_error :=
  match rs with [] => [] | r :: rs' => result_errors (loc ++ [index_loc k]) r ++ many_errors loc (S k) rs' end.
(** The errors of a parameter. *)
Definition mout_errors (po : param3 * mout) : list line_error :=
  let '(p, o) := po in
  let name := p3_name p in
  match o with
  | MLost _ | MSkip => []
  | MOne path r => result_errors (field_loc loc_by_alias path name) r
  | MMany path x None => [error_at ETupleType x (field_loc loc_by_alias path name)]
  | MMany path x (Some rs) => many_errors (field_loc loc_by_alias path name) 0 rs
  | MKeys path x None => [error_at EDictType x (field_loc loc_by_alias path name)]
  | MKeys path x (Some rs) =>
      flat_map (fun kr => match snd kr with
                          | Some r => result_errors (field_loc loc_by_alias path name ++ [py_loc repr (fst kr)]) r
                          | None => [error_at EInvalidKey (IPy (fst kr)) [LStr name; py_loc repr (fst kr)]]
                          end) rs
  | MDict (Some path) r => result_errors (field_loc loc_by_alias path name) r
  | MDict None r => result_errors [LStr name] r
  | MNone (VOk None) =>
      map (fun path => error_at (match p3_mode p with MPosOnly => EMissingPositionalOnly | MPosOrKw => EMissingArgument | _ => EMissingKeywordOnly end)
                                i (field_loc loc_by_alias path name)) (firstn 1 (paths_of (key_of p)))
  | MNone _ => []
  end.
End Outcome.
(** The value of a parameter that has one. *)
Definition mout_value (o : mout) : option pyval := match o with MOne _ (VOk v) | MNone (VOk (Some v)) => Some v | _ => None end.
Definition ok_values (rs : list (vres pyval)) : list pyval := flat_map (fun r => match r with VOk v => [v] | VErr _ => [] end) rs.
(** Positional arguments passed on; keyword arguments passed on; the key it was found
    under. *)
Definition mout_args (po : param3 * mout) : list pyval :=
  match snd po with
  | MMany _ _ (Some rs) => ok_values rs
  | o => if positional3 (p3_mode (fst po)) then match mout_value o with Some v => [v] | None => [] end else []
  end.
Definition mout_kwargs (po : param3 * mout) : pydict :=
  match snd po with
  | MKeys _ _ (Some rs) => flat_map (fun kr => match snd kr with Some (VOk v) => [(fst kr, v)] | _ => [] end) rs
  | MDict _ (VOk w) => match as_dict w with Some d => d | None => [] end
  | o => if positional3 (p3_mode (fst po)) then [] else match mout_value o with Some v => [(PStr (p3_name (fst po)), v)] | None => [] end
  end.
Definition mout_key (o : mout) : list str :=
  match o with MOne p _ | MMany p _ _ | MKeys p _ _ | MDict (Some p) _ => [lp_first p] | _ => [] end.

(** The keys of the mapping that belong to no parameter. *)
Definition surplus_key_errors (forbid : bool) (used : list str) (e : input * loc_item * input) : list line_error :=
  match key_str (fst (fst e)) with
  | VErr _ => [error_at EInvalidKey (fst (fst e)) [snd (fst e)]]
  | VOk k => if forbid && negb (mem_str k used) then [error_at EExtraForbidden (snd e) [snd (fst e)]] else []
  end.

Definition mapping_errors (repr : pyval -> str) (c : args3_cfg) (i : input) (key_of : param3 -> lookup_key) (vs : list (param3 * mout)) (xs : list (input * loc_item * input)) : list line_error :=
  flat_map (mout_errors repr (a3_loc_by_alias c) i key_of) vs ++
  match a3_extra c with
  | ExtraIgnore => []
  | x => flat_map (surplus_key_errors (match x with ExtraForbid => true | _ => false end) (flat_map (fun po => mout_key (snd po)) vs)) xs
  end.
Definition mapping_result (repr : pyval -> str) (c : args3_cfg) (i : input) (key_of : param3 -> lookup_key) (vs : list (param3 * mout)) (xs : list (input * loc_item * input)) : vres pyval :=
  match mapping_errors repr c i key_of vs xs with
  | [] => VOk (PTuple [PTuple (flat_map mout_args vs); PDict (dict_update (flat_map mout_kwargs vs) [])])
  | es => VErr (LineErrors es)
  end.

(** ** The same function for the older kind of schema *)
Definition mode_v2 (m : pmode3) : pmode := match m with MPosOnly => PosOnly | MPosOrKw => PosOrKw | _ => KwOnly end.
Definition param_v2 (p : param3) : param := {| pa_name := p3_name p; pa_mode := mode_v2 (p3_mode p); pa_keys := p3_keys p; pa_cv := p3_cv p |}.
Definition plain (c : args3_cfg) : list param3 := filter (fun p => negb (is_variadic (p3_mode p))) (a3_params c).
Definition as_v2 (c : args3_cfg) : args_cfg :=
  {| ac_params := map param_v2 (plain c);
     ac_var_args := match filter (fun p => is_var_args (p3_mode p)) (a3_params c) with p :: _ => Some (cv_validate (p3_cv p)) | [] => None end;
     ac_unpacked := existsb (fun p => is_unpacked (p3_mode p)) (a3_params c);
     ac_var_kwargs := match filter (fun p => is_var_kwargs (p3_mode p)) (a3_params c) with p :: _ => Some (cv_validate (p3_cv p)) | [] => None end;
     ac_extra := a3_extra c; ac_loc_by_alias := a3_loc_by_alias c; ac_by_alias := a3_by_alias c; ac_by_name := a3_by_name c |}.
(** A validator that does not look at the field name. *)
Definition nameless (v : cv) : Prop :=
  forall n s, (forall x, rebind (set_field_name (Some n)) s (cv_validate v x) = cv_validate v x s) /\
              (forall l, rebind (set_field_name (Some n)) s (cv_default v l) = cv_default v l s).

(** ** After a successful validation *)
(** Everything given for the parameter was accepted. *)
Definition accepted {A} (r : vres A) : Prop := match r with VOk _ => True | VErr _ => False end.
Definition delivered (po : param3 * mout) : Prop :=
  match snd po with
  | MOne _ r => accepted r
  | MNone (VOk (Some _)) | MSkip => True
  | MMany _ _ (Some rs) => Forall accepted rs
  | MKeys _ _ (Some rs) => Forall (fun kr => match snd kr with Some r => accepted r | None => False end) rs
  | MDict _ (VOk w) => as_dict w <> None
  | _ => False
  end.
(** What was given for *args and for **kwargs. *)
Definition many_given (vs : list (param3 * mout)) : list pyval :=
  flat_map (fun po => match snd po with MMany _ _ (Some rs) => ok_values rs | _ => [] end) vs.
Definition extra_given (vs : list (param3 * mout)) : pydict :=
  flat_map (fun po => match snd po with
                      | MKeys _ _ (Some rs) => flat_map (fun kr => match snd kr with Some (VOk v) => [(fst kr, v)] | _ => [] end) rs
                      | MDict _ (VOk w) => match as_dict w with Some d => d | None => [] end
                      | _ => []
                      end) vs.

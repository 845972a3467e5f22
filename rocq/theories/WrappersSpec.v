(** What wrapping validators mean, relative to the wrapped ones. *)
From Coq Require Import List NArith ZArith Bool.
From Verif Require Import Base Float64 Values VState LookupKey Collections Child Wrappers.
Import ListNotations.
Open Scope nat_scope.

(** The default itself: the configured value, or what the factory returns for the data
    validated so far. *)
Inductive has_default (w : with_default) (s : state) : pyval -> Prop :=
| hd_value v : wd_default_kind w = DValue v -> has_default w s v
| hd_factory f v : wd_default_kind w = DFactory f false -> f None = inl v -> has_default w s v
| hd_factory_data f d v : wd_default_kind w = DFactory f true -> x_data (st_extra s) = Some d -> f (Some (PDict d)) = inl v -> has_default w s v.

(** Asking for the default gives [r]. *)
Inductive gives_default (w : with_default) (s : state) : vres pyval * state -> Prop :=
| gd_plain v : has_default w s v -> wd_validate_default w = false -> gives_default w s (VOk v, s)
| gd_valid v v' s' : has_default w s v -> wd_validate_default w = true -> is_undefined (IPy v) = false ->
    wd_inner w (IPy v) s = (VOk v', s') -> gives_default w s (VOk v', s')
| gd_invalid v e s' : has_default w s v -> wd_validate_default w = true -> is_undefined (IPy v) = false ->
    wd_inner w (IPy v) s = (VErr (LineErrors e), s') -> wd_on_error w = OnRaise -> gives_default w s (VErr (LineErrors e), s')
| gd_omit v e s' : has_default w s v -> wd_validate_default w = true -> is_undefined (IPy v) = false ->
    wd_inner w (IPy v) s = (VErr (LineErrors e), s') -> wd_on_error w = OnOmit -> gives_default w s (VErr Omit, s').

(** What validating [i] gives. *)
Inductive defaulted (w : with_default) (i : input) (s : state) : vres pyval * state -> Prop :=
| df_ok v s' : is_undefined i = false -> wd_inner w i s = (VOk v, s') -> defaulted w i s (VOk v, s')
| df_raise e s' : is_undefined i = false -> wd_inner w i s = (VErr (LineErrors e), s') -> wd_on_error w = OnRaise -> defaulted w i s (VErr (LineErrors e), s')
| df_omit e s' : is_undefined i = false -> wd_inner w i s = (VErr (LineErrors e), s') -> wd_on_error w = OnOmit -> defaulted w i s (VErr Omit, s')
| df_default e s' r : is_undefined i = false -> wd_inner w i s = (VErr (LineErrors e), s') -> wd_on_error w = OnDefault -> gives_default w s' r -> defaulted w i s r
| df_use s' r : is_undefined i = false -> wd_inner w i s = (VErr UseDefault, s') -> gives_default w s' r -> defaulted w i s r
| df_undefined r : is_undefined i = true -> gives_default w s r -> defaulted w i s r.

(** Left-to-right composition. *)
Inductive composed : list validator -> input -> state -> vres pyval * state -> Prop :=
| co_last v i s : composed [v] i s (v i s)
| co_ok v vs i s x s' r : v i s = (VOk x, s') -> vs <> [] -> composed vs (IPy x) s' r -> composed (v :: vs) i s r
| co_err v vs i s e s' : v i s = (VErr e, s') -> vs <> [] -> composed (v :: vs) i s (VErr e, s').

(** The exceptions that the documentation allows validators to raise. *)
Definition documented (e : pyexc) : bool :=
  match e with XValueError | XAssertionError | XCustom _ | XValidation _ | XOmit | XUseDefault => true | _ => false end.

(** The wrap function that just calls its handler. *)
Definition reraise (r : pyval + pyexc) : wprog := match r with inl v => WReturn v | inr e => WRaise e end.
Definition call_through : pyval -> info -> wprog := fun v _ => WCall v None reraise.

(** The state in which a handler call runs its validator: the mode, strictness,
    from_attributes and data of the wrap validator's state, [e] as exactness so far. *)
Definition handed_over (s : state) (e : option exactness) (s0 : state) : Prop :=
  st_exactness s0 = e /\ st_fields_set s0 = None /\ st_partial s0 = PartialOff /\
  x_input_type (st_extra s0) = x_input_type (st_extra s) /\ x_strict (st_extra s0) = x_strict (st_extra s) /\
  x_from_attributes (st_extra s0) = x_from_attributes (st_extra s) /\ x_data (st_extra s0) = x_data (st_extra s) /\
  x_by_alias (st_extra s0) = None /\ x_by_name (st_extra s0) = None /\ x_field_name (st_extra s0) = None.
(** The error as it appears in the exception that the handler raises. *)
Definition reported (outer : option loc_item) (e e' : line_error) : Prop :=
  le_type e' = le_type e /\ le_input e' = IPy (input_object (le_input e)) /\
  loc_path (le_loc e') = match outer with Some l => l :: loc_path (le_loc e) | None => loc_path (le_loc e) end.

(** A run of a wrap function: each handler call validates the value it is given and
    continues with the result or the exception (a SchemaError for an omission or a use
    of the default); exactness carries over. *)
Inductive conversation (inner : validator) (s : state) : wprog -> option exactness -> pyval + pyexc -> option exactness -> Prop :=
| cv_return v e : conversation inner s (WReturn v) e (inl v) e
| cv_raise x e : conversation inner s (WRaise x) e (inr x) e
| cv_ok v outer k e s0 w s1 r e' :
    handed_over s e s0 -> inner (IPy v) s0 = (VOk w, s1) ->
    conversation inner s (k (inl w)) (st_exactness s1) r e' -> conversation inner s (WCall v outer k) e r e'
| cv_fail v outer k e s0 es es' s1 r e' :
    handed_over s e s0 -> inner (IPy v) s0 = (VErr (LineErrors es), s1) -> Forall2 (reported outer) es es' ->
    conversation inner s (k (inr (XValidation es'))) (st_exactness s1) r e' -> conversation inner s (WCall v outer k) e r e'
| cv_internal v outer k e s0 x s1 r e' :
    handed_over s e s0 -> inner (IPy v) s0 = (VErr (InternalErr x), s1) ->
    conversation inner s (k (inr x)) (st_exactness s1) r e' -> conversation inner s (WCall v outer k) e r e'
| cv_omit v outer k e s0 s1 r e' :
    handed_over s e s0 -> inner (IPy v) s0 = (VErr Omit, s1) ->
    conversation inner s (k (inr schema_error)) (st_exactness s1) r e' -> conversation inner s (WCall v outer k) e r e'
| cv_use_default v outer k e s0 s1 r e' :
    handed_over s e s0 -> inner (IPy v) s0 = (VErr UseDefault, s1) ->
    conversation inner s (k (inr schema_error)) (st_exactness s1) r e' -> conversation inner s (WCall v outer k) e r e'.

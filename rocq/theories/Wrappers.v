(** Model of the validators that wrap other validators: with_default.rs, nullable.rs,
    chain.rs, json_or_python.rs, lax_or_strict.rs, custom_error.rs, function.rs and the
    handler object of generator.rs.  The wrapped validators and the user's functions are
    arbitrary.  Simplification: a user function is a (pure) function of its arguments;
    a wrap function is any finite interaction with its handler. *)
From Coq Require Import List NArith ZArith Bool.
From Verif Require Import Base Float64 Values VState LookupKey Collections Child.
Import ListNotations.
Open Scope nat_scope.

(** ** Defaults *)

(** with_default.rs:25-48 [DefaultType].  A factory gets the data or nothing. *)
Inductive default_kind := DNone | DValue (v : pyval) | DFactory (f : option pyval -> pyval + pyexc) (takes_data : bool).
Inductive on_error := OnRaise | OnOmit | OnDefault.
Record with_default := { wd_default_kind : default_kind; wd_on_error : on_error; wd_inner : validator; wd_validate_default : bool }.

(** with_default.rs:50-69 [DefaultType::default_value].  Without data the factory is
    called with the Rust unit value [({},)], which Python sees as an empty tuple.  A
    raised exception becomes an internal error.  Copying an unhashable default is the
    identity on the tree values of the model. *)
Definition stored_default (k : default_kind) (data : option (list (pyval * pyval))) : vres (option pyval) :=
  match k with
  | DNone => VOk None
  | DValue v => VOk (Some v)
  | DFactory f takes_data =>
      match f (if takes_data then Some (match data with Some d => PDict d | None => PTuple [] end) else None) with
      | inl v => VOk (Some v)
      | inr e => VErr (InternalErr e)
      end
  end.

(** with_default.rs:169-207 [default_value]; [validate] is the validator itself. *)
Definition default_value (validate : input -> state -> option (vres pyval * state)) (w : with_default)
    (outer : option loc_item) (s : state) : option (vres (option pyval) * state) :=
  match stored_default (wd_default_kind w) (x_data (st_extra s)) with
  | VErr e => Some (VErr e, s)
  | VOk None => Some (VOk None, s)
  | VOk (Some dft) =>
      if wd_validate_default w then
        match validate (IPy dft) s with
        | None => None
        | Some (VOk v, s') => Some (VOk (Some v), s')
        | Some (VErr e, s') => Some (VErr (match outer with Some l => with_outer_err l e | None => e end), s')
        end
      else Some (VOk (Some dft), s)
  end.

(** with_default.rs:143-167 [validate].  [n] bounds the mutual recursion of validate and
    default_value; [None] means that the bound was reached. *)
Fixpoint wd_validate (n : nat) (w : with_default) (i : input) (s : state) : option (vres pyval * state) :=
  match n with
  | 0 => None
  | S n' =>
      let use_default (e : verror) (s : state) :=
        match default_value (wd_validate n' w) w None s with
        | None => None
        | Some (VErr e', s') => Some (VErr e', s')
        | Some (VOk (Some v), s') => Some (VOk v, s')
        | Some (VOk None, s') => Some (VErr e, s')
        end in
      if is_undefined i then use_default Panic s (* unwrap of None panics *)
      else
        match wd_inner w i s with
        | (VOk v, s') => Some (VOk v, s')
        | (VErr Panic, s') => Some (VErr Panic, s')
        | (VErr UseDefault, s') => use_default UseDefault s'
        | (VErr e, s') =>
            match wd_on_error w with
            | OnRaise => Some (VErr e, s')
            | OnDefault => use_default e s'
            | OnOmit => Some (VErr Omit, s')
            end
        end
  end.

(** As a child of other validators; exhausting the stack aborts the process. *)
Definition wd_cv (n : nat) (w : with_default) : cv :=
  {| cv_validate := fun i s => match wd_validate n w i s with Some r => r | None => (VErr Panic, s) end;
     cv_default := fun l s => match default_value (wd_validate n w) w l s with Some r => r | None => (VErr Panic, s) end |}.

(** with_default.rs:101-111: building requires a default for on_error="default". *)
Definition wd_build_ok (k : default_kind) (o : on_error) : bool :=
  match k, o with DNone, OnDefault => false | _, _ => true end.

(** ** Plain wrappers *)

(** [Input::is_none] *)
Definition is_none_input (i : input) : bool :=
  match i with IPy PNone | IJson JNull => true | _ => false end.
(** nullable.rs:36-47. *)
Definition nullable (inner : validator) : validator := fun i s =>
  if is_none_input i then (VOk PNone, s) else inner i s.
(** none.rs:25-36. *)
Definition none_validate : validator := fun i s =>
  if is_none_input i then (VOk PNone, s) else (val_err ENoneRequired i, s).

(** chain.rs:72-86 [validate]: the second and later steps get the Python value. *)
Fixpoint chain_rest (steps : list validator) (v : pyval) (s : state) : vres pyval * state :=
  match steps with
  | [] => (VOk v, s)
  | step :: steps' => match step (IPy v) s with (VOk v', s') => chain_rest steps' v' s' | (VErr e, s') => (VErr e, s') end
  end.
Definition chain_validate (steps : list validator) : validator := fun i s =>
  match steps with
  | [] => (VErr Panic, s)
  | step :: steps' => match step i s with (VOk v, s') => chain_rest steps' v s' | (VErr e, s') => (VErr e, s') end
  end.
(** chain.rs:20-70 [build]: nested chains are flattened, a chain of one step is that
    step. *)
Inductive step := Plain (v : validator) | Chain (l : list validator).
Definition step_run (t : step) : validator := match t with Plain v => v | Chain l => chain_validate l end.
Definition chain_build (steps : list step) : option step :=
  match flat_map (fun t => match t with Plain v => [v] | Chain l => l end) steps with
  | [] => None
  | [v] => Some (Plain v)
  | l => Some (Chain l)
  end.

(** json_or_python.rs:53-63. *)
Definition json_or_python (j p : validator) : validator := fun i s =>
  match x_input_type (st_extra s) with ITPython => p i s | _ => j i s end.

(** lax_or_strict.rs:57-79. *)
Definition lax_or_strict (strict : bool) (lax strict_v : validator) : validator := fun i s =>
  if strict_or s strict then strict_v i s
  else
    match st_exactness s with
    | None => lax i s
    | Some _ =>
        match strict_v i s with
        | (VOk v, s') => (VOk v, s')
        | (VErr Panic, s') => (VErr Panic, s')
        | (VErr _, s') => lax i (floor_exactness Lax s')
        end
    end.

(** custom_error.rs:56-61 [as_val_error], 98-107: any error at all is replaced. *)
Definition custom_error (t : etype) (inner : validator) : validator := fun i s =>
  match inner i s with
  | (VOk v, s') => (VOk v, s')
  | (VErr Panic, s') => (VErr Panic, s')
  | (VErr _, s') => (val_err t i, s')
  end.

(** ** Functions *)

(** function.rs:541-562 [ValidationInfo], without the constant config and context. *)
Record info := { in_data : option (list (pyval * pyval)); in_field_name : option str; in_mode : input_type }.
(** function.rs:105-115: the field name of the state, else the schema's. *)
Definition info_of (own : option str) (s : state) : info :=
  {| in_data := x_data (st_extra s); in_field_name := or_else (x_field_name (st_extra s)) own; in_mode := x_input_type (st_extra s) |}.

(** function.rs:508-538 [convert_err].  An exception whose str() fails is [XOther]. *)
Definition convert_err (e : pyexc) (i : input) : verror :=
  match e with
  | XValueError => LineErrors [new_error EValueError i]
  | XAssertionError => LineErrors [new_error EAssertionError i]
  | XCustom t => LineErrors [new_error t i]
  | XValidation l => LineErrors l
  | XOmit => Omit
  | XUseDefault => UseDefault
  | e => InternalErr e
  end.

Definition pyfun := pyval -> info -> pyval + pyexc.
Definition call_fun (f : pyfun) (own : option str) (v : pyval) (i : input) (s : state) : vres pyval :=
  match f v (info_of own s) with inl v' => VOk v' | inr e => VErr (convert_err e i) end.

(** function.rs:94-145 *)
Definition function_before (f : pyfun) (own : option str) (inner : validator) : validator := fun i s =>
  match call_fun f own (input_object i) i s with
  | VOk v => inner (IPy v) s
  | VErr e => (VErr e, s)
  end.
(** function.rs:174-222 *)
Definition function_after (f : pyfun) (own : option str) (inner : validator) : validator := fun i s =>
  match inner i s with
  | (VOk v, s') => (call_fun f own v i s', s')
  | (VErr e, s') => (VErr e, s')
  end.
(** function.rs:262-289 *)
Definition function_plain (f : pyfun) (own : option str) : validator := fun i s =>
  (call_fun f own (input_object i) i s, s).

(** What a wrap function does with its handler: finish, or call it (any number of
    times) with a value and an optional outer location. *)
Inductive wprog :=
| WReturn (v : pyval)
| WRaise (e : pyexc)
| WCall (v : pyval) (outer : option loc_item) (k : pyval + pyexc -> wprog).

(** generator.rs:301-345 [InternalValidator::validate]: a fresh state which keeps the
    handler's own exactness, the mode, strict, from_attributes and data, and drops
    by_alias, by_name and the field name. *)
Definition handler_state (s : state) (e : option exactness) : state :=
  {| st_exactness := e; st_fields_set := None; st_partial := PartialOff;
     st_extra := {| x_input_type := x_input_type (st_extra s); x_strict := x_strict (st_extra s); x_from_attributes := x_from_attributes (st_extra s);
                    x_by_alias := None; x_by_name := None; x_data := x_data (st_extra s); x_field_name := None |} |}.
(** [SchemaError], raised by validation_exception.rs:107-115 for an omission or a use of
    the default that nothing caught. *)
Definition schema_error : pyexc := XOther 1.
(** validation_exception.rs:50-93 [from_val_error]: errors become a Python exception,
    holding the inputs as Python objects. *)
Definition freeze_error (e : line_error) : line_error :=
  {| le_type := le_type e; le_loc := le_loc e; le_input := IPy (input_object (le_input e)) |}.
Definition to_exception (outer : option loc_item) (e : verror) : option pyexc :=
  match e with
  | LineErrors es => Some (XValidation (map freeze_error (match outer with Some l => map (with_outer l) es | None => es end)))
  | InternalErr x => Some x
  | Omit | UseDefault => Some schema_error
  | Panic => None
  end.
(** Running the function; [e] is the handler's exactness.  Simplification: a panic in
    the handler is not catchable by the function. *)
Fixpoint run_wrap (inner : validator) (s : state) (p : wprog) (e : option exactness) : option (pyval + pyexc) * option exactness :=
  match p with
  | WReturn v => (Some (inl v), e)
  | WRaise x => (Some (inr x), e)
  | WCall v outer k =>
      match inner (IPy v) (handler_state s e) with
      | (VOk w, s') => run_wrap inner s (k (inl w)) (st_exactness s')
      | (VErr err, s') =>
          match to_exception outer err with
          | Some x => run_wrap inner s (k (inr x)) (st_exactness s')
          | None => (None, st_exactness s')
          end
      end
  end.
(** function.rs:337-400 *)
Definition function_wrap (f : pyval -> info -> wprog) (own : option str) (inner : validator) : validator := fun i s =>
  match run_wrap inner s (f (input_object i) (info_of own s)) (st_exactness s) with
  | (Some (inl v), e) => (VOk v, set_exactness e s)
  | (Some (inr x), e) => (VErr (convert_err x i), set_exactness e s)
  | (None, e) => (VErr Panic, set_exactness e s)
  end.

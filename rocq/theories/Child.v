(** What compound validators use of their children and of their input. *)
From Coq Require Import List NArith ZArith Bool.
From Verif Require Import Base Float64 Values VState LookupKey Collections.
Import ListNotations.
Open Scope nat_scope.

(** validators/mod.rs:843-879 [trait Validator]: [validate] and [default_value]. *)
Record cv := { cv_validate : validator; cv_default : option loc_item -> state -> vres (option pyval) * state }.
(** validators/mod.rs:853-861: the default [default_value]. *)
Definition no_default (v : validator) : cv := {| cv_validate := v; cv_default := fun _ s => (VOk None, s) |}.

(** [extra.data], [extra.field_name] assignments used with [rebind_extra]. *)
Definition set_data (d : option (list (pyval * pyval))) (x : extra) : extra :=
  {| x_input_type := x_input_type x; x_strict := x_strict x; x_from_attributes := x_from_attributes x;
     x_by_alias := x_by_alias x; x_by_name := x_by_name x; x_data := d; x_field_name := x_field_name x |}.
Definition set_field_name (n : option str) (x : extra) : extra :=
  {| x_input_type := x_input_type x; x_strict := x_strict x; x_from_attributes := x_from_attributes x;
     x_by_alias := x_by_alias x; x_by_name := x_by_name x; x_data := x_data x; x_field_name := n |}.
Definition set_strict (b : option bool) (x : extra) : extra :=
  {| x_input_type := x_input_type x; x_strict := b; x_from_attributes := x_from_attributes x;
     x_by_alias := x_by_alias x; x_by_name := x_by_name x; x_data := x_data x; x_field_name := x_field_name x |}.

(** validation_state.rs:46-53 and 130-134 [rebind_extra] and its Drop: run with a
    changed [extra], then put the old one back. *)
Definition rebind {A} (f : extra -> extra) (s : state) (k : state -> A * state) : A * state :=
  let '(a, s') := k (set_extra (f (st_extra s)) s) in (a, set_extra (st_extra s) s').

(** [PydanticUndefined], a singleton. *)
Definition py_undefined : pyval := PObj 0 [].
Definition is_undefined (i : input) : bool := match i with IPy (PObj 0%N []) => true | _ => false end.

(** A Python [str], subclasses included. *)
Fixpoint as_str (v : pyval) : option str := match v with PStr s => Some s | PSub _ v' => as_str v' | _ => None end.

(** [key.validate_str(true, false)] on a mapping key (surrogates, which cannot be
    UTF-8 encoded, are not in [str]). *)
Definition key_str (i : input) : vres str :=
  match i with
  | IPy v | IStrings v => match as_str v with Some s => VOk s | None => val_err EStringType i end
  | IJson (JStr s) | IKey s => VOk s
  | IJson _ => val_err EStringType i
  end.

(** input_abstract.rs [ValidatedDict]: looking up a key, iterating, the last key. *)
Record mdict := {
  md_get : lookup_key -> vres (option (lookup_path * input));
  md_iter : vres (list entry);
  md_is_attr : bool;
  md_last_key : option loc_item }.

Definition loc_item_eqb (a b : loc_item) : bool :=
  match a, b with LStr s, LStr t => str_eqb s t | LInt x, LInt y => Z.eqb x y | _, _ => false end.
Definition set_type (t : etype) (e : line_error) : line_error := {| le_type := t; le_loc := le_loc e; le_input := le_input e |}.

Inductive extra_behavior := ExtraAllow | ExtraForbid | ExtraIgnore.
Definition extra_behavior_eqb (a b : extra_behavior) : bool :=
  match a, b with ExtraAllow, ExtraAllow | ExtraForbid, ExtraForbid | ExtraIgnore, ExtraIgnore => true | _, _ => false end.

(** Field definitions of models and typed dicts: model_fields.rs:22-28,
    typed_dict.rs:20-27. *)
Record field := { f_name : str; f_keys : key_collection; f_cv : cv; f_frozen : bool; f_required : bool }.
Record fields_cfg := {
  fc_fields : list field; fc_extra : extra_behavior; fc_extras : option validator; fc_extras_keys : option validator;
  fc_strict : bool; fc_from_attributes : bool; fc_loc_by_alias : bool;
  fc_by_alias : option bool; fc_by_name : option bool }.

(** Model of the collection loops of src/input/return_enums.rs and of the list,
    set, frozenset and dict validators, over arbitrary child validators. *)
From Coq Require Import List NArith ZArith Bool.
From Verif Require Import Base Float64 Values VState.
Import ListNotations.
Open Scope nat_scope.

(** What the source iterator yields: an input, or a Python exception. *)
Inductive item (A : Type) := It (a : A) | Raise (e : pyexc).
Arguments It {A}. Arguments Raise {A}.

Definition index_loc (i : nat) : loc_item := LInt (Z.of_nat i).

(** return_enums.rs:63-104 [MaxLengthCheck]. *)
Record max_check := { mc_current : nat; mc_max : option nat; mc_field : collection; mc_input : input; mc_actual : option nat }.
Definition mc_incr (m : max_check) : vres unit * max_check :=
  match mc_max m with
  | None => (VOk tt, m)
  | Some mx =>
      let c := S (mc_current m) in
      let m' := {| mc_current := c; mc_max := mc_max m; mc_field := mc_field m; mc_input := mc_input m; mc_actual := mc_actual m |} in
      if Nat.ltb mx c then (val_err (ETooLong (mc_field m) mx (mc_actual m)) (mc_input m), m') else (VOk tt, m')
  end.

(** return_enums.rs:106-117 [any_next_error!]. *)
Definition next_error {A} (i : input) (index : nat) : vres A :=
  VErr (LineErrors [new_error_loc EIterationError i (index_loc index)]).

(** return_enums.rs:119-165 [validate_iter_to_vec]. *)
Fixpoint vec_loop (child : validator) (fail_fast : bool) (allow_partial : partial_mode)
    (mc : max_check) (output : list pyval) (errors : list line_error)
    (items : list (nat * bool * item input)) (s : state) : vres (list pyval) * state :=
  match items with
  | [] => ((if is_nil errors then VOk output else VErr (LineErrors errors)), s)
  | (index, is_last_partial, it) :: items' =>
      let s := set_partial (if is_last_partial then allow_partial else PartialOff) s in
      match it with
      | Raise _ => (next_error (mc_input mc) index, s)
      | It i =>
          match child i s with
          | (VOk v, s') =>
              match mc_incr mc with
              | (VErr e, _) => (VErr e, s')
              | (VOk _, mc') => vec_loop child fail_fast allow_partial mc' (output ++ [v]) errors items' s'
              end
          | (VErr (LineErrors es), s') =>
              match mc_incr mc with
              | (VErr e, _) => (VErr e, s')
              | (VOk _, mc') =>
                  if is_last_partial then vec_loop child fail_fast allow_partial mc' output errors items' s'
                  else
                    let errors' := errors ++ map (with_outer (index_loc index)) es in
                    if fail_fast then (VErr (LineErrors errors'), s')
                    else vec_loop child fail_fast allow_partial mc' output errors' items' s'
              end
          | (VErr Omit, s') => vec_loop child fail_fast allow_partial mc output errors items' s'
          | (VErr e, s') => (VErr e, s')
          end
      end
  end.

Definition validate_iter_to_vec (child : validator) (fail_fast : bool) (mc : max_check)
    (items : list (item input)) (s : state) : vres (list pyval) * state :=
  vec_loop child fail_fast (st_partial s) mc [] [] (enumerate_last_partial s items) s.

(** return_enums.rs:267-282 [no_validator_iter_to_vec]; converting an input to a
    Python object is [input_object]. *)
Fixpoint no_validator_loop (mc : max_check) (i : input) (index : nat) (items : list (item input)) : vres (list pyval) :=
  match items with
  | [] => VOk []
  | Raise _ :: _ => next_error i index
  | It x :: items' =>
      match mc_incr mc with
      | (VErr e, _) => VErr e
      | (VOk _, mc') =>
          match no_validator_loop mc' i (S index) items' with
          | VOk vs => VOk (input_object x :: vs)
          | VErr e => VErr e
          end
      end
  end.

(** list.rs:60-94 [length_check!], [min_length_check!]: [None] when satisfied. *)
Definition min_check (c : collection) (i : input) (mn : option nat) (len : nat) : option verror :=
  match mn with
  | Some n => if Nat.ltb len n then Some (LineErrors [new_error (ETooShort c n len) i]) else None
  | None => None
  end.
Definition max_check_err (c : collection) (i : input) (mx : option nat) (len : nat) : option verror :=
  match mx with
  | Some n => if Nat.ltb n len then Some (LineErrors [new_error (ETooLong c n (Some len)) i]) else None
  | None => None
  end.

(** The length limits and flags of a collection schema. *)
Record coll := { co_strict : bool; co_min : option nat; co_max : option nat; co_fail_fast : bool }.

(** What [input.validate_list] etc. return: an exactness, the items, whether the
    length is known, and whether it is an exact Python list object. *)
Record seq := { sq_items : list (item input); sq_len : option nat; sq_exactness : exactness; sq_py_list : bool }.

Definition items_of (l : list (item input)) : list pyval :=
  flat_map (fun it => match it with It i => [input_object i] | Raise _ => [] end) l.

(** list.rs:120-163 [ListValidator::validate], from the result of
    [input.validate_list] on. *)
Definition list_validate (c : coll) (child : option validator)
    (validate_list : bool -> input -> vres seq) (i : input) (s : state) : vres pyval * state :=
  match validate_list (strict_or s (co_strict c)) i with
  | VErr e => (VErr e, s)
  | VOk sq =>
      let s := floor_exactness (sq_exactness sq) s in
      let mc := {| mc_current := 0; mc_max := co_max c; mc_field := CList; mc_input := i; mc_actual := sq_len sq |} in
      let finish (r : vres (list pyval) * state) :=
        match r with
        | (VErr e, s') => (VErr e, s')
        | (VOk out, s') =>
            match min_check CList i (co_min c) (length out) with
            | Some e => (VErr e, s')
            | None => (VOk (PList out), s')
            end
        end in
      match child with
      | Some v => finish (validate_iter_to_vec v (co_fail_fast c) mc (sq_items sq) s)
      | None =>
          if sq_py_list sq then
            let l := items_of (sq_items sq) in
            match min_check CList i (co_min c) (length l) with
            | Some e => (VErr e, s)
            | None =>
                match max_check_err CList i (co_max c) (length l) with
                | Some e => (VErr e, s)
                | None => (VOk (PList l), s)
                end
            end
          else finish (no_validator_loop mc i 0 (sq_items sq), s)
      end
  end.

(** ** Sets *)

(** return_enums.rs:198-214 [validate_add]. *)
Definition validate_add (child : validator) (set : list pyval) (i : input) (s : state) : vres (list pyval) * state :=
  match child i s with
  | (VOk v, s') => if hashable v then (VOk (set_add v set), s') else (val_err ESetItemNotHashable i, s')
  | (VErr e, s') => (VErr e, s')
  end.

(** return_enums.rs:216-270 [validate_iter_to_set]. *)
Fixpoint set_loop (child : validator) (fail_fast : bool) (c : collection) (i0 : input) (mx : option nat)
    (allow_partial : partial_mode) (set : list pyval) (errors : list line_error)
    (items : list (nat * bool * item input)) (s : state) : vres (list pyval) * state :=
  match items with
  | [] => ((if is_nil errors then VOk set else VErr (LineErrors errors)), s)
  | (index, is_last_partial, it) :: items' =>
      let s := set_partial (if is_last_partial then allow_partial else PartialOff) s in
      let continue_with (set' : list pyval) (errors' : list line_error) (s' : state) :=
        if fail_fast && negb (is_nil errors') then (VErr (LineErrors errors'), s')
        else set_loop child fail_fast c i0 mx allow_partial set' errors' items' s' in
      match it with
      | Raise _ => (next_error i0 index, s)
      | It i =>
          match validate_add child set i s with
          | (VOk set', s') =>
              match mx with
              | Some n => if Nat.ltb n (length set') then (val_err (ETooLong c n None) i0, s') else continue_with set' errors s'
              | None => continue_with set' errors s'
              end
          | (VErr (LineErrors es), s') =>
              continue_with set (if is_last_partial then errors else errors ++ map (with_outer (index_loc index)) es) s'
          | (VErr Omit, s') => continue_with set errors s'
          | (VErr e, s') => (VErr e, s')
          end
      end
  end.

Definition validate_iter_to_set (child : validator) (fail_fast : bool) (c : collection) (i0 : input) (mx : option nat)
    (items : list (item input)) (s : state) : vres (list pyval) * state :=
  set_loop child fail_fast c i0 mx (st_partial s) [] [] (enumerate_last_partial s items) s.

(** set.rs:62-85 and frozenset.rs [validate]. *)
Definition set_validate (frozen : bool) (c : coll) (child : validator)
    (validate_set : bool -> input -> vres seq) (i : input) (s : state) : vres pyval * state :=
  let kind := if frozen then CFrozenset else CSet in
  match validate_set (strict_or s (co_strict c)) i with
  | VErr e => (VErr e, s)
  | VOk sq =>
      let s := floor_exactness (sq_exactness sq) s in
      match validate_iter_to_set child (co_fail_fast c) kind i (co_max c) (sq_items sq) s with
      | (VErr e, s') => (VErr e, s')
      | (VOk out, s') =>
          match min_check kind i (co_min c) (length out) with
          | Some e => (VErr e, s')
          | None => (VOk (if frozen then PFrozenSet out else PSet out), s')
          end
      end
  end.

(** ** Dicts *)

(** dict.rs:113-160 [consume_iterator].  Each entry is a key input, its location
    item and a value input, or an error of the mapping's own iteration. *)
Inductive entry := Entry (key : input) (key_loc : loc_item) (value : input) | BadEntry (e : verror).
Definition key_marker : loc_item := LStr (lit "[key]").

Definition set_item (k v : pyval) (d : list (pyval * pyval)) : vres (list (pyval * pyval)) :=
  if hashable k then VOk (dict_set k v d) else VErr (InternalErr XTypeError).

Fixpoint dict_loop (kv vv : validator) (allow_partial : partial_mode)
    (output : list (pyval * pyval)) (errors : list line_error)
    (items : list (nat * bool * entry)) (s : state) : vres (list (pyval * pyval)) * list line_error * state :=
  match items with
  | [] => (VOk output, errors, s)
  | (_, is_last_partial, en) :: items' =>
      let s := set_partial PartialOff s in
      match en with
      | BadEntry e => (VErr e, errors, s)
      | Entry key kloc value =>
          let with_value (output_key : option pyval) (errors : list line_error) (s : state) :=
            let s := set_partial (if is_last_partial then allow_partial else PartialOff) s in
            match vv value s with
            | (VOk v, s') =>
                match output_key with
                | Some k =>
                    match set_item k v output with
                    | VOk output' => dict_loop kv vv allow_partial output' errors items' s'
                    | VErr e => (VErr e, errors, s')
                    end
                | None => dict_loop kv vv allow_partial output errors items' s'
                end
            | (VErr (LineErrors es), s') =>
                dict_loop kv vv allow_partial output
                  (if is_last_partial then errors else errors ++ map (with_outer kloc) es) items' s'
            | (VErr Omit, s') => dict_loop kv vv allow_partial output errors items' s'
            | (VErr e, s') => (VErr e, errors, s')
            end in
          match kv key s with
          | (VOk k, s') => with_value (Some k) errors s'
          | (VErr (LineErrors es), s') =>
              with_value None (errors ++ map (fun e => with_outer kloc (with_outer key_marker e)) es) s'
          | (VErr Omit, s') => dict_loop kv vv allow_partial output errors items' s'
          | (VErr e, s') => (VErr e, errors, s')
          end
      end
  end.

(** dict.rs:72-92 and 152-160 [validate]. *)
Definition dict_validate (c : coll) (kv vv : validator)
    (validate_dict : bool -> input -> vres (list entry)) (i : input) (s : state) : vres pyval * state :=
  match validate_dict (strict_or s (co_strict c)) i with
  | VErr e => (VErr e, s)
  | VOk entries =>
      match dict_loop kv vv (st_partial s) [] [] (enumerate_last_partial s entries) s with
      | (VErr e, _, s') => (VErr e, s')
      | (VOk output, errors, s') =>
          if is_nil errors then
            match min_check CDict i (co_min c) (length output) with
            | Some e => (VErr e, s')
            | None =>
                match max_check_err CDict i (co_max c) (length output) with
                | Some e => (VErr e, s')
                | None => (VOk (PDict output), s')
                end
            end
          else (VErr (LineErrors errors), s')
      end
  end.

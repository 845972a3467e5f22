(** Model of unions (src/validators/union.rs) over arbitrary member validators. *)
From Coq Require Import List NArith ZArith Bool.
From Verif Require Import Base Float64 Values VState LookupKey Collections Child Inputs.
Import ListNotations.
Open Scope nat_scope.

(** union.rs:38-44 and 61-72: a member and its label; a member without a label is
    labelled by its name (219-221). *)
Record choice := { ch_validator : validator; ch_label : str }.

(** validation_state.rs:11-16: the derived order [Lax < Strict < Exact]. *)
Definition exactness_rank (e : exactness) : nat := match e with Lax => 0 | Strict => 1 | Exact => 2 end.
Definition exactness_lt (a b : exactness) : bool := exactness_rank a <? exactness_rank b.

(** union.rs:111,124-130: best match so far: the value, its exactness and its count. *)
Definition match_ := (pyval * exactness * option nat)%type.

(** union.rs:148-157: the new success replaces the current best match. *)
Definition replaces (best : option match_) (e : exactness) (n : option nat) : bool :=
  match best with
  | None => true
  | Some (_, cur_e, cur_n) =>
      match cur_n, n with
      | Some c, Some m => if negb (c =? m) then c <? m else exactness_lt cur_e e
      | _, _ => exactness_lt cur_e e
      end
  end.

(** union.rs:283-318 [MaybeErrors]: either a custom error, or the errors of each
    failed member with its label. *)
Definition member_errors := list (str * list line_error).
Definition push_errors (custom : option etype) (errs : member_errors) (c : choice) (lines : list line_error) : member_errors :=
  match custom with Some _ => errs | None => errs ++ [(ch_label c, lines)] end.
Definition into_val_error (custom : option etype) (errs : member_errors) (i : input) : verror :=
  match custom with
  | Some t => LineErrors [new_error t i]
  | None => LineErrors (flat_map (fun e => map (with_outer (LStr (fst e))) (snd e)) errs)
  end.

(** How the loop over the members ends: all tried, or an early return. *)
Inductive loop_end := Tried (best : option match_) (errs : member_errors) (s : state) | Returned (r : vres pyval) (s : state).

(** union.rs:113-172: the loop of [validate_smart]; [old_e], [old_n] were saved before
    it. *)
Fixpoint smart_loop (custom : option etype) (old_e : option exactness) (old_n : option nat)
    (cs : list choice) (i : input) (best : option match_) (errs : member_errors) (s : state) : loop_end :=
  match cs with
  | [] => Tried best errs s
  | c :: cs' =>
      let '(r, s1) := ch_validator c i (set_fields_set None (set_exactness (Some Exact) s)) in
      match r with
      | VOk v =>
          match st_exactness s1, st_fields_set s1 with
          | Some Exact, None => Returned (VOk v) (set_fields_set old_n (set_exactness old_e s1))
          | oe, n =>
              let e := unwrap_or oe Lax in
              smart_loop custom old_e old_n cs' i (if replaces best e n then Some (v, e, n) else best) errs s1
          end
      | VErr (LineErrors lines) =>
          smart_loop custom old_e old_n cs' i best (match best with None => push_errors custom errs c lines | Some _ => errs end) s1
      | VErr e => Returned (VErr e) s1
      end
  end.

(** union.rs:99-190 [validate_smart]. *)
Definition validate_smart (custom : option etype) (cs : list choice) : validator := fun i s =>
  match smart_loop custom (st_exactness s) (st_fields_set s) cs i None [] s with
  | Returned r s1 => (r, s1)
  | Tried best errs s1 =>
      let s2 := set_fields_set (st_fields_set s) (set_exactness (st_exactness s) s1) in
      match best with
      | Some (v, e, n) =>
          let s3 := floor_exactness e s2 in
          (VOk v, match n with Some k => add_fields_set k s3 | None => s3 end)
      | None => (VErr (into_val_error custom errs i), s2)
      end
  end.

(** union.rs:192-209 [validate_left_to_right]. *)
Fixpoint ltr_loop (custom : option etype) (cs : list choice) (i : input) (errs : member_errors) (s : state) : vres pyval * state :=
  match cs with
  | [] => (VErr (into_val_error custom errs i), s)
  | c :: cs' =>
      let '(r, s1) := ch_validator c i s in
      match r with
      | VErr (LineErrors lines) => ltr_loop custom cs' i (push_errors custom errs c lines) s1
      | _ => (r, s1)
      end
  end.
Definition validate_left_to_right (custom : option etype) (cs : list choice) : validator :=
  fun i s => ltr_loop custom cs i [] s.

(** union.rs:20-35 and 219-233, 75-81: the mode; a single choice is used directly
    unless [auto_collapse] is off; no choice is a schema error. *)
Inductive union_mode := UnionSmart | UnionLeftToRight.
Definition union_build (mode : union_mode) (custom : option etype) (auto_collapse : bool) (cs : list choice) : option validator :=
  match cs with
  | [] => None
  | [c] =>
      if auto_collapse then Some (ch_validator c)
      else Some (match mode with UnionSmart => validate_smart custom cs | UnionLeftToRight => validate_left_to_right custom cs end)
  | _ => Some (match mode with UnionSmart => validate_smart custom cs | UnionLeftToRight => validate_left_to_right custom cs end)
  end.

(** What a tuple schema means: a list of slots, each given an item or left to its
    default. *)
From Coq Require Import List NArith ZArith Bool.
From Verif Require Import Base Float64 Values VState Collections CollectionsSpec Child Tuple.
Import ListNotations.
Open Scope nat_scope.

(** The schemas of the items of an input of length [n]: the variadic schema is repeated
    so that prefix, repeated part and suffix cover the input. *)
Definition slots (c : tuple_cfg) (n : nat) : list cv :=
  match tu_variadic c with
  | None => tu_validators c
  | Some k =>
      match skipn k (tu_validators c) with
      | [] => []
      | v :: tail => firstn k (tu_validators c) ++ repeat v (n - (length (tu_validators c) - 1)) ++ tail
      end
  end.

(** The result for one slot: from the item given, or from the schema's default. *)
Inductive slot_result := Given (r : vres pyval) | Absent (r : vres (option pyval)).

(** Slot [k] gets item [k], if there is one. *)
Fixpoint run_slots (k : nat) (vs : list cv) (xs : list input) (s : state) : list slot_result * state :=
  match vs with
  | [] => ([], s)
  | v :: vs' =>
      let '(r, s1) :=
        match xs with
        | x :: _ => let '(r, s1) := cv_validate v x s in (Given r, s1)
        | [] => let '(r, s1) := cv_default v (Some (LInt (Z.of_nat k))) s in (Absent r, s1)
        end in
      let '(rs, s2) := run_slots (S k) vs' (tl xs) s1 in (r :: rs, s2)
  end.

(** The slot has a value, or its schema asked to omit it. *)
Definition slot_ok (r : slot_result) : Prop :=
  match r with Given (VOk _) | Given (VErr Omit) | Absent (VOk (Some _)) => True | _ => False end.
(** The slot's result does not abort the validation. *)
Definition slot_regular (r : slot_result) : Prop :=
  match r with Given r => regular r | Absent (VOk _) => True | Absent (VErr _) => False end.
Definition slot_value (r : slot_result) : list pyval :=
  match r with Given (VOk v) | Absent (VOk (Some v)) => [v] | _ => [] end.
Definition slot_values (rs : list slot_result) : list pyval := flat_map slot_value rs.
(** How many values come from items of the input. *)
Definition given_values (rs : list slot_result) : nat :=
  length (filter (fun r => match r with Given (VOk _) => true | _ => false end) rs).
(** The slot's errors, at location [l]. *)
Definition slot_errors (i : input) (l : nat) (r : slot_result) : list line_error :=
  match r with
  | Given (VErr (LineErrors es)) => map (with_outer (LInt (Z.of_nat l))) es
  | Absent (VOk None) => [new_error_loc EMissing i (LInt (Z.of_nat l))]
  | _ => []
  end.
Fixpoint slots_errors (i : input) (loc : nat -> nat) (k : nat) (rs : list slot_result) : list line_error :=
  match rs with [] => [] | r :: rs' => slot_errors i (loc k) r ++ slots_errors i loc (S k) rs' end.

(** The location item reported for slot [k] of an input of length [n]: its position,
    except that in the suffix of a variadic tuple with a non-empty repeated part it is
    one less. *)
Definition reported_position (c : tuple_cfg) (n k : nat) : nat :=
  match tu_variadic c with
  | None => k
  | Some h =>
      let middle := n - (length (tu_validators c) - 1) in
      if Nat.leb (h + middle) k && negb (Nat.eqb middle 0) then k - 1 else k
  end.
(** The length error added at the end. *)
Definition too_short (c : tuple_cfg) (i : input) (vs : list pyval) : list line_error :=
  match tu_min c with
  | Some mn => if Nat.ltb (length vs) mn then [new_error (ETooShort CTuple mn (length vs)) i] else []
  | None => []
  end.
(** The variadic index, if any, designates one of the schemas (checked on building). *)
Definition good_tuple (c : tuple_cfg) : Prop :=
  match tu_variadic c with Some k => k < length (tu_validators c) | None => True end.

(** What validating a collection means, in terms of the results of the child
    validator on the items, the state being passed from one item to the next. *)
From Coq Require Import List NArith ZArith Bool.
From Verif Require Import Base Float64 Values VState Collections.
Import ListNotations.
Open Scope nat_scope.

(** The child's results on the items, one after the other.  Only the last item is
    validated in partial mode [p]; a collection validated without allow_partial has
    [p = PartialOff]. *)
Fixpoint trace (child : validator) (p : partial_mode) (xs : list input) (s : state) : list (vres pyval) * state :=
  match xs with
  | [] => ([], s)
  | x :: xs' =>
      let '(r, s1) := child x (set_partial (match xs' with [] => p | _ => PartialOff end) s) in
      let '(rs, s2) := trace child p xs' s1 in (r :: rs, s2)
  end.

(** A result that does not stop the collection. *)
Definition regular (r : vres pyval) : Prop :=
  match r with VOk _ | VErr Omit | VErr (LineErrors _) => True | VErr _ => False end.
Definition is_failure (r : vres pyval) : Prop := exists es, r = VErr (LineErrors es).

(** The values produced, in order. *)
Definition values (rs : list (vres pyval)) : list pyval := flat_map (fun r => match r with VOk v => [v] | VErr _ => [] end) rs.

(** How many items were produced or failed, i.e. were not omitted. *)
Definition counted (rs : list (vres pyval)) : nat :=
  length (filter (fun r => match r with VOk _ | VErr (LineErrors _) => true | _ => false end) rs).

(** The errors of every failing item under its index, counting from [k]; in partial
    mode those of the last item are forgiven. *)
Fixpoint located (p : partial_mode) (k : nat) (rs : list (vres pyval)) : list line_error :=
  match rs with
  | [] => []
  | r :: rs' =>
      (match r with
       | VErr (LineErrors es) =>
           if is_active p && match rs' with [] => true | _ => false end then []
           else map (with_outer (LInt (Z.of_nat k))) es
       | _ => []
       end) ++ located p (S k) rs'
  end.

(** Item [k] of [n] is the last one of a partial input. *)
Definition forgiven (p : partial_mode) (k n : nat) : Prop := is_active p = true /\ S k = n.

Definition within (mx : option nat) (n : nat) : Prop := match mx with Some m => n <= m | None => True end.
Definition at_least (mn : option nat) (n : nat) : Prop := match mn with Some m => m <= n | None => True end.

(** No validator reports failure with an empty list of errors. *)
Definition nonempty_errors (child : validator) : Prop :=
  forall i s es s', child i s = (VErr (LineErrors es), s') -> es <> [].

(** ** Sets: an item also fails when its value cannot be hashed. *)
Definition hashing (child : validator) : validator := fun i s =>
  match child i s with
  | (VOk v, s') => if hashable v then (VOk v, s') else (VErr (LineErrors [new_error ESetItemNotHashable i]), s')
  | (VErr e, s') => (VErr e, s')
  end.

(** ** Dicts *)

(** Results on one entry: the key's, and the value's unless the key ends it. *)
Fixpoint dict_trace (kv vv : validator) (p : partial_mode) (xs : list (input * input)) (s : state)
  : list (vres pyval * option (vres pyval)) * state :=
  match xs with
  | [] => ([], s)
  | (k, v) :: xs' =>
      let '(rk, s1) := kv k (set_partial PartialOff s) in
      let '(ro, s2) :=
        match rk with
        | VOk _ | VErr (LineErrors _) =>
            let '(rv, s2) := vv v (set_partial (match xs' with [] => p | _ => PartialOff end) s1) in (Some rv, s2)
        | VErr _ => (None, s1)
        end in
      let '(rs, s3) := dict_trace kv vv p xs' s2 in ((rk, ro) :: rs, s3)
  end.

(** The (key, value) pairs produced, in input order. *)
Definition pairs (rs : list (vres pyval * option (vres pyval))) : list (pyval * pyval) :=
  flat_map (fun r => match r with (VOk k, Some (VOk v)) => [(k, v)] | _ => [] end) rs.

Definition errors_of (r : vres pyval) : list line_error := match r with VErr (LineErrors es) => es | _ => [] end.

(** Key errors lie under the key and the marker "[key]", value errors under the key;
    value errors of the last entry of a partial input are forgiven. *)
Fixpoint dict_located (p : partial_mode) (locs : list loc_item) (rs : list (vres pyval * option (vres pyval))) : list line_error :=
  match locs, rs with
  | l :: locs', (rk, ro) :: rs' =>
      map (fun e => with_outer l (with_outer (LStr (lit "[key]")) e)) (errors_of rk) ++
      (match ro with
       | Some rv => if is_active p && match rs' with [] => true | _ => false end then [] else map (with_outer l) (errors_of rv)
       | None => []
       end) ++ dict_located p locs' rs'
  | _, _ => []
  end.

Definition dict_regular (r : vres pyval * option (vres pyval)) : Prop :=
  regular (fst r) /\ match snd r with Some rv => regular rv | None => True end /\
  match r with (VOk k, Some (VOk _)) => hashable k = true | _ => True end.

(** [v] is the value of the last pair whose key equals [k]. *)
Definition last_value (ps : list (pyval * pyval)) (k v : pyval) : Prop :=
  exists ps1 k1 ps2, ps = ps1 ++ (k1, v) :: ps2 /\ py_eq k k1 = true /\ forall k2 v2, In (k2, v2) ps2 -> py_eq k k2 = false.

(** Entries of a mapping: key, its location item, value. *)
Definition to_entry (e : input * loc_item * input) : entry := Entry (fst (fst e)) (snd (fst e)) (snd e).
Definition kv_of (e : input * loc_item * input) : input * input := (fst (fst e), snd e).
Definition loc_of (e : input * loc_item * input) : loc_item := snd (fst e).

(** Python equality behaves on these keys (NaN does not). *)
Definition equiv_on (ks : list pyval) : Prop :=
  (forall a, In a ks -> py_eq a a = true) /\
  (forall a b, In a ks -> In b ks -> py_eq a b = true -> py_eq b a = true) /\
  (forall a b c, In a ks -> In b ks -> In c ks -> py_eq a b = true -> py_eq b c = true -> py_eq a c = true).


(** The item before [post] is not the forgivable one. *)
Definition later (p : partial_mode) (post : list (item input)) : Prop := is_active p = false \/ post <> [].


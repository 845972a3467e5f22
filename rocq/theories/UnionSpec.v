(** What a union is documented to do, in terms of running each member on its own. *)
From Coq Require Import List NArith ZArith Bool.
From Verif Require Import Base Float64 Values VState Union.
Import ListNotations.
Open Scope nat_scope.

(** The outcome of trying one member. *)
Record outcome := { o_label : str; o_result : vres pyval; o_exactness : option exactness; o_count : option nat }.

(** Every member is tried from a state that claims an exact match and no fields set. *)
Definition fresh (s : state) : state := set_fields_set None (set_exactness (Some Exact) s).

(** Trying all the members in order, in smart mode. *)
Fixpoint outcomes (cs : list choice) (i : input) (s : state) : list outcome :=
  match cs with
  | [] => []
  | c :: cs' =>
      let '(r, s1) := ch_validator c i (fresh s) in
      {| o_label := ch_label c; o_result := r; o_exactness := st_exactness s1; o_count := st_fields_set s1 |} :: outcomes cs' i s1
  end.

(** Trying all the members in order, left to right, each from the state the previous
    one left. *)
Fixpoint ltr_outcomes (cs : list choice) (i : input) (s : state) : list (outcome * state) :=
  match cs with
  | [] => []
  | c :: cs' =>
      let '(r, s1) := ch_validator c i s in
      ({| o_label := ch_label c; o_result := r; o_exactness := st_exactness s1; o_count := st_fields_set s1 |}, s1) :: ltr_outcomes cs' i s1
  end.

Definition accepted (o : outcome) : Prop := exists v, o_result o = VOk v.
Definition rejected (o : outcome) : Prop := exists es, o_result o = VErr (LineErrors es).
Definition errors_of (o : outcome) : list line_error := match o_result o with VErr (LineErrors es) => es | _ => [] end.

(** The documented order: more fields set first, then the more exact match; members
    without fields are compared by exactness. *)
Definition exact_lt (a b : exactness) : Prop :=
  match a, b with Lax, Strict | Lax, Exact | Strict, Exact => True | _, _ => False end.
Definition exactness_of (o : outcome) : exactness := match o_exactness o with Some e => e | None => Lax end.
Definition better (a b : outcome) : Prop :=
  match o_count a, o_count b with
  | Some m, Some n => n < m \/ (n = m /\ exact_lt (exactness_of b) (exactness_of a))
  | _, _ => exact_lt (exactness_of b) (exactness_of a)
  end.

(** [o] is the best of [outs], the earliest if several are equally good. *)
Definition best_of (outs : list outcome) (o : outcome) : Prop :=
  exists pre post, outs = pre ++ o :: post /\ accepted o /\
    (forall p, In p pre -> accepted p -> better o p) /\ (forall p, In p post -> accepted p -> ~ better p o).

(** All the accepting members count the fields they set, or none does. *)
Definition comparable (outs : list outcome) : Prop :=
  (forall o, In o outs -> accepted o -> o_count o <> None) \/ (forall o, In o outs -> accepted o -> o_count o = None).

(** The errors of a failed union. *)
Definition labelled (outs : list outcome) : list line_error :=
  concat (map (fun o => map (with_outer (LStr (o_label o))) (errors_of o)) outs).

(** [a] is at most [b]; a state that does not track exactness stays so. *)
Definition exactness_le (a b : option exactness) : Prop :=
  match a, b with None, None => True | Some x, Some y => x = y \/ exact_lt x y | _, _ => False end.
Definition count_le (a b : option nat) : Prop :=
  match a, b with None, _ => True | Some m, Some n => m <= n | Some _, None => False end.

(** The bookkeeping of the caller is preserved by a validator: exactness only goes
    down, the number of fields set only goes up. *)
Definition finished (r : vres pyval) : Prop := (exists v, r = VOk v) \/ (exists es, r = VErr (LineErrors es)).
Definition keeps_books (v : validator) : Prop := forall i s r s',
  v i s = (r, s') -> finished r -> exactness_le (st_exactness s') (st_exactness s) /\ count_le (st_fields_set s) (st_fields_set s').

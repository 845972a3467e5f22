(** What it means that include and exclude select parts of the data: the data pruned. *)
From Coq Require Import List NArith ZArith Bool.
From Verif Require Import Base Values Filter FilterSpec SerBase Ser.
Import ListNotations.
Open Scope nat_scope.

(** [prune keep v]: [v] without the items of its dicts, lists and tuples whose path is not
    kept.  A path is a list of dict keys and of indices. *)
Definition under (keep : list key -> bool) (k : key) : list key -> bool := fun r => keep (k :: r).
Fixpoint prune (keep : list key -> bool) (v : pyval) {struct v} : pyval :=
  let seq := fix seq (i : nat) (l : list pyval) : list pyval :=
    match l with
    | [] => []
    | w :: l =>
        let k := KInt (Z.of_nat i) in
        if keep [k] then prune (under keep k) w :: seq (S i) l else seq (S i) l
    end in
  match v with
  | PList l => PList (seq 0 l)
  | PTuple l => PTuple (seq 0 l)
  | PDict d =>
      PDict ((fix go (d : list (pyval * pyval)) : list (pyval * pyval) :=
                match d with
                | [] => []
                | (n, w) :: d => if keep [key_of n] then (n, prune (under keep (key_of n)) w) :: go d else go d
                end) d)
  | _ => v
  end.

(** The paths that the options of a call keep: included and not excluded. *)
Definition selected (o : options) (p : list key) : bool := included (o_include o) p && negb (excluded (o_exclude o) p).

(** The same call without [include] and [exclude]. *)
Definition unfiltered (o : options) : options :=
  {| o_by_alias := o_by_alias o; o_exclude_unset := o_exclude_unset o; o_exclude_defaults := o_exclude_defaults o;
     o_exclude_none := o_exclude_none o; o_round_trip := o_round_trip o; o_warnings := o_warnings o; o_fallback := o_fallback o;
     o_as_any := o_as_any o; o_include := None; o_exclude := None |}.

(** Plain data: scalars, lists, tuples, dicts, and sets of scalars. *)
Definition scalar (v : pyval) : bool :=
  match v with PNone | PBool _ | PInt _ | PFloat _ | PStr _ | PBytes _ => true | _ => false end.
Fixpoint plain (v : pyval) : bool :=
  match v with
  | PList l | PTuple l => forallb plain l
  | PSet l | PFrozenSet l => forallb scalar l
  | PDict d => forallb (fun kv => plain (snd kv)) d
  | _ => scalar v
  end.
(** How many containers deep it is, itself included. *)
Fixpoint height (v : pyval) : nat :=
  match v with
  | PList l | PTuple l | PSet l | PFrozenSet l => S (fold_right (fun w n => Nat.max (height w) n) 0 l)
  | PDict d => S (fold_right (fun kv n => Nat.max (height (snd kv)) n) 0 d)
  | _ => 1
  end.

(** The items of a value, with what names them. *)
Inductive item_at : pyval -> key -> pyval -> Prop :=
| at_list l i w : nth_error l i = Some w -> item_at (PList l) (KInt (Z.of_nat i)) w
| at_tuple l i w : nth_error l i = Some w -> item_at (PTuple l) (KInt (Z.of_nat i)) w
| at_dict d n w : In (n, w) d -> item_at (PDict d) (key_of n) w.
(** The indices a filter uses for a list or tuple of the data are those of its items,
    counted from the start: [C46] is about the other ones. *)
Definition index_ok (v : pyval) (k : key) : Prop :=
  match v, k with
  | PList l, KInt z | PTuple l, KInt z => (0 <= z < Z.of_nat (length l))%Z \/ l = []
  | _, _ => True
  end.
Fixpoint fits (f : fval) (v : pyval) {struct f} : Prop :=
  match f with
  | FSet l => Forall (index_ok v) l
  | FDict d =>
      (fix all (d : list (key * fval)) : Prop :=
         match d with
         | [] => True
         | (k, g) :: d => (index_ok v k /\ forall k' w, k = k' \/ k = ALL -> item_at v k' w -> fits g w) /\ all d
         end) d
  | _ => True
  end.
Definition fits_top (f : option fval) (v : pyval) : Prop := match f with None => True | Some g => fits g v end.
(** The filters of a call: of the documented type, without conflicts, fitting the data. *)
Definition apt (f : option fval) (v : pyval) : Prop := wf_top f /\ no_conflict f /\ fits_top f v.

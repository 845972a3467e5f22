(** What include and exclude mean, as sets of paths. *)
From Coq Require Import List NArith ZArith Bool.
From Verif Require Import Base Filter.
Import ListNotations.

(** [covers f p]: filter [f] names path [p], or a path above it, entirely.
    [touches f p]: [f] says something about part of what is at [p].
    At each step a filter speaks of the key itself and, through "__all__", of
    every key. *)
Fixpoint covers (f : fval) (p : list key) {struct p} : bool :=
  match f, p with
  | FEll, _ => true
  | FSet l, k :: _ => mem k l || mem ALL l
  | FDict d, k :: r =>
      match lookup k d with Some g => covers g r | None => false end ||
      match lookup ALL d with Some g => covers g r | None => false end
  | _, _ => false
  end.
Fixpoint touches (f : fval) (p : list key) {struct p} : bool :=
  match f, p with
  | FSet _, [] | FDict _, [] => true
  | FDict d, k :: r =>
      match lookup k d with Some g => touches g r | None => false end ||
      match lookup ALL d with Some g => touches g r | None => false end
  | _, _ => false
  end.

(** The documented type of filters: dicts and sets all the way down to [...];
    dicts have distinct keys, sets distinct members. *)
Fixpoint well_formed (f : fval) : Prop :=
  match f with
  | FEll => True
  | FSet l => NoDup l
  | FDict d =>
      NoDup (map fst d) /\
      (fix all (d : list (key * fval)) : Prop := match d with [] => True | (_, g) :: d' => well_formed g /\ all d' end) d
  | _ => False
  end.
Definition wf_top (f : option fval) : Prop :=
  match f with None => True | Some g => well_formed g /\ g <> FEll end.

(** The same path is not named both entirely and in part (for instance
    [{'__all__': ..., 0: {'a'}}] does that for path [0]). *)
Definition no_conflict (f : option fval) : Prop :=
  match f with None => True | Some g => forall p, covers g p = true -> touches g p = false end.

Definition excluded (f : option fval) (p : list key) : bool :=
  match f with None => false | Some g => covers g p end.
Definition included (f : option fval) (p : list key) : bool :=
  match f with None => true | Some g => covers g p || touches g p end.

(** Following the filters down a path of nested items. *)
Fixpoint kept (include exclude : option fval) (p : list key) : res bool :=
  match p with
  | [] => Ok true
  | k :: r =>
      match filter any_filter k include exclude with
      | Ok (Some (i, e)) => kept i e r
      | Ok None => Ok false
      | TypeErr => TypeErr
      | ValueErr => ValueErr
      end
  end.

(** Python's convention for indices into a sequence of length [n]: index [k] is
    item [i]. *)
Open Scope Z_scope.
Definition names_item (n k i : Z) : Prop := (0 <= k /\ i = k) \/ (k < 0 /\ i = n + k).
Definition in_range (n : Z) (k : key) : Prop := match k with KInt z => - n <= z < n | KStr _ => True end.

(** The value universe shared by the validation and serialization models: Python
    objects, JSON values, Python equality and hashing (CPython, trusted), and the
    conversion of JSON values to Python objects. *)
From Coq Require Import List NArith ZArith Bool.
From Verif Require Import Base Float64.
Import ListNotations.
Open Scope Z_scope.

(** Python objects.  [PSub c v] is an instance of a user-defined subclass [c] of
    the built-in type of [v]; [PObj c attrs] is an instance of a user class [c]
    with the given attributes.  Simplification: objects are trees, identity and
    sharing are not represented (cycles are treated in RecGuard.v). *)
Inductive pyval :=
| PNone
| PBool (b : bool)
| PInt (z : Z)
| PFloat (f : f64)
| PStr (s : str)
| PBytes (b : bytes)
| PList (l : list pyval)
| PTuple (l : list pyval)
| PSet (l : list pyval)
| PFrozenSet (l : list pyval)
| PDict (l : list (pyval * pyval))
| PObj (cls : N) (attrs : list (str * pyval))
| PSub (cls : N) (v : pyval).

(** JSON values as jiter parses them: objects keep duplicate keys, numbers are
    ints of any size or doubles. *)
Inductive json :=
| JNull
| JBool (b : bool)
| JInt (z : Z)
| JFloat (f : f64)
| JStr (s : str)
| JArr (l : list json)
| JObj (l : list (str * json)).

(** A float that is exactly an integer compares equal to it. *)
Definition f_eq_Z (f : f64) (z : Z) : bool :=
  match f with
  | S754_zero _ => z =? 0
  | S754_finite s m e =>
      let v := if s then - z else z in
      if 0 <=? e then v =? Z.pos m * 2 ^ e else v * 2 ^ (- e) =? Z.pos m
  | _ => false
  end.
Definition f_eq (a b : f64) : bool := match f_cmp a b with Some Eq => true | _ => false end.

(** Python [==] (trusted).  Simplifications: user classes compare structurally (as
    dataclasses and models do), subclasses inherit [==]; NaN objects are never
    identical. *)
Fixpoint py_eq (a b : pyval) {struct a} : bool :=
  let fix strip (v : pyval) : pyval := match v with PSub _ v' => strip v' | _ => v end in
  let fix all2 (xs ys : list pyval) {struct xs} : bool :=
    match xs, ys with
    | [], [] => true
    | x :: xs', y :: ys' => py_eq x y && all2 xs' ys'
    | _, _ => false
    end in
  let fix subset (xs ys : list pyval) {struct xs} : bool :=
    match xs with [] => true | x :: xs' => existsb (py_eq x) ys && subset xs' ys end in
  let fix sub_dict (xs : list (pyval * pyval)) (ys : list (pyval * pyval)) {struct xs} : bool :=
    match xs with
    | [] => true
    | (k, v) :: xs' => existsb (fun kv => py_eq k (fst kv) && py_eq v (snd kv)) ys && sub_dict xs' ys
    end in
  let fix attrs2 (xs : list (str * pyval)) (ys : list (str * pyval)) {struct xs} : bool :=
    match xs, ys with
    | [], [] => true
    | (k, x) :: xs', (k', y) :: ys' => str_eqb k k' && py_eq x y && attrs2 xs' ys'
    | _, _ => false
    end in
  match a with
  | PSub _ a' => py_eq a' b
  | PNone => match strip b with PNone => true | _ => false end
  | PBool x =>
      let z := if x then 1 else 0 in
      match strip b with PBool y => Bool.eqb x y | PInt y => z =? y | PFloat f => f_eq_Z f z | _ => false end
  | PInt z =>
      match strip b with PBool y => z =? (if y then 1 else 0) | PInt y => z =? y | PFloat f => f_eq_Z f z | _ => false end
  | PFloat f =>
      match strip b with
      | PBool y => f_eq_Z f (if y then 1 else 0) | PInt y => f_eq_Z f y | PFloat g => f_eq f g | _ => false end
  | PStr s => match strip b with PStr t => str_eqb s t | _ => false end
  | PBytes s => match strip b with PBytes t => str_eqb s t | _ => false end
  | PList l => match strip b with PList m => all2 l m | _ => false end
  | PTuple l => match strip b with PTuple m => all2 l m | _ => false end
  | PSet l | PFrozenSet l =>
      match strip b with PSet m | PFrozenSet m => Nat.eqb (length l) (length m) && subset l m | _ => false end
  | PDict l => match strip b with PDict m => Nat.eqb (length l) (length m) && sub_dict l m | _ => false end
  | PObj c l => match strip b with PObj d m => N.eqb c d && attrs2 l m | _ => false end
  end.

(** [hash(v)] does not raise TypeError (trusted). *)
Fixpoint hashable (v : pyval) : bool :=
  match v with
  | PList _ | PSet _ | PDict _ => false
  | PTuple l => forallb hashable l
  | PSub _ v' => hashable v'
  | _ => true
  end.

(** [dict[k] = v] on insertion-ordered items: an equal key keeps its place and its
    key object. *)
Fixpoint dict_set (k v : pyval) (d : list (pyval * pyval)) : list (pyval * pyval) :=
  match d with
  | [] => [(k, v)]
  | (k', v') :: d' => if py_eq k' k then (k', v) :: d' else (k', v') :: dict_set k v d'
  end.

Fixpoint dict_get (k : pyval) (d : list (pyval * pyval)) : option pyval :=
  match d with
  | [] => None
  | (k', v') :: d' => if py_eq k' k then Some v' else dict_get k d'
  end.

(** [set.add]. *)
Definition set_add (x : pyval) (s : list pyval) : list pyval :=
  if existsb (fun y => py_eq y x) s then s else s ++ [x].

(** jiter JsonValue to Python: objects are filled key by key, so the last duplicate
    wins. *)
Fixpoint json_to_py (j : json) : pyval :=
  match j with
  | JNull => PNone
  | JBool b => PBool b
  | JInt z => PInt z
  | JFloat f => PFloat f
  | JStr s => PStr s
  | JArr l => PList (map json_to_py l)
  | JObj l => PDict (fold_left (fun d kv => dict_set (PStr (fst kv)) (json_to_py (snd kv)) d) l [])
  end.

Definition exact_str (v : pyval) : option str := match v with PStr s => Some s | _ => None end.

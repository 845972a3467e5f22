(** Notions for the serialization of generators. *)
From Coq Require Import List NArith ZArith Bool.
From Verif Require Import Base Values Filter SerBase Ser SerGen.
Import ListNotations.
Open Scope Z_scope.

(** The indices named in a filter are those of a list of length n. *)
Definition key_in (n : Z) (k : key) : Prop := match k with KInt z => 0 <= z < n | KStr _ => True end.
Definition keys_in (n : nat) (f : incl) : Prop :=
  match f with
  | Some (FDict d) => Forall (fun kv => key_in (Z.of_nat n) (fst kv)) d
  | Some (FSet l) => Forall (key_in (Z.of_nat n)) l
  | _ => True
  end.

(** The items that the schema's and the caller's filters leave out. *)
Definition left_out (f : schema_filter) (inc exc : incl) (i : nat) : Prop := index_filter f (Z.of_nat i) inc exc None = Ok None.

(** A list of which each member begins with the one before. *)
Fixpoint growing {A} (p : list A) (l : list (list A)) : Prop :=
  match l with [] => True | a :: r => (exists q, a = p ++ q) /\ growing a r end.

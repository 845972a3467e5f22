(** What it means for definition references to be resolved: replace each
    reference by the definition of that name, as deep as one likes. *)
From Coq Require Import List NArith Bool.
From Verif Require Import Base Defs.
Import ListNotations.

(** Every definition declared anywhere in a schema (name, schema), and every name
    referenced anywhere in it. *)
Fixpoint declared (s : schema) : list (str * schema) :=
  match s with
  | SRef _ => []
  | SNode _ ss => flat_map declared ss
  | SDefs ds inner => flat_map (fun '(r, d) => declared d ++ [(r, d)]) ds ++ declared inner
  end.
Fixpoint referenced (s : schema) : list str :=
  match s with
  | SRef r => [r]
  | SNode _ ss => flat_map referenced ss
  | SDefs ds inner => flat_map (fun '(_, d) => referenced d) ds ++ referenced inner
  end.

(** The first [n] levels of what a schema means, given the meaning of names. *)
Inductive tree := TNode (label : N) (children : list tree) | TCut | TDangling.
Fixpoint meaning (n : nat) (env : str -> option schema) (s : schema) {struct n} : tree :=
  match n with
  | O => TCut
  | S n' =>
      (fix go (s : schema) : tree :=
         match s with
         | SNode l ss => TNode l (map (meaning n' env) ss)
         | SDefs _ inner => go inner
         | SRef r => match env r with Some d => meaning n' env d | None => TDangling end
         end) s
  end.
(** The same for the built object, following its slots. *)
Fixpoint behaviour (n : nat) (b : builder) (v : vnode) : tree :=
  match n with
  | O => TCut
  | S n' =>
      match v with
      | VNode l vs => TNode l (map (behaviour n' b) vs)
      | VRef i => match read b i with Some w => behaviour n' b w | None => TDangling end
      end
  end.

(** Specification of the recursion guard, independent of its representation. *)
From Coq Require Import List NArith Bool.
From Verif Require Import Base RecGuard.
Import ListNotations.

(** The pairs a state considers active. *)
Definition members (st : rstate) : list key :=
  match ids st with SArray d => d | SSet s => s end.

(** Two guard states a user cannot tell apart: same active pairs, same depth. *)
Definition same_guard (s1 s2 : rstate) : Prop :=
  (forall k, In k (members s1) <-> In k (members s2)) /\ depth s1 = depth s2.

(** The ideal guard: [active] is simply the chain of enclosing calls.  A call is
    cyclic iff its own pair is among its ancestors. *)
Fixpoint ideal (active : list key) (sc : scope) : verdict :=
  match sc with
  | Scope k children =>
      if mem k active then VCyclic
      else VEntered (map (ideal (k :: active)) children)
  end.

(** Nesting depth of a call tree. *)
Fixpoint height (sc : scope) : nat :=
  match sc with
  | Scope _ children => S (fold_right (fun c m => Nat.max (height c) m) 0 children)
  end.

(** The number of nested guards a build admits. *)
Definition depth_limit (b : build) : N := match b with Release => 255 | Restricted l => l end.

(** The builds that exist (recursion_guard.rs:74-86). *)
Definition real_build (b : build) : Prop :=
  match b with
  | Release => True
  | Restricted l => (l = 235 \/ l = 79 \/ l = 29 \/ l = 99 \/ l = 49)%N
  end.

(** The same ideal traversal for graphs (fuel only bounds the unfolding). *)
Inductive path (succ : key -> list key) : key -> list key -> Prop :=
| path_one k : path succ k [k]
| path_cons k k' p : In k' (succ k) -> path succ k' p -> path succ k (k :: p).

(** Some verdict in the tree is [VCyclic] / [VDepth]. *)
Fixpoint has_cyclic (v : verdict) : bool :=
  match v with VCyclic => true | VDepth => false | VEntered vs => existsb has_cyclic vs end.
Fixpoint has_depth (v : verdict) : bool :=
  match v with VCyclic => false | VDepth => true | VEntered vs => existsb has_depth vs end.

(** Guard states that can occur while calls are in progress: [a] is the chain of
    guards currently held (innermost first). *)
Inductive reachable (b : build) : list key -> rstate -> Prop :=
| r_start : reachable b [] rstate_default
| r_enter a st k st' :
    reachable b a st -> guard_new b k st = GOk st' -> reachable b (k :: a) st'
| r_call a st sc v st' :
    reachable b a st -> (N.of_nat (length a + height sc) <= depth_limit b)%N ->
    run b sc st = Some (v, st') -> reachable b a st'.

(** What the order of the members of a union in smart mode is for. *)
From Coq Require Import List NArith ZArith Bool.
From Verif Require Import Base Float64 IntParse Numbers BytesCodec Values VState LookupKey Collections Child Inputs Scalars Literal Wrappers Union TaggedUnion Tuple ModelFields TypedDict Assign Arguments Classes Interp UnionSpec.
Import ListNotations.
Open Scope nat_scope.

(** What a member answers when it is tried alone. *)
Definition alone (E : env) (defs : nat -> option schema) (fuel : nat) (i : input) (s : state) (m : schema * str) : outcome :=
  let '(r, t) := run E defs fuel (fst m) i (fresh s) in
  {| o_label := snd m; o_result := r; o_exactness := st_exactness t; o_count := st_fields_set t |}.

(** Every member accepts the input or refuses it with errors: no other exception, no omit. *)
Definition all_answer (E : env) (defs : nat -> option schema) (fuel : nat) (i : input) (s : state) (ms : list (schema * str)) : Prop :=
  forall m, In m ms -> accepted (alone E defs fuel i s m) \/ rejected (alone E defs fuel i s m).

(** The member [m] accepts, and better than whichever other member that accepts. *)
Definition stands_out (E : env) (defs : nat -> option schema) (fuel : nat) (i : input) (s : state) (ms : list (schema * str)) (m : schema * str) : Prop :=
  In m ms /\ accepted (alone E defs fuel i s m) /\
  forall m', In m' ms -> accepted (alone E defs fuel i s m') -> m' = m \/ better (alone E defs fuel i s m) (alone E defs fuel i s m').

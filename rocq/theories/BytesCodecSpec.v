(** RFC 4648, stated on bits rather than on shifts. *)
From Coq Require Import List Arith NArith Bool.
From Verif Require Import Base.
Import ListNotations.
Open Scope N_scope.

(** The [n] low bits of [x], most significant first. *)
Fixpoint bits (n : nat) (x : N) : list bool :=
  match n with
  | O => []
  | S m => N.testbit x (N.of_nat m) :: bits m x
  end.

Definition octets (bs : bytes) : Prop := Forall (fun b => b < 256) bs.

(** RFC 4648 tables 1 and 2 (with "+/" or "-_" for 62 and 63). *)
Definition table (c62 c63 : N) : str :=
  lit "ABCDEFGHIJKLMNOPQRSTUVWXYZabcdefghijklmnopqrstuvwxyz0123456789" ++ [c62; c63].
Definition url_table := table 45 95.
Definition std_table := table 43 47.

(** [s] spells the six-bit groups [vs] in the table. *)
Definition spells (t : str) (vs : list N) (s : str) : Prop :=
  Forall2 (fun v c => nth_error t (N.to_nat v) = Some c) vs s.

(** The groups carry exactly the bits of [bs] followed by fewer than six zero bits. *)
Definition groups_of (bs : bytes) (vs : list N) : Prop :=
  Forall (fun v => v < 64) vs /\
  exists z, (z < 6)%nat /\ flat_map (bits 6) vs = flat_map (bits 8) bs ++ repeat false z.

(** [s] is a base-64 text of [bs] over table [t] with [p] padding characters. *)
Definition b64_text (t : str) (bs : bytes) (p : nat) (s : str) : Prop :=
  exists vs body, groups_of bs vs /\ spells t vs body /\ s = body ++ repeat 61 p /\
    (p <= (4 - List.length vs mod 4) mod 4)%nat.
Definition b64_padded (t : str) (bs : bytes) (s : str) : Prop :=
  exists p, b64_text t bs p s /\ (List.length s mod 4 = 0)%nat.

(** Hexadecimal: two digits per byte, either case. *)
Definition hex_digit (v c : N) : Prop :=
  nth_error (lit "0123456789abcdef") (N.to_nat v) = Some c \/
  nth_error (lit "0123456789ABCDEF") (N.to_nat v) = Some c.
Inductive hex_text : bytes -> str -> Prop :=
| hex_nil : hex_text [] []
| hex_cons x y a b bs s : hex_digit x a -> hex_digit y b -> hex_text bs s -> hex_text (16 * x + y :: bs) (a :: b :: s).

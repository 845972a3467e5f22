(** Model of the message truncation of src/tools.rs, on the UTF-8 bytes. *)
From Coq Require Import List NArith ZArith Bool.
From Verif Require Import Base.
Import ListNotations.
Open Scope nat_scope.

(** tools.rs:163-166 [is_utf8_char_boundary]: [(value as i8) >= -0x40]. *)
Definition is_utf8_char_boundary (b : N) : bool :=
  let i8 := (if (b <? 128)%N then Z.of_N b else Z.of_N b - 256)%Z in (-64 <=? i8)%Z.

(** [Iterator::position] and [rposition]. *)
Fixpoint position {A} (p : A -> bool) (l : list A) : option nat :=
  match l with
  | [] => None
  | x :: r => if p x then Some 0 else option_map S (position p r)
  end.
Fixpoint rposition {A} (p : A -> bool) (l : list A) : option nat :=
  match l with
  | [] => None
  | x :: r => match rposition p r with
              | Some i => Some (S i)
              | None => if p x then Some 0 else None
              end
  end.

(** [&l[a..b]]. *)
Definition window {A} (a b : nat) (l : list A) : list A := firstn (b - a) (skipn a l).

(** tools.rs:168-181 [floor_char_boundary]; [None] is the undefined behaviour of
    [unwrap_unchecked] on [None]. *)
Definition floor_char_boundary (v : bytes) (index : nat) : option nat :=
  if length v <=? index then Some (length v)
  else
    let lower_bound := index - 3 in
    match rposition is_utf8_char_boundary (window lower_bound (S index) v) with
    | Some i => Some (lower_bound + i)
    | None => None
    end.

(** tools.rs:183-189 [ceil_char_boundary]. *)
Definition ceil_char_boundary (v : bytes) (index : nat) : nat :=
  let upper_bound := Nat.min (index + 4) (length v) in
  match position is_utf8_char_boundary (window index upper_bound v) with
  | Some pos => pos + index
  | None => upper_bound
  end.

(** [str] slicing panics ([None]) off a character boundary. *)
Definition on_boundary (v : bytes) (i : nat) : bool :=
  (i =? length v) || match nth_error v i with Some b => is_utf8_char_boundary b | None => false end.
Definition slice_to (v : bytes) (i : nat) : option bytes := if on_boundary v i then Some (firstn i v) else None.
Definition slice_from (v : bytes) (i : nat) : option bytes := if on_boundary v i then Some (skipn i v) else None.

(** tools.rs:191-204 [write_truncated_to_limited_bytes]; [None] is a panic
    (including the [mid_point - 1] underflow). *)
Definition write_truncated (v : bytes) (max_len : nat) : option bytes :=
  if max_len <? length v then
    let mid_point := (max_len + 1) / 2 in
    match mid_point with
    | O => None
    | S m =>
        match floor_char_boundary v mid_point with
        | None => None
        | Some f =>
            match slice_to v f, slice_from v (ceil_char_boundary v (length v - m)) with
            | Some a, Some b => Some (a ++ lit "..." ++ b)
            | _, _ => None
            end
        end
    end
  else Some v.

(** What a literal accepts. *)
From Coq Require Import List NArith ZArith Bool.
From Verif Require Import Base Float64 Values.
Import ListNotations.

(** The values that Python's [Literal] allows (PEP 586): None, bools, ints, strings,
    bytes and enum members; an enum member is an object without further parts, equal
    only to itself. *)
Definition pep586 (v : pyval) : Prop :=
  match v with PNone | PBool _ | PInt _ | PStr _ | PBytes _ => True | PObj _ [] => True | _ => False end.

(** A 64-bit integer. *)
Definition is_small_int (v : pyval) : Prop := match v with PInt z => (- 2 ^ 63 <= z < 2 ^ 63)%Z | _ => False end.
Definition is_big_int (v : pyval) : Prop := match v with PInt z => (z < - 2 ^ 63 \/ 2 ^ 63 <= z)%Z | _ => False end.

(** An input that may not be found although it is expected: an integer outside 64
    bits when some expected value is an integer inside. *)
Definition overlooked (expected : list pyval) (v : pyval) : Prop := is_big_int v /\ exists e, In e expected /\ is_small_int e.

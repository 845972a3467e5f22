(** Notions for wrap functions as serializers. *)
From Coq Require Import List NArith ZArith Bool.
From Verif Require Import Base Values Filter SerBase Ser SerWrap.
Import ListNotations.

(** def f(value, handler): return handler(value) *)
Definition call_once (_ : option pyval) (v : pyval) : wprog := WCall v None (fun a => match a with inl b => WReturn b | inr e => WRaise e end).

(** def f(values, handler):
        out = []
        for i, v in enumerate(values):
            try: out.append(handler(v, i))
            except PydanticOmit: pass
        return out *)
Fixpoint each_item (i : nat) (l out : list pyval) : wprog :=
  match l with
  | [] => WReturn (PList out)
  | v :: l => WCall v (Some (KInt (Z.of_nat i))) (fun a =>
      match a with inl b => each_item (S i) l (out ++ [b]) | inr XOmit => each_item (S i) l out | inr e => WRaise e end)
  end.

(** A function that does not call its handler, as a plain function. *)
Definition plain_of (f : option pyval -> pyval -> pyval + wexc) (m : option pyval) (v : pyval) : wprog :=
  match f m v with inl a => WReturn a | inr e => WRaise e end.
Definition as_ferr (e : wexc) : ferr := match e with XUnexpected => FUnexpected | _ => FError end.
Definition as_plain (f : option pyval -> pyval -> pyval + wexc) (m : option pyval) (v : pyval) : pyval + ferr :=
  match f m v with inl a => inl a | inr e => inr (as_ferr e) end.

(** The warnings shown by calls that return: each begins with all shown before. *)
Definition returned (a : handled) : bool := match h_answer a with inl _ => true | inr _ => false end.

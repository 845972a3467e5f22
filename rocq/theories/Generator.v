(** Model of lazily validated generators (src/validators/generator.rs). *)
From Coq Require Import List NArith ZArith Bool.
From Verif Require Import Base Float64 Values VState LookupKey Collections Child Wrappers.
Import ListNotations.
Open Scope nat_scope.

(** What the [k]-th call of the source's [next] does.  Sources may be endless, and may
    go on after an end or an exception. *)
Inductive next_event := NItem (x : input) | NRaise (e : pyexc) | NEnd.
Definition source := nat -> next_event.

(** A list as a source (return_enums.rs:444-480, and Python's own iterators). *)
Definition list_source (xs : list input) : source := fun k => match nth_error xs k with Some x => NItem x | None => NEnd end.

Section Iter.
(** [iter(obj)] on Python objects, if it succeeds. *)
Variable py_iter : pyval -> option source.

(** [validate_iter]: input_python.rs:489-495, input_json.rs:260-286 and 484-486,
    input_string.rs:200-202.  With the object reported in length errors. *)
Definition validate_iter (i : input) : vres (source * pyval) :=
  match i with
  | IPy v => match py_iter v with Some src => VOk (src, v) | None => val_err EIterableType i end
  | IJson (JArr l) => VOk (list_source (map IJson l), json_to_py (JArr l))
  | IJson (JStr t) | IKey t => let l := map (fun c => JStr [c]) t in VOk (list_source (map IJson l), json_to_py (JArr l))
  | IJson (JObj d) => let l := map (fun e => JStr (fst e)) d in VOk (list_source (map IJson l), json_to_py (JArr l))
  | IJson _ | IStrings _ => val_err EIterableType i
  end.
End Iter.

(** generator.rs:20-27 and 97-106: the schema and the iterator object.  [gn_state] is
    the state captured on creation (InternalValidator::new, 240-268). *)
Record gen_cfg := { gc_item : option validator; gc_min : option nat; gc_max : option nat }.
Record generator := { gn_source : source; gn_object : pyval; gn_state : state; gn_calls : nat; gn_index : nat; gn_exactness : option exactness }.

(** generator.rs:63-93 [validate]: nothing is read from the source yet. *)
Definition generator_validate (py_iter : pyval -> option source) (i : input) (s : state) : vres generator * state :=
  let s := set_partial PartialOff s in
  match validate_iter py_iter i with
  | VErr e => (VErr e, s)
  | VOk (src, obj) =>
      (VOk {| gn_source := src; gn_object := obj; gn_state := s; gn_calls := 0; gn_index := 0; gn_exactness := st_exactness s |}, s)
  end.

(** What [__next__] does. *)
Inductive gen_out := GYield (v : pyval) | GStop | GRaise (e : pyexc) | GPanic.

(** A validation error about the whole generator. *)
Definition gen_error (t : etype) (g : generator) : gen_out := GRaise (XValidation [new_error t (IPy (gn_object g))]).

(** generator.rs:114-190 [__next__] and 301-345 [InternalValidator::validate]. *)
Definition gen_next (c : gen_cfg) (g : generator) : gen_out * generator :=
  let after index e := {| gn_source := gn_source g; gn_object := gn_object g; gn_state := gn_state g; gn_calls := S (gn_calls g); gn_index := index; gn_exactness := e |} in
  match gn_source g (gn_calls g) with
  | NRaise e => (GRaise e, after (gn_index g) (gn_exactness g))
  | NItem x =>
      let index := gn_index g in
      match gc_item c with
      | Some v =>
          if match gc_max c with Some mx => Nat.leb mx index | None => false end
          then (match gc_max c with Some mx => gen_error (ETooLong CGenerator mx None) g | None => GPanic end, after (S index) (gn_exactness g))
          else
            match v x (handler_state (gn_state g) (gn_exactness g)) with
            | (VOk w, s') => (GYield w, after (S index) (st_exactness s'))
            | (VErr err, s') =>
                ((match to_exception (Some (index_loc index)) err with Some e => GRaise e | None => GPanic end), after (S index) (st_exactness s'))
            end
      | None => (GYield (input_object x), after (S index) (gn_exactness g))
      end
  | NEnd =>
      let g' := after (gn_index g) (gn_exactness g) in
      match gc_min c with
      | Some mn => if Nat.ltb (gn_index g) mn then (gen_error (ETooShort CGenerator mn (gn_index g)) g, g') else (GStop, g')
      | None => (GStop, g')
      end
  end.

(** [n] calls of [__next__], whatever the earlier ones did. *)
Fixpoint gen_run (c : gen_cfg) (n : nat) (g : generator) : list gen_out * generator :=
  match n with
  | 0 => ([], g)
  | S n' => let '(o, g1) := gen_next c g in let '(os, g2) := gen_run c n' g1 in (o :: os, g2)
  end.

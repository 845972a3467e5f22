(** Model of the tuple validator (src/validators/tuple.rs) over arbitrary item
    validators. *)
From Coq Require Import List NArith ZArith Bool.
From Verif Require Import Base Float64 Values VState LookupKey Collections Child.
Import ListNotations.
Open Scope nat_scope.

(** tuple.rs:16-25 [TupleValidator]. *)
Record tuple_cfg := {
  tu_strict : bool; tu_validators : list cv; tu_variadic : option nat;
  tu_min : option nat; tu_max : option nat; tu_fail_fast : bool }.

(** tuple.rs:348-374: the source iterator as the loops see it: it ends at the first
    exception, which is remembered with the number of [next] calls so far.  After that
    nothing is left to read. *)
Record titer := { ti_rest : list (item input); ti_pos : nat; ti_err : option nat }.
Definition ti_next (it : titer) : option input * titer :=
  match ti_rest it with
  | [] => (None, {| ti_rest := []; ti_pos := S (ti_pos it); ti_err := ti_err it |})
  | It x :: r => (Some x, {| ti_rest := r; ti_pos := S (ti_pos it); ti_err := ti_err it |})
  | Raise _ :: _ => (None, {| ti_rest := []; ti_pos := S (ti_pos it); ti_err := Some (S (ti_pos it)) |})
  end.
(** [take(n)] of it. *)
Fixpoint ti_take (n : nat) (it : titer) : list input * titer :=
  match n with
  | 0 => ([], it)
  | S n' =>
      match ti_next it with
      | (Some x, it') => let '(xs, it'') := ti_take n' it' in (x :: xs, it'')
      | (None, it') => ([], it')
      end
  end.

(** The mutable variables of the loops: output, errors, the count of the
    [NextCountingIterator] (tuple.rs:388-413), the iterator and the state. *)
Record tacc := { ta_out : list pyval; ta_errs : list line_error; ta_count : nat; ta_iter : titer; ta_state : state }.
Inductive tres := TDone (a : tacc) | TFail (e : verror) (s : state).

Definition ta_with (out : list pyval) (errs : list line_error) (s : state) (a : tacc) : tacc :=
  {| ta_out := out; ta_errs := errs; ta_count := ta_count a; ta_iter := ta_iter a; ta_state := s |}.
Definition ta_move (it : titer) (a : tacc) : tacc :=
  {| ta_out := ta_out a; ta_errs := ta_errs a; ta_count := S (ta_count a); ta_iter := it; ta_state := ta_state a |}.

Section Loops.
Variable c : tuple_cfg.
Variable i : input.
Variable actual : option nat.

(** tuple.rs:241-264 [push_output_item]. *)
Definition push_output_item (v : pyval) (s : state) (a : tacc) : tres :=
  let out := ta_out a ++ [v] in
  match tu_max c with
  | Some mx => if Nat.ltb mx (length out) then TFail (LineErrors [new_error (ETooLong CTuple mx actual) i]) s
               else TDone (ta_with out (ta_errs a) s a)
  | None => TDone (ta_with out (ta_errs a) s a)
  end.
(** tuple.rs:78-86, 138-145, 177-188: using the result for the item at [index]. *)
Definition use_item (index : nat) (r : vres pyval * state) (a : tacc) : tres :=
  match r with
  | (VOk v, s) => push_output_item v s a
  | (VErr (LineErrors es), s) => TDone (ta_with (ta_out a) (ta_errs a ++ map (with_outer (index_loc index)) es) s a)
  | (VErr Omit, s) => TDone (ta_with (ta_out a) (ta_errs a) s a)
  | (VErr e, s) => TFail e s
  end.
Definition stop_now (a : tacc) : bool := tu_fail_fast c && negb (is_nil (ta_errs a)).

(** tuple.rs:62-102 [validate_tuple_items]. *)
Fixpoint tuple_items (vs : list cv) (a : tacc) : tres :=
  match vs with
  | [] => TDone a
  | v :: vs' =>
      let step :=
        match ti_next (ta_iter a) with
        | (Some x, it') => use_item (ta_count a) (cv_validate v x (ta_state a)) (ta_move it' a)
        | (None, it') =>
            let a' := ta_move it' a in
            let index := ta_count a' - 1 in
            match cv_default v (Some (index_loc index)) (ta_state a) with
            | (VOk (Some x), s) => TDone (ta_with (ta_out a' ++ [x]) (ta_errs a') s a')
            | (VOk None, s) => TDone (ta_with (ta_out a') (ta_errs a' ++ [new_error_loc EMissing i (index_loc index)]) s a')
            | (VErr e, s) => TFail e s
            end
        end in
      match step with
      | TFail e s => TFail e s
      | TDone a' => if stop_now a' then TDone a' else tuple_items vs' a'
      end
  end.

(** tuple.rs:135-151: the rest of the input, when nothing follows the variadic item.
    [rest] is what the iterator has left. *)
Fixpoint tuple_rest (v : cv) (rest : list (item input)) (a : tacc) : tres :=
  match rest with
  | It x :: rest' =>
      match use_item (ta_count a) (cv_validate v x (ta_state a)) (ta_move (snd (ti_next (ta_iter a))) a) with
      | TFail e s => TFail e s
      | TDone a' => if stop_now a' then TDone a' else tuple_rest v rest' a'
      end
  | _ => TDone (ta_move (snd (ti_next (ta_iter a))) a)
  end.

(** tuple.rs:163-193: the same with a buffer holding back the last items; [index] is
    the number of the last item read here. *)
Inductive buffered := BEnd (a : tacc) (buf : list input) (index : nat) | BReturn (r : tres).
Fixpoint tuple_buffered (v : cv) (rest : list (item input)) (buf : list input) (index : nat) (a : tacc) : buffered :=
  match rest with
  | It x :: rest' =>
      match buf ++ [x] with
      | [] => BReturn (TFail Panic (ta_state a))
      | y :: buf' =>
          match use_item (ta_count a) (cv_validate v y (ta_state a)) (ta_move (snd (ti_next (ta_iter a))) a) with
          | TFail e s => BReturn (TFail e s)
          | TDone a' => if stop_now a' then BReturn (TDone a') else tuple_buffered v rest' buf' (ta_count a) a'
          end
      end
  | _ => BEnd (ta_move (snd (ti_next (ta_iter a))) a) buf index
  end.

(** tuple.rs:105-239 [validate_tuple_variable].  An index beyond the validators is a
    panic (already when building). *)
Definition tuple_variable (a : tacc) : tres :=
  match tu_variadic c with
  | Some k =>
      match skipn k (tu_validators c) with
      | [] => TFail Panic (ta_state a)
      | v :: tail =>
          match tuple_items (firstn k (tu_validators c)) a with
          | TFail e s => TFail e s
          | TDone a1 =>
              if stop_now a1 then TDone a1
              else match tail with
              | [] => tuple_rest v (ti_rest (ta_iter a1)) a1
              | _ =>
                  let '(buf, it) := ti_take (length tail) (ta_iter a1) in
                  let a2 := {| ta_out := ta_out a1; ta_errs := ta_errs a1; ta_count := ta_count a1; ta_iter := it; ta_state := ta_state a1 |} in
                  match tuple_buffered v (ti_rest it) buf (ta_count a2) a2 with
                  | BReturn r => r
                  | BEnd a3 buf' index =>
                      match tuple_items tail {| ta_out := ta_out a3; ta_errs := ta_errs a3; ta_count := index;
                                                ta_iter := {| ti_rest := map It buf'; ti_pos := 0; ti_err := None |}; ta_state := ta_state a3 |} with
                      | TFail e s => TFail e s
                      | TDone a4 => TDone {| ta_out := ta_out a4; ta_errs := ta_errs a4; ta_count := ta_count a3; ta_iter := ta_iter a3; ta_state := ta_state a4 |}
                      end
                  end
              end
          end
      end
  | None =>
      match tuple_items (tu_validators c) a with
      | TFail e s => TFail e s
      | TDone a1 =>
          if stop_now a1 then TDone a1
          else match ti_next (ta_iter a1) with
          | (Some _, _) => TFail (LineErrors [new_error (ETooLong CTuple (length (tu_validators c)) actual) i]) (ta_state a1)
          | (None, it) => TDone (ta_move it a1)
          end
      end
  end.
End Loops.

(** tuple.rs:267-313 [validate] and 325-386 [consume_iterator], from the result of
    [input.validate_tuple] on.  Partial validation is switched off in the state for
    good. *)
Definition tuple_validate (c : tuple_cfg) (validate_tuple : bool -> input -> vres seq) (i : input) (s : state) : vres pyval * state :=
  let s := set_partial PartialOff s in
  match validate_tuple (strict_or s (tu_strict c)) i with
  | VErr e => (VErr e, s)
  | VOk sq =>
      let s := floor_exactness (sq_exactness sq) s in
      match tuple_variable c i (sq_len sq)
              {| ta_out := []; ta_errs := []; ta_count := 0; ta_iter := {| ti_rest := sq_items sq; ti_pos := 0; ti_err := None |}; ta_state := s |} with
      | TFail e s' => (VErr e, s')
      | TDone a =>
          match ti_err (ta_iter a) with
          | Some n => (VErr (LineErrors [new_error_loc EIterationError i (index_loc n)]), ta_state a)
          | None =>
              let errs := ta_errs a ++
                match tu_min c with
                | Some mn => if Nat.ltb (length (ta_out a)) mn then [new_error (ETooShort CTuple mn (length (ta_out a))) i] else []
                | None => []
                end in
              if is_nil errs then (VOk (PTuple (ta_out a)), ta_state a) else (VErr (LineErrors errs), ta_state a)
          end
      end
  end.

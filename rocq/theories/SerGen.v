(** Model of the serializer of generator schemas
    (src/serializers/type_serializers/generator.rs), over an arbitrary serializer of the
    items. *)
From Coq Require Import List NArith ZArith Bool.
From Verif Require Import Base Values Filter SerBase Ser.
Import ListNotations.

(** What an iterator does when asked for the next element, call by call; then it stops. *)
Inductive event := Yield (v : pyval) | Throw.

(** generator.rs:63-80 and 120-141: the loop of JSON mode. *)
Fixpoint gen_loop {A} (f : schema_filter) (inc exc : incl) (each : pyval -> incl -> incl -> M A) (i : nat) (l : list event) : M (list A) :=
  match l with
  | [] => ret []
  | Throw :: _ => fail EOther
  | Yield v :: l' =>
      o <- res_opt (index_filter f (Z.of_nat i) inc exc None) ;;
      match o with
      | None => gen_loop f inc exc each (S i) l'
      | Some (ni, ne) =>
          a <- each v ni ne ;;
          r <- gen_loop f inc exc each (S i) l' ;;
          ret (a :: r)
      end
  end.
(** generator.rs:51-98, 103-147 for an iterator, in JSON mode. *)
Definition gen_py (f : schema_filter) (s : sz) (l : list event) (inc exc : incl) (x : extra) : M pyval :=
  r <- gen_loop f inc exc (fun e i e' => z_py s e i e' x) 0 l ;; ret (PList r).
Definition gen_js (f : schema_filter) (s : sz) (l : list event) (inc exc : incl) (x : extra) : M json :=
  r <- gen_loop f inc exc (fun e i e' => z_js s e i e' x) 0 l ;; ret (JArr r).

(** generator.rs:154-193 [SerializationIterator]: what is left of the iterator, the index
    of the next element, the warnings recorded so far.  extra.rs:250-270 [ExtraOwned::new]:
    the warnings that the call recorded before are copied. *)
Record ser_iter := { it_rest : list event; it_index : nat; it_warned : list warning }.
Definition new_iter (recorded : list warning) (l : list event) : ser_iter := {| it_rest := l; it_index := 0; it_warned := recorded |}.

(** What a call of next() does: an element and the warnings shown, an exception, the end. *)
Inductive step := Element (v : pyval) (shown : list warning) | Raises | Stops.
(** extra.rs:457-476 [final_check] on the recorded warnings. *)
Definition check_warnings (w : warnings_mode) (recorded : list warning) (v : pyval) : step :=
  match w with
  | WNone => Element v []
  | WWarn => Element v recorded
  | WError => if is_nil recorded then Element v [] else Raises
  end.
(** generator.rs:218-239 [__next__].  The index is not counted up when the filter raises. *)
Fixpoint next_from (w : warnings_mode) (f : schema_filter) (s : sz) (inc exc : incl) (x : extra) (l : list event) (i : nat) (ws : list warning) : step * ser_iter :=
  match l with
  | [] => (Stops, {| it_rest := []; it_index := i; it_warned := ws |})
  | Throw :: l' => (Raises, {| it_rest := l'; it_index := i; it_warned := ws |})
  | Yield v :: l' =>
      match index_filter f (Z.of_nat i) inc exc None with
      | Ok None => next_from w f s inc exc x l' (S i) ws
      | Ok (Some (ni, ne)) =>
          let m := z_py s v ni ne x in
          let ws := ws ++ fst m in
          (match snd m with Bad _ => Raises | Good a => check_warnings w ws a end,
           {| it_rest := l'; it_index := S i; it_warned := ws |})
      | _ => (Raises, {| it_rest := l'; it_index := i; it_warned := ws |})
      end
  end.
Definition iter_next (w : warnings_mode) (f : schema_filter) (s : sz) (inc exc : incl) (x : extra) (it : ser_iter) : step * ser_iter :=
  next_from w f s inc exc x (it_rest it) (it_index it) (it_warned it).
(** Calling next() n times. *)
Fixpoint calls (w : warnings_mode) (f : schema_filter) (s : sz) (inc exc : incl) (x : extra) (n : nat) (it : ser_iter) : list step * ser_iter :=
  match n with
  | O => ([], it)
  | S n => let (a, it) := iter_next w f s inc exc x it in let (r, it) := calls w f s inc exc x n it in (a :: r, it)
  end.
(** list(iterator): until it stops or raises; at most one call per event and one more. *)
Fixpoint drain (w : warnings_mode) (f : schema_filter) (s : sz) (inc exc : incl) (x : extra) (n : nat) (it : ser_iter) : option (list pyval * list (list warning)) :=
  match n with
  | O => None
  | S n =>
      match iter_next w f s inc exc x it with
      | (Stops, _) => Some ([], [])
      | (Raises, _) => None
      | (Element v shown, it) => match drain w f s inc exc x n it with Some (r, ws) => Some (v :: r, shown :: ws) | None => None end
      end
  end.
Definition to_list (w : warnings_mode) (f : schema_filter) (s : sz) (inc exc : incl) (x : extra) (it : ser_iter) : option (list pyval * list (list warning)) :=
  drain w f s inc exc x (S (length (it_rest it))) it.

(** Model of wrap functions as serializers
    (src/serializers/type_serializers/function.rs), over arbitrary serializers of the
    wrapped schema and of the result. *)
From Coq Require Import List NArith ZArith Bool.
From Verif Require Import Base Values Filter SerBase Ser.
Import ListNotations.

(** The exceptions a wrap function can meet or raise: those that on_error tells apart, and
    PydanticOmit, which the handler raises. *)
Inductive wexc := XUnexpected | XOmit | XOther.
Definition answer : Type := pyval + wexc.
(** A wrap function at work: it returns, raises, or calls the handler with a value and
    maybe an index or key, and goes on with what the handler answered. *)
Inductive wprog := WReturn (v : pyval) | WRaise (e : wexc) | WCall (v : pyval) (k : option key) (next : answer -> wprog).

(** function.rs:484-500: the filters for the value; [extract::<usize>] for ints from 0 up
    (those that are too large are not told apart). *)
Definition call_filter (k : option key) (inc exc : incl) : res next_filters :=
  match k with
  | None => Ok (Some (inc, exc))
  | Some (KInt z) => if (0 <=? z)%Z then index_filter any_filter z inc exc None else filter any_filter (KInt z) inc exc
  | Some (KStr t) => filter any_filter (KStr t) inc exc
  end.
(** What a call of the handler does: the warnings it shows, what it answers; None if the
    process crashes. *)
Record handled := { h_shown : list warning; h_answer : answer }.
(** extra.rs:457-476 [final_check]. *)
Definition checked (w : warnings_mode) (recorded : list warning) (v : pyval) : handled :=
  match w with
  | WNone => {| h_shown := []; h_answer := inl v |}
  | WWarn => {| h_shown := recorded; h_answer := inl v |}
  | WError => {| h_shown := []; h_answer := if is_nil recorded then inl v else inr XOther |}
  end.
(** function.rs:472-510 [SerializationCallable::__call__]; [h] are the warnings recorded in
    the handler's own copy. *)
Definition handler (w : warnings_mode) (s : sz) (inc exc : incl) (x : extra) (h : list warning) (v : pyval) (k : option key) : option handled * list warning :=
  match call_filter k inc exc with
  | Ok None => (Some {| h_shown := []; h_answer := inr XOmit |}, h)
  | Ok (Some (ni, ne)) =>
      let m := z_py s v ni ne x in
      let h := h ++ fst m in
      (match snd m with
       | Good a => Some (checked w h a)
       | Bad EUnexpected => Some {| h_shown := []; h_answer := inr XUnexpected |}
       | Bad EOther => Some {| h_shown := []; h_answer := inr XOther |}
       | Bad ECrash => None
       end, h)
  | _ => (Some {| h_shown := []; h_answer := inr XOther |}, h)
  end.
(** The function's run: its calls of the handler, and its end; None for a crash. *)
Fixpoint run (w : warnings_mode) (s : sz) (inc exc : incl) (x : extra) (h : list warning) (p : wprog) : list handled * option answer :=
  match p with
  | WReturn v => ([], Some (inl v))
  | WRaise e => ([], Some (inr e))
  | WCall v k next =>
      let (o, h) := handler w s inc exc x h v k in
      match o with
      | None => ([], None)
      | Some a => let (l, r) := run w s inc exc x h (next (h_answer a)) in (a :: l, r)
      end
  end.

(** function.rs:191-209 [on_error]. *)
Definition wrap_error (e : wexc) (x : extra) : M unit :=
  match e with
  | XUnexpected => if check_enabled (x_check x) then fail EUnexpected else register WFunction x
  | _ => fail EOther
  end.
(** function.rs:382-416 [call]; [recorded] are the warnings that the serialization has
    recorded before and the handler gets a copy of (extra.rs:250-270). *)
Definition wrap_call (w : warnings_mode) (is_field : bool) (f : option pyval -> pyval -> wprog) (s : sz) (recorded : list warning) (v : pyval) (inc exc : incl) (x : extra) : list handled * option answer :=
  if is_field then match x_model x with Some m => run w s inc exc x recorded (f (Some m) v) | None => ([], Some (inr XOther)) end
  else run w s inc exc x recorded (f None v).
(** function.rs:211-300, the macro: after the call, the serializer of the result. *)
Definition after_call {A} (o : option answer) (done : pyval -> M A) (infer : M A) (x : extra) : M A :=
  match o with
  | None => fail ECrash
  | Some (inl a) => done a
  | Some (inr e) => _ <- wrap_error e x ;; infer
  end.
Section Wrap.
Variable L : level.
Variable w : warnings_mode.
Variable u : when_used.
Variable is_field : bool.
Variable f : option pyval -> pyval -> wprog.
Variable s r : sz.
Definition wrap_py (recorded : list warning) (v : pyval) (inc exc : incl) (x : extra) : list handled * M pyval :=
  if should_use u v x then
    let (l, o) := wrap_call w is_field f s recorded v inc exc x in
    (l, after_call o (fun a => z_py r a None None x) (l_py L v inc exc x) x)
  else ([], z_py s v None None x).
Definition wrap_js (recorded : list warning) (v : pyval) (inc exc : incl) (x : extra) : list handled * M json :=
  if should_use u v x then
    let (l, o) := wrap_call w is_field f s recorded v inc exc x in
    (l, after_call o (fun a => z_js r a None None x) (l_js L v inc exc x) x)
  else ([], z_js s v None None x).
Definition wrap_key (recorded : list warning) (v : pyval) (x : extra) : list handled * M str :=
  if should_use u v x then
    let (l, o) := wrap_call w is_field f s recorded v None None x in
    (l, after_call o (fun a => z_key r a x) (l_key L v x) x)
  else ([], z_key s v x).
End Wrap.

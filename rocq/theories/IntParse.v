(** Model of the text-to-number functions of src/input/shared.rs. *)
From Coq Require Import List NArith ZArith Bool.
From Verif Require Import Base Decimal.
Import ListNotations.
Open Scope N_scope.

(** Rust [char::is_whitespace] (Unicode White_Space), used by [str::trim]. *)
Definition is_space (c : N) : bool :=
  ((9 <=? c) && (c <=? 13)) || (c =? 32) || (c =? 133) || (c =? 160) || (c =? 5760)
  || ((8192 <=? c) && (c <=? 8202)) || (c =? 8232) || (c =? 8233) || (c =? 8239)
  || (c =? 8287) || (c =? 12288).

Fixpoint trim_start (s : str) : str :=
  match s with
  | c :: r => if is_space c then trim_start r else s
  | [] => []
  end.
Definition trim_end (s : str) : str := rev (trim_start (rev s)).
(** [str::trim]. *)
Definition trim (s : str) : str := trim_end (trim_start s).

Definition c_plus : N := 43.
Definition c_minus : N := 45.
Definition c_dot : N := 46.
Definition c_0 : N := 48.
Definition c_us : N := 95.

(** ASCII case folding for [eq_ignore_ascii_case]. *)
Definition ascii_lower (c : N) : N := if (65 <=? c) && (c <=? 90) then c + 32 else c.
Definition eq_ignore_ascii_case (a b : str) : bool :=
  str_eqb (map ascii_lower a) (map ascii_lower b).

(** shared.rs:25-45 [str_as_bool]; [None] is the [BoolParsing] error. *)
Definition str_as_bool (s : str) : option bool :=
  if str_eqb s (lit "0") || eq_ignore_ascii_case s (lit "f") || eq_ignore_ascii_case s (lit "n")
     || eq_ignore_ascii_case s (lit "no") || eq_ignore_ascii_case s (lit "off")
     || eq_ignore_ascii_case s (lit "false")
  then Some false
  else if str_eqb s (lit "1") || eq_ignore_ascii_case s (lit "t") || eq_ignore_ascii_case s (lit "y")
     || eq_ignore_ascii_case s (lit "on") || eq_ignore_ascii_case s (lit "yes")
     || eq_ignore_ascii_case s (lit "true")
  then Some true
  else None.

(** shared.rs:47-55 [int_as_bool]. *)
Definition int_as_bool (z : Z) : option bool :=
  if Z.eqb z 0 then Some false else if Z.eqb z 1 then Some true else None.

(** [str::contains("__")]. *)
Fixpoint has_double_us (s : str) : bool :=
  match s with
  | a :: r => match r with
              | b :: _ => ((a =? c_us) && (b =? c_us)) || has_double_us r
              | [] => false
              end
  | [] => false
  end.

Definition starts_with (c : N) (s : str) : bool := match s with x :: _ => x =? c | [] => false end.
Definition ends_with (c : N) (s : str) : bool := starts_with c (rev s).
Definition contains (c : N) (s : str) : bool := existsb (N.eqb c) s.

(** shared.rs:60-71 [strip_underscores]. *)
Definition strip_underscores (s : str) : option str :=
  if starts_with c_us s || ends_with c_us s || negb (contains c_us s) || has_double_us s
  then None
  else Some (filter (fun c => negb (c =? c_us)) s).

(** shared.rs:185-199, the loop of [strip_leading_zeros]; [prev] is the
    character at index [i-1]. *)
Fixpoint slz_loop (prev : N) (s : str) : option str :=
  match s with
  | [] => Some [prev]
  | c :: r =>
      if (c =? c_0) || (c =? c_us) then slz_loop c r
      else if is_digit19 c || (c =? c_minus) then Some s
      else if c =? c_dot then Some (prev :: s)
      else None
  end.

(** shared.rs:175-200 [strip_leading_zeros]. *)
Definition strip_leading_zeros (s : str) : option str :=
  match s with
  | [] => None
  | c :: r =>
      if c =? c_0 then slz_loop c r
      else if is_digit19 c || (c =? c_minus) then Some s
      else None
  end.

(** [str::find('.')] split: text before the first dot, text after it. *)
Fixpoint split_dot (s : str) : option (str * str) :=
  match s with
  | [] => None
  | c :: r =>
      if c =? c_dot then Some ([], r)
      else match split_dot r with
           | Some (a, b) => Some (c :: a, b)
           | None => None
           end
  end.

(** shared.rs:144-151: cut a [.0+] suffix. *)
Definition cut_zero_fraction (s : str) : str :=
  match split_dot s with
  | Some (a, b) =>
      if negb (match b with [] => true | _ => false end) && forallb (fun c => c =? c_0) b
      then a else s
  | None => s
  end.

Definition strip_prefix (c : N) (s : str) : option str :=
  match s with x :: r => if x =? c then Some r else None | [] => None end.

(** shared.rs:111-169 [clean_int_str]. *)
Definition clean_int_str (s0 : str) : option str :=
  let s := trim s0 in
  let after_plus :=
    match strip_prefix c_plus s with
    | Some suffix => if starts_with c_minus suffix then None else Some suffix
    | None => Some s
    end in
  match after_plus with
  | None => None
  | Some s =>
      let after_minus :=
        match strip_prefix c_minus s with
        | Some suffix =>
            if starts_with c_minus suffix || starts_with c_plus suffix then None
            else Some (true, suffix)
        | None => Some (false, s)
        end in
      match after_minus with
      | None => None
      | Some (is_negative, s) =>
          match strip_leading_zeros s with
          | None => None
          | Some s =>
              let s := cut_zero_fraction s in
              match strip_underscores s with
              | Some stripped => Some (if is_negative then c_minus :: stripped else stripped)
              | None =>
                  if Nat.eqb (length s0) (length s) then None
                  else Some (if is_negative then c_minus :: s else s)
              end
          end
      end
  end.

(** The integer grammar of jiter's [NumberInt::try_from] (external crate,
    trusted): an optional minus, then "0" or 1-9 followed by digits, with a bound on the number of digits
    ([max_digits], 4300 in jiter) checked while scanning the digits. *)
Inductive jint := JOk (z : Z) | JOutOfRange | JInvalid.

Fixpoint take_digits (s : str) : str * str :=
  match s with
  | c :: r => if is_digit c then let '(d, t) := take_digits r in (c :: d, t) else ([], s)
  | [] => ([], [])
  end.

Section Limit.
Variable max_digits : N.

Definition jiter_uint (s : str) : jint :=
  match s with
  | [] => JInvalid
  | c :: r =>
      if c =? c_0 then match r with [] => JOk 0 | _ => JInvalid end
      else if is_digit19 c then
        let '(d, t) := take_digits s in
        if max_digits <? N.of_nat (length d) then JOutOfRange
        else match t with [] => JOk (Z.of_N (dec_value d)) | _ => JInvalid end
      else JInvalid
  end.

Definition jiter_int (s : str) : jint :=
  match s with
  | c :: r =>
      if c =? c_minus then
        match jiter_uint r with JOk z => JOk (- z)%Z | e => e end
      else jiter_uint s
  | [] => JInvalid
  end.

Inductive int_result := IntOk (z : Z) | IntParsingSize | IntParsing.

(** shared.rs:77-98 [str_as_int]. *)
Definition str_as_int (s : str) : int_result :=
  match jiter_int s with
  | JOk z => IntOk z
  | JOutOfRange => IntParsingSize
  | JInvalid =>
      match clean_int_str s with
      | Some cleaned =>
          match jiter_int cleaned with
          | JOk z => IntOk z
          | _ => IntParsing
          end
      | None => IntParsing
      end
  end.
End Limit.

(** The grammar of JSON texts, RFC 8259, with the value each text denotes; and the
    layout of indented output.  Nothing here refers to the writer of JsonText.v. *)
From Coq Require Import List NArith ZArith Bool.
From Verif Require Import Base Utf8 Float64 Decimal Values.
Import ListNotations.
Open Scope N_scope.

(** RFC 8259 section 2: insignificant white space: space, tab, line feed, carriage return. *)
Definition is_ws (c : N) : bool := (c =? 32) || (c =? 9) || (c =? 10) || (c =? 13).
Definition ws (s : str) : Prop := Forall (fun c => is_ws c = true) s.

(** Section 6: numbers.  [int = zero / ( digit1-9 *DIGIT )]. *)
Definition digits (s : str) : Prop := Forall (fun c => is_digit c = true) s.
Definition int_part (s : str) : Prop :=
  s = [48] \/ exists c r, s = c :: r /\ is_digit19 c = true /\ digits r.
(** A number without fraction and exponent denotes an integer. *)
Inductive int_text : str -> Z -> Prop :=
| it_plus s : int_part s -> int_text s (Z.of_N (dec_value s))
| it_minus s : int_part s -> int_text (45 :: s) (- Z.of_N (dec_value s)).
(** [frac = decimal-point 1*DIGIT], [exp = e [ minus / plus ] 1*DIGIT]. *)
Definition frac (s : str) : Prop := exists ds, s = 46 :: ds /\ ds <> [] /\ digits ds.
Definition exp (s : str) : Prop :=
  exists e sign ds, s = e :: sign ++ ds /\ (e = 101 \/ e = 69) /\ (sign = [] \/ sign = [43] \/ sign = [45]) /\
    ds <> [] /\ digits ds.
(** A number with a fraction or an exponent. *)
Definition float_text (s : str) : Prop :=
  exists sign i fr ex, s = sign ++ i ++ fr ++ ex /\ (sign = [] \/ sign = [45]) /\ int_part i /\
    (fr = [] \/ frac fr) /\ (ex = [] \/ exp ex) /\ (fr <> [] \/ ex <> []).

(** Section 7: strings.  [hex4 a b c d n]: the four hexadecimal digits write [n]. *)
Definition hex_digit (c : N) (n : N) : Prop :=
  (48 <= c <= 57 /\ n = c - 48) \/ (97 <= c <= 102 /\ n = c - 87) \/ (65 <= c <= 70 /\ n = c - 55).
Definition hex4 (a b c d n : N) : Prop :=
  exists w x y z, hex_digit a w /\ hex_digit b x /\ hex_digit c y /\ hex_digit d z /\
    n = ((w * 16 + x) * 16 + y) * 16 + z.
(** [chars t s]: the characters [t] between the quotes denote the string [s]. *)
Inductive chars : str -> str -> Prop :=
| ch_nil : chars [] []
| ch_plain c t s : scalar c = true -> 32 <= c -> c <> 34 -> c <> 92 -> chars t s -> chars (c :: t) (c :: s)
| ch_quote t s : chars t s -> chars (92 :: 34 :: t) (34 :: s)
| ch_backslash t s : chars t s -> chars (92 :: 92 :: t) (92 :: s)
| ch_slash t s : chars t s -> chars (92 :: 47 :: t) (47 :: s)
| ch_b t s : chars t s -> chars (92 :: 98 :: t) (8 :: s)
| ch_f t s : chars t s -> chars (92 :: 102 :: t) (12 :: s)
| ch_n t s : chars t s -> chars (92 :: 110 :: t) (10 :: s)
| ch_r t s : chars t s -> chars (92 :: 114 :: t) (13 :: s)
| ch_t t s : chars t s -> chars (92 :: 116 :: t) (9 :: s)
| ch_u a b c d n t s : hex4 a b c d n -> scalar n = true -> chars t s ->
    chars (92 :: 117 :: a :: b :: c :: d :: t) (n :: s)
| ch_pair a b c d hi a' b' c' d' lo t s :
    hex4 a b c d hi -> 55296 <= hi < 56320 -> hex4 a' b' c' d' lo -> 56320 <= lo < 57344 -> chars t s ->
    chars (92 :: 117 :: a :: b :: c :: d :: 92 :: 117 :: a' :: b' :: c' :: d' :: t)
          (65536 + (hi - 55296) * 1024 + (lo - 56320) :: s).
(** A string with its quotes. *)
Definition string_text (t : str) (s : str) : Prop := exists c, t = 34 :: c ++ [34] /\ chars c s.

Section Grammar.
(** The double denoted by a decimal text (correct rounding; a parameter). *)
Variable reads : str -> f64.

(** Sections 3 to 5: values, arrays, objects.  Duplicate names are kept. *)
Inductive value : json -> str -> Prop :=
| v_null : value JNull (lit "null")
| v_true : value (JBool true) (lit "true")
| v_false : value (JBool false) (lit "false")
| v_int s z : int_text s z -> value (JInt z) s
| v_float s : float_text s -> value (JFloat (reads s)) s
| v_str t s : string_text t s -> value (JStr s) t
| v_arr_empty w : ws w -> value (JArr []) ([91] ++ w ++ [93])
| v_arr l t : elements l t -> value (JArr l) ([91] ++ t ++ [93])
| v_obj_empty w : ws w -> value (JObj []) ([123] ++ w ++ [125])
| v_obj l t : members l t -> value (JObj l) ([123] ++ t ++ [125])
with elements : list json -> str -> Prop :=
| e_one j w1 t w2 : ws w1 -> value j t -> ws w2 -> elements [j] (w1 ++ t ++ w2)
| e_more j w1 t w2 l r : ws w1 -> value j t -> ws w2 -> elements l r -> elements (j :: l) (w1 ++ t ++ w2 ++ [44] ++ r)
with members : list (str * json) -> str -> Prop :=
| m_one k kt j w1 w2 w3 t w4 :
    ws w1 -> string_text kt k -> ws w2 -> ws w3 -> value j t -> ws w4 ->
    members [(k, j)] (w1 ++ kt ++ w2 ++ [58] ++ w3 ++ t ++ w4)
| m_more k kt j w1 w2 w3 t w4 l r :
    ws w1 -> string_text kt k -> ws w2 -> ws w3 -> value j t -> ws w4 -> members l r ->
    members ((k, j) :: l) (w1 ++ kt ++ w2 ++ [58] ++ w3 ++ t ++ w4 ++ [44] ++ r).

(** Section 2: [JSON-text = ws value ws]. *)
Definition json_text (j : json) (t : str) : Prop :=
  exists w1 v w2, t = w1 ++ v ++ w2 /\ ws w1 /\ value j v /\ ws w2.

(** What is assumed of the value written and of [ryu]: strings are Unicode strings
    (which Rust guarantees), and the text of each float of the value is a JSON number
    with a fraction or an exponent that reads back as that float.  NaN and the
    infinities have no such text. *)
Inductive writable (ryu : f64 -> str) : json -> Prop :=
| w_null : writable ryu JNull
| w_bool b : writable ryu (JBool b)
| w_int z : writable ryu (JInt z)
| w_float f : f_is_finite f = true -> float_text (ryu f) -> reads (ryu f) = f -> writable ryu (JFloat f)
| w_str s : scalars s -> writable ryu (JStr s)
| w_arr l : Forall (writable ryu) l -> writable ryu (JArr l)
| w_obj l : Forall (fun kv => scalars (fst kv) /\ writable ryu (snd kv)) l -> writable ryu (JObj l).
End Grammar.

(** ** Layout *)

(** Every item of an array or object on its own line, [n] spaces per level, "[key]: [value]";
    an empty one on one line. *)
Definition newline (n level : nat) : str := 10 :: repeat 32 (n * level)%nat.
Definition separated (item : json -> str) (nl : str) : list json -> str :=
  fix go l := match l with [] => [] | [x] => nl ++ item x | x :: r => nl ++ item x ++ [44] ++ go r end.
Definition separated_entries (key : str -> str) (item : json -> str) (nl sep : str) : list (str * json) -> str :=
  fix go l :=
    match l with
    | [] => []
    | [(k, x)] => nl ++ key k ++ sep ++ item x
    | (k, x) :: r => nl ++ key k ++ sep ++ item x ++ [44] ++ go r
    end.
Section Layout.
(** Text of strings and of scalars: only the layout is specified here. *)
Variables (quoted : str -> str) (scalar_text : json -> str).
Fixpoint indented (n level : nat) (j : json) {struct j} : str :=
  match j with
  | JArr [] => lit "[]"
  | JArr l => [91] ++ separated (indented n (S level)) (newline n (S level)) l ++ newline n level ++ [93]
  | JObj [] => lit "{}"
  | JObj l =>
      [123] ++ separated_entries quoted (indented n (S level)) (newline n (S level)) (lit ": ") l ++ newline n level ++ [125]
  | JStr s => quoted s
  | _ => scalar_text j
  end.
(** Without indentation: no white space at all. *)
Fixpoint compact (j : json) {struct j} : str :=
  match j with
  | JArr l => [91] ++ separated compact [] l ++ [93]
  | JObj l => [123] ++ separated_entries quoted compact [] (lit ":") l ++ [125]
  | JStr s => quoted s
  | _ => scalar_text j
  end.
End Layout.

(** Model of src/serializers/ser.rs: writing a JSON value as text.  The value is the
    tree of serde calls the serializers make (Ser.v); the formatters are those of
    serde_json (external, modelled here from its documentation). *)
From Coq Require Import List NArith ZArith Bool.
From Verif Require Import Base Utf8 Float64 Decimal Values BytesCodec.
Import ListNotations.
Open Scope N_scope.

(** ** Strings *)

(** serializers/ser.rs:720-750 the table [ESCAPE]: rows 0 and 1 literally, the two
    escaped characters of rows 2 and 5, zero elsewhere.  [UU], [BB], [TT], [NN],
    [FF], [RR], [QU], [BS] are lines 720-728. *)
Definition UU : N := 117.
Definition BB : N := 98.
Definition TT : N := 116.
Definition NN : N := 110.
Definition FF : N := 102.
Definition RR : N := 114.
Definition QU : N := 34.
Definition BS : N := 92.
Definition ESCAPE_ROWS01 : list N :=
  [UU; UU; UU; UU; UU; UU; UU; UU; BB; TT; NN; UU; FF; RR; UU; UU;
   UU; UU; UU; UU; UU; UU; UU; UU; UU; UU; UU; UU; UU; UU; UU; UU].
Definition ESCAPE (b : N) : N :=
  if b <? 32 then nth (N.to_nat b) ESCAPE_ROWS01 0
  else if b =? 34 then QU
  else if b =? 92 then BS
  else 0.

(** serializers/ser.rs:762-780 [CharEscape::from_escape_table] followed by serde_json's
    [Formatter::write_char_escape]: a backslash and the escape letter, or [\u00] and two
    lower case hexadecimal digits. *)
Definition write_char_escape (escape byte : N) : bytes :=
  if escape =? UU then [92; 117; 48; 48; hex_char (byte / 16); hex_char (byte mod 16)]
  else [92; escape].

(** Rust [str::is_char_boundary] and [&value[a..b]], which panics ([None]) when an end
    is not on a character boundary. *)
Definition is_char_boundary (bs : bytes) (i : nat) : bool :=
  match nth_error bs i with
  | Some b => negb (is_cont b)
  | None => Nat.eqb i (length bs)
  end.
Definition str_slice (bs : bytes) (a b : nat) : option bytes :=
  if is_char_boundary bs a && is_char_boundary bs b && Nat.leb a b
  then Some (firstn (b - a) (skipn a bs))
  else None.

(** serializers/ser.rs:694-711, the loop of [format_escaped_str_contents]: [rest] is
    what remains of the bytes from position [i] on, [start] where the pending fragment
    begins, [out] what was written so far. *)
Fixpoint escape_loop (value rest : bytes) (i start : nat) (out : bytes) : option bytes :=
  match rest with
  | [] =>
      if Nat.eqb start (length value) then Some out
      else
        match str_slice value start (length value) with
        | Some frag => Some (out ++ frag)
        | None => None
        end
  | byte :: rest' =>
      let escape := ESCAPE byte in
      if escape =? 0 then escape_loop value rest' (S i) start out
      else if Nat.ltb start i then
        match str_slice value start i with
        | Some frag => escape_loop value rest' (S i) (S i) (out ++ frag ++ write_char_escape escape byte)
        | None => None
        end
      else escape_loop value rest' (S i) (S i) (out ++ write_char_escape escape byte)
  end.

(** serializers/ser.rs:678-718 [format_escaped_str]. *)
Definition format_escaped_str (value : str) : option bytes :=
  match escape_loop (utf8 value) (utf8 value) 0 0 [] with
  | Some contents => Some ([34] ++ contents ++ [34])
  | None => None
  end.

(** ** Layout: serde_json's [CompactFormatter] and [PrettyFormatter] (external) *)

(** [f_indent]: spaces per level, [None] for the compact formatter; the other two
    fields are PrettyFormatter's [current_indent] and [has_value]. *)
Record formatter := { f_indent : option nat; f_level : nat; f_has_value : bool }.

Definition indent_bytes (n level : nat) : bytes := repeat 32 (n * level)%nat.

(** [begin_array], [begin_object]: an opening bracket. *)
Definition begin_block (open : N) (f : formatter) : bytes * formatter :=
  match f_indent f with
  | None => ([open], f)
  | Some n => ([open], {| f_indent := Some n; f_level := S (f_level f); f_has_value := false |})
  end.
(** [end_array], [end_object]. *)
Definition end_block (close : N) (f : formatter) : bytes * formatter :=
  match f_indent f with
  | None => ([close], f)
  | Some n =>
      let f' := {| f_indent := Some n; f_level := pred (f_level f); f_has_value := f_has_value f |} in
      ((if f_has_value f then 10 :: indent_bytes n (f_level f') else []) ++ [close], f')
  end.
(** [begin_array_value], [begin_object_key]. *)
Definition begin_item (first : bool) (f : formatter) : bytes :=
  match f_indent f with
  | None => if first then [] else [44]
  | Some n => (if first then [10] else [44; 10]) ++ indent_bytes n (f_level f)
  end.
(** [end_array_value], [end_object_value]. *)
Definition end_item (f : formatter) : formatter :=
  match f_indent f with
  | None => f
  | Some n => {| f_indent := Some n; f_level := f_level f; f_has_value := true |}
  end.
(** [begin_object_value]. *)
Definition begin_value (f : formatter) : bytes :=
  match f_indent f with None => [58] | Some _ => [58; 32] end.

(** ** The serializer *)

(** serde_json's [State], of a [Compound::Map] (serializers/ser.rs:277-354). *)
Inductive cstate := StEmpty | StFirst | StRest.
Definition is_first (st : cstate) : bool := match st with StFirst => true | _ => false end.

(** What writing does: the bytes written and the formatter afterwards; [None] is a
    panic. *)
Definition wr := option (bytes * formatter).

Section Write.
(** [ryu]'s text of a finite double (external; trusted, see [writable] in
    JsonTextSpec.v for what is assumed about it). *)
Variable ryu : f64 -> str.

(** serializers/ser.rs:167-188 [serialize_f64]. *)
Definition f64_text (f : f64) : str :=
  match f with
  | S754_nan => lit "NaN"
  | S754_infinity true => lit "-Infinity"
  | S754_infinity false => lit "Infinity"
  | _ => ryu f
  end.

(** serializers/ser.rs:277-297, 334-354 [serialize_seq], [serialize_map]: a length
    hint of zero closes the bracket at once. *)
Definition open_block (open close : N) (len : option nat) (f : formatter) : bytes * cstate * formatter :=
  let '(b, f1) := begin_block open f in
  match len with
  | Some O => let '(b', f2) := end_block close f1 in (b ++ b', StEmpty, f2)
  | _ => (b, StFirst, f1)
  end.
(** serializers/ser.rs:419-437, 581-596 [SerializeSeq::end], [SerializeMap::end]. *)
Definition close_block (close : N) (st : cstate) (f : formatter) : bytes * formatter :=
  match st with StEmpty => ([], f) | _ => end_block close f end.

(** serializers/ser.rs:400-417 [serialize_element] for each element, then [end]. *)
Definition write_elements (w : json -> formatter -> wr) :=
  fix go (l : list json) (st : cstate) (f : formatter) {struct l} : wr :=
  match l with
  | [] => Some (close_block 93 st f)
  | j :: l' =>
      let b := begin_item (is_first st) f in
      match w j f with
      | None => None
      | Some (v, f1) =>
          match go l' StRest (end_item f1) with
          | None => None
          | Some (r, f2) => Some (b ++ v ++ r, f2)
          end
      end
  end.
(** serializers/ser.rs:534-578 [serialize_key], [serialize_value] for each entry, then
    [end]; keys go through [MapKeySerializer::serialize_str] (806-808). *)
Definition write_entries (w : json -> formatter -> wr) :=
  fix go (l : list (str * json)) (st : cstate) (f : formatter) {struct l} : wr :=
  match l with
  | [] => Some (close_block 125 st f)
  | (k, j) :: l' =>
      match format_escaped_str k with
      | None => None
      | Some kb =>
          let b := begin_item (is_first st) f ++ kb ++ begin_value f in
          match w j f with
          | None => None
          | Some (v, f1) =>
              match go l' StRest (end_item f1) with
              | None => None
              | Some (r, f2) => Some (b ++ v ++ r, f2)
              end
          end
      end
  end.

(** A sequence or map written with the length hint [len]. *)
Definition write_seq (w : json -> formatter -> wr) (len : option nat) (l : list json) (f : formatter) : wr :=
  let '(b, st, f1) := open_block 91 93 len f in
  match write_elements w l st f1 with
  | None => None
  | Some (r, f2) => Some (b ++ r, f2)
  end.
Definition write_map (w : json -> formatter -> wr) (len : option nat) (l : list (str * json)) (f : formatter) : wr :=
  let '(b, st, f1) := open_block 123 125 len f in
  match write_entries w l st f1 with
  | None => None
  | Some (r, f2) => Some (b ++ r, f2)
  end.

(** The serde calls of a JSON value: [serialize_none] (ser.rs:207-225),
    [serialize_bool] (82-87), [serialize_i64] (itoa) or, for a big int, the number
    string of input/return_enums.rs:678-687 through ser.rs:1256-1263 ([write_number_str]),
    [serialize_f64], [serialize_str], [serialize_seq], [serialize_map].
    Simplification: the length hint is the number of items written; the code gives the
    length before filtering, which C52_length_hint shows to be immaterial. *)
Fixpoint write (j : json) (f : formatter) {struct j} : wr :=
  match j with
  | JNull => Some (utf8 (lit "null"), f)
  | JBool true => Some (utf8 (lit "true"), f)
  | JBool false => Some (utf8 (lit "false"), f)
  | JInt z => Some (utf8 (dec_Z z), f)
  | JFloat x => Some (utf8 (f64_text x), f)
  | JStr s => match format_escaped_str s with Some b => Some (b, f) | None => None end
  | JArr l => write_seq write (Some (length l)) l f
  | JObj l => write_map write (Some (length l)) l f
  end.

(** serializers/shared.rs:353-380 [to_json_bytes], after the serializers: [indent]
    spaces per level, or the compact formatter. *)
Definition to_json_text (indent : option nat) (j : json) : option bytes :=
  match write j {| f_indent := indent; f_level := 0; f_has_value := false |} with
  | Some (b, _) => Some b
  | None => None
  end.
End Write.

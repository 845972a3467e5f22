(** Model of the bytes <-> text modes of src/serializers/config.rs and
    src/validators/config.rs. *)
From Coq Require Import List NArith ZArith Bool.
From Verif Require Import Base Utf8.
Import ListNotations.
Open Scope N_scope.

(** ** Hexadecimal *)

(** [format!("{b:02x}")] (serializers/config.rs:174) and [hex::encode] (line 186).  A byte is
    below 256, so that the first [mod 16] changes nothing. *)
Definition hex_char (n : N) : N := if n <? 10 then 48 + n else 87 + n.
Definition hex_encode (bs : bytes) : str := flat_map (fun b => [hex_char ((b / 16) mod 16); hex_char (b mod 16)]) bs.

(** [hex::decode] (external crate, trusted): both cases, even length. *)
Definition hex_val (c : N) : option N :=
  if (48 <=? c) && (c <=? 57) then Some (c - 48)
  else if (97 <=? c) && (c <=? 102) then Some (c - 87)
  else if (65 <=? c) && (c <=? 70) then Some (c - 55)
  else None.
Fixpoint hex_decode (s : str) : option bytes :=
  match s with
  | [] => Some []
  | a :: r =>
      match r with
      | [] => None
      | b :: r' =>
          match hex_val a, hex_val b, hex_decode r' with
          | Some x, Some y, Some bs => Some (16 * x + y :: bs)
          | _, _, _ => None
          end
      end
  end.

(** ** Base 64 (base64 crate 0.22, external, trusted) *)

(** The two alphabets: characters 62 and 63 are "-_" (URL safe) or "+/". *)
Inductive alphabet := URL_SAFE | STANDARD.
Definition sym (al : alphabet) (n : N) : N :=
  if n <? 26 then 65 + n
  else if n <? 52 then 71 + n
  else if n <? 62 then n - 4
  else match al with
       | URL_SAFE => if n =? 62 then 45 else 95
       | STANDARD => if n =? 62 then 43 else 47
       end.
Definition unsym (al : alphabet) (c : N) : option N :=
  if (65 <=? c) && (c <=? 90) then Some (c - 65)
  else if (97 <=? c) && (c <=? 122) then Some (c - 71)
  else if (48 <=? c) && (c <=? 57) then Some (c + 4)
  else match al with
       | URL_SAFE => if c =? 45 then Some 62 else if c =? 95 then Some 63 else None
       | STANDARD => if c =? 43 then Some 62 else if c =? 47 then Some 63 else None
       end.

Definition pad : N := 61.

(** [Engine::encode], padded. *)
Fixpoint b64_encode (al : alphabet) (bs : bytes) : str :=
  match bs with
  | [] => []
  | [x] => [sym al (x / 4); sym al ((x mod 4) * 16); pad; pad]
  | [x; y] => [sym al (x / 4); sym al ((x mod 4) * 16 + y / 16); sym al ((y mod 16) * 4); pad]
  | x :: y :: z :: r =>
      sym al (x / 4) :: sym al ((x mod 4) * 16 + y / 16) :: sym al ((y mod 16) * 4 + z / 64) :: sym al (z mod 64)
      :: b64_encode al r
  end.

(** [DecodeError]; only the byte of [InvalidByte] is inspected by the caller. *)
Inductive decode_result := DOk (bs : bytes) | DInvalidByte (c : N) | DInvalidOther.

(** One symbol. *)
Definition b64_sym (al : alphabet) (c : N) (k : N -> decode_result) : decode_result :=
  match unsym al c with Some v => k v | None => DInvalidByte c end.

(** The last one to four characters ([decode_suffix]), indifferent padding,
    trailing bits rejected. *)
Definition b64_suffix (al : alphabet) (s : str) : decode_result :=
  match s with
  | [a] => b64_sym al a (fun _ => DInvalidOther)
  | [a; b] =>
      b64_sym al a (fun va => b64_sym al b (fun vb =>
        if vb mod 16 =? 0 then DOk [4 * va + vb / 16] else DInvalidOther))
  | [a; b; c] =>
      b64_sym al a (fun va => b64_sym al b (fun vb =>
        if c =? pad then if vb mod 16 =? 0 then DOk [4 * va + vb / 16] else DInvalidOther
        else b64_sym al c (fun vc =>
          if vc mod 4 =? 0 then DOk [4 * va + vb / 16; (vb mod 16) * 16 + vc / 4] else DInvalidOther)))
  | [a; b; c; d] =>
      b64_sym al a (fun va => b64_sym al b (fun vb =>
        if c =? pad then
          if d =? pad then if vb mod 16 =? 0 then DOk [4 * va + vb / 16] else DInvalidOther
          else DInvalidByte pad
        else b64_sym al c (fun vc =>
          if d =? pad then
            if vc mod 4 =? 0 then DOk [4 * va + vb / 16; (vb mod 16) * 16 + vc / 4] else DInvalidOther
          else b64_sym al d (fun vd =>
            DOk [4 * va + vb / 16; (vb mod 16) * 16 + vc / 4; (vc mod 4) * 64 + vd]))))
  | _ => DOk []
  end.

(** [Engine::decode] with [DecodePaddingMode::Indifferent].  Simplification: the
    text is taken character by character rather than byte by byte (a non-ASCII
    character is invalid either way), and the early report of an invalid last
    byte is not represented (it only changes which error is reported on texts of
    length 1 mod 4, which neither alphabet accepts). *)
Fixpoint b64_decode (al : alphabet) (s : str) : decode_result :=
  match s with
  | a :: b :: c :: d :: ((_ :: _) as r) =>
      b64_sym al a (fun va => b64_sym al b (fun vb => b64_sym al c (fun vc => b64_sym al d (fun vd =>
        match b64_decode al r with
        | DOk bs => DOk (4 * va + vb / 16 :: (vb mod 16) * 16 + vc / 4 :: (vc mod 4) * 64 + vd :: bs)
        | e => e
        end))))
  | _ => b64_suffix al s
  end.

(** serializers/config.rs:95-100 [BytesMode]. *)
Inductive bytes_mode := MUtf8 | MBase64 | MHex.

(** serializers/config.rs:166-189 [bytes_to_string] / [serialize_bytes]; [None]
    is the UTF-8 error. *)
Definition bytes_to_string (m : bytes_mode) (bs : bytes) : option str :=
  match m with
  | MUtf8 => from_utf8 bs
  | MBase64 => Some (b64_encode URL_SAFE bs)
  | MHex => Some (hex_encode bs)
  end.

(** validators/config.rs:39-64 [deserialize_string]; [None] is
    [BytesInvalidEncoding]. *)
Definition deserialize_string (m : bytes_mode) (s : str) : option bytes :=
  match m with
  | MUtf8 => Some (utf8 s)
  | MBase64 =>
      match b64_decode URL_SAFE s with
      | DOk bs => Some bs
      | DInvalidByte c =>
          if (c =? 47) || (c =? 43) then
            match b64_decode STANDARD s with DOk bs => Some bs | _ => None end
          else None
      | DInvalidOther => None
      end
  | MHex => hex_decode s
  end.

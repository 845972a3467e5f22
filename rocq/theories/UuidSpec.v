(** Small specification for uuid schemas (C74). *)
From Coq Require Import List NArith Bool.
From Verif Require Import Base Utf8 Values VState Child Inputs Uuid BytesCodecSpec.
Import ListNotations.
Open Scope N_scope.

(** The number that hexadecimal digits of either case stand for. *)
Inductive digits : str -> N -> Prop :=
| digits_nil : digits [] 0
| digits_snoc : forall s n c v, digits s n -> hex_digit v c -> digits (s ++ [c]) (16 * n + v).
(** The four ways to write it: 32 digits; in groups of 8, 4, 4, 4 and 12; that in braces; that
    behind "urn:uuid:". *)
Definition groups (a b c d e : str) : str := a ++ lit "-" ++ b ++ lit "-" ++ c ++ lit "-" ++ d ++ lit "-" ++ e.
Definition sizes (a b c d e : str) : Prop :=
  length a = 8%nat /\ length b = 4%nat /\ length c = 4%nat /\ length d = 4%nat /\ length e = 12%nat.
Inductive form : str -> N -> Prop :=
| form_simple : forall s n, digits s n -> length s = 32%nat -> form s n
| form_groups : forall a b c d e n, sizes a b c d e -> digits (a ++ b ++ c ++ d ++ e) n -> form (groups a b c d e) n
| form_braces : forall a b c d e n, sizes a b c d e -> digits (a ++ b ++ c ++ d ++ e) n -> form (lit "{" ++ groups a b c d e ++ lit "}") n
| form_urn : forall a b c d e n, sizes a b c d e -> digits (a ++ b ++ c ++ d ++ e) n -> form (lit "urn:uuid:" ++ groups a b c d e) n.

(** A UUID of version [v] (RFC 4122): the two bits of the variant and the four of the version. *)
Definition has_version (n v : N) : Prop := (n / 2 ^ 62) mod 4 = 2 /\ (n / 2 ^ 76) mod 16 = v.
Definition wanted (version : option N) (n : N) : Prop :=
  match version with Some v => has_version n v | None => True end.

(** The text an input is; or the bytes. *)
Definition text_of (i : input) : option str :=
  match i with
  | IPy v => match strip v with PStr t => Some t | _ => None end
  | IJson (JStr t) | IKey t => Some t
  | IStrings v => as_str v
  | _ => None
  end.
Definition bytes_of (i : input) : option bytes :=
  match i with IPy v => match strip v with PBytes b => Some b | _ => None end | _ => None end.
(** The number that 16 bytes stand for, most significant first. *)
Inductive big_endian : bytes -> N -> Prop :=
| be_nil : big_endian [] 0
| be_snoc : forall b n x, big_endian b n -> x < 256 -> big_endian (b ++ [x]) (256 * n + x).
Definition lower_hex (c : N) : Prop := In c (lit "0123456789abcdef").

(** Model of uuid schemas: src/validators/uuid.rs, src/serializers/type_serializers/uuid.rs.
    A UUID object is its 128-bit number and its [is_safe]; an instance of a subclass of UUID
    is taken to behave like one. *)
From Coq Require Import List NArith Bool.
From Verif Require Import Base Utf8 Values VState Child Inputs Scalars BytesCodec.
Import ListNotations.
Open Scope N_scope.

(** CPython's uuid.SafeUUID (external). *)
Inductive safety := SafeUnknown | SafeYes | SafeNo.
Record uuid_obj := mk_uuid { uu_int : N; uu_safe : safety }.

(** The crate's [Uuid] is its 16 bytes; [as_u128], [from_u128] (external crate uuid 1.16). *)
Definition as_u128 (b : bytes) : N := fold_left (fun n x => 256 * n + x) b 0.
Fixpoint to_be (k : nat) (n : N) : bytes :=
  match k with O => [] | S k => to_be k (n / 256) ++ [n mod 256] end.
Definition from_u128 (n : N) : bytes := to_be 16 n.

(** The crate's [parse_hyphenated]: the hyphens, then groups of four digits. *)
Definition parse_hyphenated (s : bytes) : option bytes :=
  if (nth 8 s 0 =? 45) && (nth 13 s 0 =? 45) && (nth 18 s 0 =? 45) && (nth 23 s 0 =? 45)
  then hex_decode (flat_map (fun i => firstn 4 (skipn i s)) [0; 4; 9; 14; 19; 24; 28; 32]%nat)
  else None.
(** The crate's [try_parse], by length. *)
Definition try_parse (b : bytes) : option bytes :=
  let n := length b in
  if Nat.eqb n 32 then hex_decode b
  else if Nat.eqb n 36 then parse_hyphenated b
  else if Nat.eqb n 38 then
    match b with
    | 123 :: r => if last r 0 =? 125 then parse_hyphenated (removelast r) else None
    | _ => None
    end
  else if Nat.eqb n 45 then
    if str_eqb (firstn 9 b) (lit "urn:uuid:") then parse_hyphenated (skipn 9 b) else None
  else None.
(** [Uuid::from_slice]. *)
Definition from_slice (b : bytes) : option bytes := if Nat.eqb (length b) 16 then Some b else None.
(** [Uuid::get_version_num], and [get_variant() == RFC4122] (external). *)
Definition get_version_num (b : bytes) : N := nth 6 b 0 / 16.
Definition is_rfc4122 (b : bytes) : bool := nth 8 b 0 / 64 =? 2.
(** [Uuid::to_string]: hyphenated, lower case. *)
Definition hyphenate (d : str) : str :=
  firstn 8 d ++ 45 :: firstn 4 (skipn 8 d) ++ 45 :: firstn 4 (skipn 12 d) ++ 45 :: firstn 4 (skipn 16 d) ++ 45 :: skipn 20 d.
Definition uuid_string (b : bytes) : str := hyphenate (hex_encode b).

(** CPython's property [UUID.version] (external): only for the variant of RFC 4122. *)
Definition py_version (n : N) : option N :=
  if N.testbit n 63 && negb (N.testbit n 62) then Some (N.land (N.shiftr n 76) 15) else None.

(** uuid.rs:39-67, 85-91: the version of the schema; [None] in the result is the panic of
    [unreachable!] ([u8]s other than a version). *)
Definition version_of_u8 (v : N) : option N :=
  if existsb (N.eqb v) [1; 3; 4; 5; 6; 7; 8] then Some v else None.
Definition build_version (schema : option N) : option (option N) :=
  match schema with
  | None => Some None
  | Some v => match version_of_u8 v with Some v => Some (Some v) | None => None end
  end.

Inductive uuerr := UuType | UuParsing (msg : str) | UuVersion (expected : N) | UuInstance.
(** The object that was given, or a new one. *)
Inductive uures := UuSame | UuNew (o : uuid_obj) | UuErr (e : uuerr).
Inductive uuinput := UuObject (o : uuid_obj) | UuOther (i : input).
Record uuid_cfg := { uv_strict : bool; uv_version : option N }.

Section Uuid.
(** Texts of the crate's errors, for a text and for a number of bytes (external). *)
Variable parse_msg : str -> str.
Variable length_msg : nat -> str.
Variable py_str : pyval -> str.
Variable f64_to_string : Float64.f64 -> str.

Definition version_ok (c : uuid_cfg) (b : bytes) : bool :=
  match uv_version c with Some v => get_version_num b =? v | None => true end.

(** uuid.rs:169-220 [get_uuid]. *)
Definition get_uuid (c : uuid_cfg) (i : input) : bytes + uuerr :=
  let found :=
    match validate_str py_str f64_to_string true false i with
    | VOk (t, _) => match try_parse (utf8 t) with Some b => inl b | None => inr (UuParsing (parse_msg t)) end
    | VErr _ =>
        match validate_bytes true MUtf8 i with
        | VOk (v, _) =>
            let b := match strip v with PBytes b => b | _ => [] end in
            match (match from_utf8 b with Some t => try_parse (utf8 t) | None => None end) with
            | Some u => inl u
            | None => match from_slice b with Some u => inl u | None => inr (UuParsing (length_msg (length b))) end
            end
        | VErr _ => inr UuType
        end
    end in
  match found with
  | inl b => if version_ok c b then inl b
             else inr (UuVersion (match uv_version c with Some v => v | None => 0 end))
  | inr e => inr e
  end.

(** uuid.rs:99-161 [validate], 222-240 [create_py_uuid]; [is_py] is [input_type == Python]
    ([StringMapping] inputs and keys are not Python objects). *)
Definition uuid_validate (st : option bool) (is_py : bool) (c : uuid_cfg) (i : uuinput) : uures * exactness :=
  match i with
  | UuObject o =>
      match uv_version c with
      | Some v =>
          match py_version (uu_int o) with
          | Some w => if w =? v then (UuSame, Exact) else (UuErr (UuVersion v), Exact)
          | None => (UuErr (UuVersion v), Exact)
          end
      | None => (UuSame, Exact)
      end
  | UuOther i =>
      if (match st with Some s => s | None => uv_strict c end) && is_py then (UuErr UuInstance, Exact)
      else
        let x := if is_py then Lax else Exact in
        match get_uuid c i with
        | inr e => (UuErr e, x)
        | inl b =>
            match uv_version c with
            | Some v => if negb (get_version_num b =? v) || negb (is_rfc4122 b) then (UuErr (UuVersion v), x)
                        else (UuNew (mk_uuid (as_u128 b) SafeYes), x)
            | None => (UuNew (mk_uuid (as_u128 b) SafeYes), x)
            end
        end
  end.

(** serializers uuid.rs:14-19 [uuid_to_string], 39-92: in JSON (as a value or as a key) the text;
    the [u128] extraction fails for numbers that no UUID has. *)
Definition uuid_to_string (o : uuid_obj) : str := uuid_string (from_u128 (uu_int o)).
End Uuid.

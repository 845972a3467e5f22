(** Model of tagged unions (src/validators/union.rs:324-500, src/common/union.rs). *)
From Coq Require Import List NArith ZArith Bool.
From Verif Require Import Base Float64 IntParse Numbers BytesCodec Decimal Utf8 Values VState LookupKey Collections Child Inputs Scalars Literal.
Import ListNotations.
Open Scope nat_scope.

(** common/union.rs:8-14: where the tag comes from. *)
Inductive discriminator := DLookup (k : lookup_key) | DFunction (f : pyval -> pyval + pyexc).

Section Tagged.
Variable repr : pyval -> str.
Variable getattr : pyval -> str -> attr_res.
Variable py_str : pyval -> str.
Variable f64_to_string : f64 -> str.
Variable max_digits : N.

(** union.rs:486-498. *)
Definition tag_not_found (custom : option etype) (i : input) : vres pyval :=
  match custom with Some t => val_err t i | None => val_err EUnionTagNotFound i end.

(** union.rs:457-484: an error of the lookup is an invalid tag too. *)
Definition find_call_validator (custom : option etype) (choices : list (pyval * validator)) (tag : pyval) : validator := fun i s =>
  match lk_validate py_str f64_to_string max_digits (lk_build (map fst choices)) (IPy tag) with
  | VOk (Some id) =>
      match nth_error choices id with
      | Some (_, v) =>
          match v i s with
          | (VOk res, s') => (VOk res, s')
          | (VErr e, s') => (VErr (with_outer_err (py_loc repr tag) e), s')
          end
      | None => (VErr Panic, s)
      end
  | _ => ((match custom with Some t => val_err t i | None => val_err (EUnionTagInvalid (py_str tag)) i end), s)
  end.

(** union.rs:419-450 [validate]. *)
Definition tagged_union_validate (d : discriminator) (from_attributes : bool) (custom : option etype)
    (choices : list (pyval * validator)) : validator := fun i s =>
  match d with
  | DLookup k =>
      let from_attributes := unwrap_or (x_from_attributes (st_extra s)) from_attributes in
      match validate_model_fields repr getattr (strict_or s false) from_attributes i with
      | VErr e => (VErr e, s)
      | VOk md =>
          match md_get md k with
          | VErr e => (VErr e, s)
          | VOk None => (tag_not_found custom i, s)
          | VOk (Some (_, tag)) => find_call_validator custom choices (input_object tag) i s
          end
      end
  | DFunction f =>
      match f (input_object i) with
      | inr e => (VErr (InternalErr e), s)
      | inl PNone => (tag_not_found custom i, s)
      | inl tag => find_call_validator custom choices tag i s
      end
  end.
End Tagged.

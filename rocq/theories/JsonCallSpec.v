(** Small specification for the schemas json, call, callable and is-subclass (C76-C78). *)
From Coq Require Import List NArith ZArith Bool.
From Verif Require Import Base Float64 Utf8 BytesCodec Values VState LookupKey Collections Child Inputs Wrappers.
Import ListNotations.
Open Scope nat_scope.

(** The JSON document that an input holds, and how exactly it does. *)
Definition document (i : input) : option (bytes * exactness) :=
  match i with
  | IPy (PBytes b) => Some (b, Exact)
  | IPy v => match strip v with PBytes b => Some (b, Strict) | PStr t => Some (utf8 t, Lax) | _ => None end
  | IJson (JStr t) | IKey t => Some (utf8 t, Strict)
  | IJson _ => None
  | IStrings v => match as_str v with Some t => Some (utf8 t, Strict) | None => None end
  end.

(** A result as the user sees it: errors show their input as a Python object. *)
Definition shown (r : vres pyval) : vres pyval :=
  match r with VErr (LineErrors es) => VErr (LineErrors (map freeze_error es)) | r => r end.

(** A JSON parser that reads every text of [j] as [j]. *)
Definition reads_json (denotes : str -> json -> Prop) (parse : bytes -> partial_mode -> json + N) (j : json) : Prop :=
  forall t m, denotes t j -> parse (utf8 t) m = inl j.

(** Positional and keyword arguments that a value stands for. *)
Definition arguments_of (v : pyval) (a : list pyval) (k : list (pyval * pyval)) : Prop :=
  (exists x y, strip v = PTuple [x; y] /\ strip x = PTuple a /\ strip y = PDict k) \/ (a = [] /\ strip v = PDict k).

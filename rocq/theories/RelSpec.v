(** Vocabulary for comparing two validations. *)
From Coq Require Import List NArith ZArith Bool.
From Verif Require Import Base Float64 IntParse Numbers BytesCodec Values VState LookupKey Collections Child Inputs Scalars Literal Wrappers Union TaggedUnion Tuple ModelFields TypedDict Assign Arguments Classes Interp InterpSpec.
Import ListNotations.
Open Scope nat_scope.

(** What the caller sees of a result: the value, or the exception with the inputs of its
    line errors shown as Python objects. *)
Definition shown {A} (r : vres A) : vres A :=
  match r with VErr (LineErrors l) => VErr (LineErrors (map freeze_error l)) | r => r end.

(** The three names of "not a mapping" (dict_type, model_type, model_attributes_type) as
    one. *)
Definition one_name (t : etype) : etype := match t with EModelType | EModelAttributesType => EDictType | _ => t end.
Definition with_one_name {A} (r : vres A) : vres A :=
  match r with VErr (LineErrors l) => VErr (LineErrors (map (fun e => set_type (one_name (le_type e)) e) l)) | r => r end.

(** ** JSON documents whose Python counterpart says the same *)
(** Object keys are distinct and integers fit in 64 bits. *)
Inductive plain_json : json -> Prop :=
| PJNull : plain_json JNull
| PJBool b : plain_json (JBool b)
| PJInt z : fits_i64 z = true -> plain_json (JInt z)
| PJFloat f : plain_json (JFloat f)
| PJStr t : plain_json (JStr t)
| PJArr l : Forall plain_json l -> plain_json (JArr l)
| PJObj l : NoDup (map fst l) -> Forall (fun kv => plain_json (snd kv)) l -> plain_json (JObj l).

(** ** Inputs of [validate_strings] *)
(** Strings, and dicts from strings to such inputs. *)
Inductive plain_strings : pyval -> Prop :=
| PSStr t : plain_strings (PStr t)
| PSDict d : Forall (fun kv => (exists t, fst kv = PStr t) /\ plain_strings (snd kv)) d -> plain_strings (PDict d).

(** ** Schemas that treat JSON and Python alike *)

(** User functions that do not ask for the mode. *)
Definition same_but_mode (a b : info) : Prop := in_data a = in_data b /\ in_field_name a = in_field_name b.
Definition ignores_mode {A} (f : pyval -> info -> A) : Prop := forall v a b, same_but_mode a b -> f v a = f v b.

(** A schema node that looks neither at the kind of input nor at the exactness of the
    match: not a smart union, not json_or_python, not is_instance, no number-to-string
    coercion, no mode-dependent function and (for a list without item schema) sane length
    limits.  If the names of errors matter ([names]): nothing that reads attributes; if
    they do not: no wrap function, which could see the names. *)
Definition native (names : bool) (sc : schema) : Prop :=
  match sc with
  | SStr c => sc_coerce_numbers c = false
  | SIsInstance _ | SJsonOrPython _ _ => False
  | SList c None => match co_min c, co_max c with Some a, Some b => a <= b | _, _ => True end
  | SUnion UnionSmart _ _ => False
  | SBefore f _ _ | SAfter f _ _ | SPlain f _ => ignores_mode f
  | SWrap f _ _ => names = true /\ ignores_mode f
  | SModelFields c _ _ _ => names = true -> fo_from_attributes c = false
  | STagged _ fa _ _ => names = true -> fa = false
  | _ => True
  end.

(** The same for the schema of a dict's keys, which sees the keys of JSON objects: no
    literal bools (those match strings there), no frozensets, no references. *)
Definition native_key (names : bool) (sc : schema) : Prop :=
  native names sc /\
  match sc with
  | SLiteral l => Forall (fun v => is_bool v = false) l
  | SSet true _ _ | SRef _ => False
  | _ => True
  end.

(** The schemas that validate keys of mappings. *)
Definition key_schemas (sc : schema) : list schema :=
  match sc with SDict _ k _ => [k] | SModelFields _ _ _ (Some k) => [k] | _ => [] end.

(** A schema for JSON documents. *)
Definition json_native (names : bool) (sc : schema) : Prop := native names sc /\ forall k, In k (key_schemas sc) -> everywhere (native_key names) k.

(** A schema for inputs of strings: it looks neither at the mode nor at the exactness of
    the match, has no literal bools (the text of a bool matches them in strings mode), no
    function arguments, no dataclass arguments and no models with their own [__init__].
    [names] as above. *)
Definition strings_native (names : bool) (sc : schema) : Prop :=
  match sc with
  | SLiteral l => Forall (fun v => is_bool v = false) l
  | SArguments _ _ _ _ | SDataclassArgs _ _ _ => False
  | SModel c _ => mo_custom_init c = None
  | SModelFields c _ _ _ => names = true -> fo_from_attributes c = false
  | STagged _ fa _ _ => names = true -> fa = false
  | SIsInstance _ | SJsonOrPython _ _ => False
  | SUnion UnionSmart _ _ => False
  | SBefore f _ _ | SAfter f _ _ | SPlain f _ => ignores_mode f
  | SWrap f _ _ => names = true /\ ignores_mode f
  | _ => True
  end.

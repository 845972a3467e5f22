(** The state and the data of the serializer model: options, warnings, errors, the
    kinds of Python objects, and the serializer tree built from a schema
    (src/serializers/{extra,config,ob_type,shared}.rs). *)
From Coq Require Import List NArith ZArith Bool.
From Verif Require Import Base Float64 Utf8 Decimal Values BytesCodec Filter LookupKey Classes.
Import ListNotations.
Open Scope nat_scope.

(** config.rs: [ser_json_inf_nan] (default Null) and [ser_json_bytes]. *)
Inductive inf_nan_mode := INull | IConstants | IStrings.
Record config := { c_inf_nan : inf_nan_mode; c_bytes : bytes_mode }.

(** extra.rs:31-67 [DuckTypingSerMode]. *)
Inductive duck := SchemaBased | NeedsInference | Inferred.
Definition next_mode (d : duck) : duck :=
  match d with SchemaBased => SchemaBased | NeedsInference => Inferred | Inferred => NeedsInference end.
Definition is_inferred (d : duck) : bool := match d with Inferred => true | _ => false end.

(** extra.rs:212-227 [SerCheck]. *)
Inductive check := CNone | CStrict | CLax.
Definition check_enabled (c : check) : bool := match c with CNone => false | _ => true end.
Definition is_strict (c : check) : bool := match c with CStrict => true | _ => false end.

(** extra.rs:118-142 [Extra].  [x_json] is the mode (a mode other than 'json' behaves as
    'python'); [x_collect] says that the warnings mode is not 'none' (extra.rs:417-421);
    [x_guard] is the set of (object, definition) pairs entered by the recursion guard,
    [None] being the id used by type inference (infer.rs:36-38).  An object is
    identified by its structure: a value is never a proper part of itself, so two equal
    values one of which contains the other are one object.  [x_fallback] is the user's
    fallback function, [None] standing for an exception.  Left out: field_name and
    context, which only user functions read. *)
Record extra := {
  x_json : bool; x_by_alias : option bool;
  x_exclude_unset : bool; x_exclude_defaults : bool; x_exclude_none : bool; x_round_trip : bool;
  x_config : config; x_check : check; x_model : option pyval;
  x_serialize_unknown : bool; x_fallback : option (pyval -> option pyval);
  x_duck : duck; x_collect : bool; x_guard : list (pyval * option nat) }.

Definition set_check (c : check) (x : extra) : extra :=
  {| x_json := x_json x; x_by_alias := x_by_alias x; x_exclude_unset := x_exclude_unset x;
     x_exclude_defaults := x_exclude_defaults x; x_exclude_none := x_exclude_none x; x_round_trip := x_round_trip x;
     x_config := x_config x; x_check := c; x_model := x_model x; x_serialize_unknown := x_serialize_unknown x;
     x_fallback := x_fallback x; x_duck := x_duck x; x_collect := x_collect x; x_guard := x_guard x |}.
Definition set_model (m : option pyval) (x : extra) : extra :=
  {| x_json := x_json x; x_by_alias := x_by_alias x; x_exclude_unset := x_exclude_unset x;
     x_exclude_defaults := x_exclude_defaults x; x_exclude_none := x_exclude_none x; x_round_trip := x_round_trip x;
     x_config := x_config x; x_check := x_check x; x_model := m; x_serialize_unknown := x_serialize_unknown x;
     x_fallback := x_fallback x; x_duck := x_duck x; x_collect := x_collect x; x_guard := x_guard x |}.
Definition set_duck (d : duck) (x : extra) : extra :=
  {| x_json := x_json x; x_by_alias := x_by_alias x; x_exclude_unset := x_exclude_unset x;
     x_exclude_defaults := x_exclude_defaults x; x_exclude_none := x_exclude_none x; x_round_trip := x_round_trip x;
     x_config := x_config x; x_check := x_check x; x_model := x_model x; x_serialize_unknown := x_serialize_unknown x;
     x_fallback := x_fallback x; x_duck := d; x_collect := x_collect x; x_guard := x_guard x |}.
Definition set_guard (g : list (pyval * option nat)) (x : extra) : extra :=
  {| x_json := x_json x; x_by_alias := x_by_alias x; x_exclude_unset := x_exclude_unset x;
     x_exclude_defaults := x_exclude_defaults x; x_exclude_none := x_exclude_none x; x_round_trip := x_round_trip x;
     x_config := x_config x; x_check := x_check x; x_model := x_model x; x_serialize_unknown := x_serialize_unknown x;
     x_fallback := x_fallback x; x_duck := x_duck x; x_collect := x_collect x; x_guard := g |}.
(** mod.rs:48-87 [build_extra] called for the serializer of an inferred instance
    (infer.rs:92-113): its own config, no check, no model. *)
Definition nested_extra (c : config) (x : extra) : extra :=
  {| x_json := x_json x; x_by_alias := x_by_alias x; x_exclude_unset := x_exclude_unset x;
     x_exclude_defaults := x_exclude_defaults x; x_exclude_none := x_exclude_none x; x_round_trip := x_round_trip x;
     x_config := c; x_check := CNone; x_model := None; x_serialize_unknown := x_serialize_unknown x;
     x_fallback := x_fallback x; x_duck := x_duck x; x_collect := x_collect x; x_guard := x_guard x |}.

(** extra.rs:207-209 [serialize_by_alias_or]. *)
Definition by_alias_or (x : extra) (own : option bool) : bool :=
  match x_by_alias x with Some b => b | None => match own with Some b => b | None => false end end.

(** A recorded warning: an unexpected value met by a serializer (extra.rs:455-464),
    additional tuple items (tuple.rs:229-237), a missing discriminator
    (union.rs:340-351), the errors of the choices of a union (105-117), an unexpected
    value raised by a function (function.rs:203-210).  The texts are left out. *)
Inductive warning := WFallback (v : pyval) | WExtraItems | WNoTag (v : pyval) | WUnion | WFunction.

(** [EUnexpected] is PydanticSerializationUnexpectedValue, [EOther] any other exception,
    [ECrash] a process whose stack is exhausted. *)
Inductive serr := EUnexpected | EOther | ECrash.
Inductive out (A : Type) := Good (a : A) | Bad (e : serr).
Arguments Good {A}. Arguments Bad {A}.
(** A call: the warnings it records, which stay recorded when it fails, and its result. *)
Definition M (A : Type) : Type := list warning * out A.
Definition ret {A} (a : A) : M A := ([], Good a).
Definition fail {A} (e : serr) : M A := ([], Bad e).
Definition bind {A B} (m : M A) (f : A -> M B) : M B :=
  match snd m with
  | Good a => (fst m ++ fst (f a), snd (f a))
  | Bad e => (fst m, Bad e)
  end.
Notation "x <- m ;; f" := (bind m (fun x => f)) (at level 61, m at next level, right associativity).
Definition opt {A} (o : option A) : M A := match o with Some a => ret a | None => fail EOther end.
Definition res_opt {A} (r : res A) : M A := match r with Ok a => ret a | _ => fail EOther end.

(** extra.rs:417-421 [register_warning]. *)
Definition register (w : warning) (x : extra) : M unit := ((if x_collect x then [w] else []), Good tt).
(** extra.rs:423-453 [on_fallback_py] and [on_fallback_ser]. *)
Definition on_fallback (v : pyval) (x : extra) : M unit :=
  match v with
  | PNone => ret tt
  | _ => if check_enabled (x_check x) then fail EUnexpected else register (WFallback v) x
  end.

(** Structural equality, which stands for object identity in the recursion guard. *)
Definition f_same (a b : f64) : bool :=
  match a, b with
  | S754_zero s, S754_zero t | S754_infinity s, S754_infinity t => Bool.eqb s t
  | S754_nan, S754_nan => true
  | S754_finite s m e, S754_finite t n g => Bool.eqb s t && Pos.eqb m n && Z.eqb e g
  | _, _ => false
  end.
Fixpoint same (a b : pyval) {struct a} : bool :=
  match a, b with
  | PNone, PNone => true
  | PBool x, PBool y => Bool.eqb x y
  | PInt x, PInt y => Z.eqb x y
  | PFloat x, PFloat y => f_same x y
  | PStr x, PStr y | PBytes x, PBytes y => str_eqb x y
  | PList x, PList y | PTuple x, PTuple y | PSet x, PSet y | PFrozenSet x, PFrozenSet y =>
      (fix go x y := match x, y with [], [] => true | a :: x, b :: y => same a b && go x y | _, _ => false end) x y
  | PDict x, PDict y =>
      (fix go x y := match x, y with
                     | [], [] => true
                     | (a, c) :: x, (b, d) :: y => same a b && same c d && go x y
                     | _, _ => false
                     end) x y
  | PObj c x, PObj d y =>
      N.eqb c d &&
      (fix go x y := match x, y with
                     | [], [] => true
                     | (a, v) :: x, (b, w) :: y => str_eqb a b && same v w && go x y
                     | _, _ => false
                     end) x y
  | PSub c x, PSub d y => N.eqb c d && same x y
  | _, _ => false
  end.
Definition same_slot (a b : option nat) : bool :=
  match a, b with Some i, Some j => Nat.eqb i j | None, None => true | _, _ => false end.
(** recursion_guard.rs:69-86 [RecursionState::insert]: [None] when the object is already
    being serialized by that definition. *)
Definition enter (v : pyval) (k : option nat) (x : extra) : option extra :=
  if existsb (fun g => same v (fst g) && same_slot k (snd g)) (x_guard x) then None
  else Some (set_guard ((v, k) :: x_guard x) x).

(** [downcast] to a built-in type accepts its subclasses. *)
Definition base (v : pyval) : pyval := match v with PSub _ b => b | _ => v end.
Definition down_str (v : pyval) : option str := match base v with PStr s => Some s | _ => None end.
Definition down_bytes (v : pyval) : option bytes := match base v with PBytes s => Some s | _ => None end.
Definition down_list (v : pyval) : option (list pyval) := match base v with PList l => Some l | _ => None end.
Definition down_tuple (v : pyval) : option (list pyval) := match base v with PTuple l => Some l | _ => None end.
Definition down_set (v : pyval) : option (list pyval) := match base v with PSet l => Some l | _ => None end.
Definition down_frozenset (v : pyval) : option (list pyval) := match base v with PFrozenSet l => Some l | _ => None end.
Definition down_dict (v : pyval) : option (list (pyval * pyval)) := match base v with PDict l => Some l | _ => None end.
(** [extract::<Int>]: an int or a subclass of int, which bool is.  [extract::<f64>]: a
    float or what float() converts, an int too large for a double being an error. *)
Definition get_int (v : pyval) : option Z :=
  match v with
  | PBool b => Some (if b then 1 else 0)%Z
  | _ => match base v with PInt z => Some z | _ => None end
  end.
Definition get_float (v : pyval) : option f64 :=
  match base v with
  | PFloat f => Some f
  | _ => match get_int v with Some z => let f := f_of_Z z in if f_is_finite f then Some f else None | None => None end
  end.

(** [str.to_str] fails on lone surrogates; [to_string_lossy] replaces each of their
    three bytes. *)
Definition to_str (s : str) : M str := if forallb scalar s then ret s else fail EOther.
Definition lossy (s : str) : str := flat_map (fun c => if scalar c then [c] else [65533; 65533; 65533]%N) s.

(** A filter key.  A dict key that is neither an int nor a str equals no key of a filter:
    it is represented by a str that no str equals. *)
Definition no_key : str := [1114112%N].
Definition key_of (v : pyval) : key :=
  match base v with
  | PInt z => KInt z
  | PBool b => KInt (if b then 1 else 0)%Z
  | PStr s => KStr s
  | _ => KStr no_key
  end.

(** ob_type.rs:17-66 [ObType], for the kinds of objects in the value model. *)
Inductive obty :=
| TNone | TInt | TIntSub | TBool | TFloat | TFloatSub | TStr | TStrSub | TBytes | TTuple | TList | TSet | TFrozenset
| TDict | TPydantic | TDataclass | TEnum | TUnknown.
Inductive istype := Exact | Subclass | IsNot.

(** fields.rs:24-34 [SerField] and computed_fields.rs:112-121 [ComputedField], over the
    type of the serializers; [f_ser] is None for a field excluded by the schema. *)
Record field (S : Type) := { f_alias : option str; f_ser : option S; f_required : bool; f_by_alias : option bool }.
Arguments f_alias {S}. Arguments f_ser {S}. Arguments f_required {S}. Arguments f_by_alias {S}.
Record computed (S : Type) := { cf_name : str; cf_alias : str; cf_ser : S; cf_by_alias : option bool }.
Arguments cf_name {S}. Arguments cf_alias {S}. Arguments cf_ser {S}. Arguments cf_by_alias {S}.

(** fields.rs:87-94 [FieldsMode]. *)
Inductive fields_mode := SimpleDict | ModelExtra | TypedDictAllow.
Definition is_td_allow (m : fields_mode) : bool := match m with TypedDictAllow => true | _ => false end.

(** format.rs:18-52 [WhenUsed]. *)
Inductive when_used := Always | UnlessNone | WhenJson | JsonUnlessNone.
Definition is_py_none (v : pyval) : bool := match v with PNone => true | _ => false end.
Definition should_use (w : when_used) (v : pyval) (x : extra) : bool :=
  match w with
  | Always => true
  | UnlessNone => negb (is_py_none v)
  | WhenJson => x_json x
  | JsonUnlessNone => x_json x && negb (is_py_none v)
  end.
Definition should_use_json (w : when_used) (v : pyval) : bool :=
  match w with Always | WhenJson => true | _ => negb (is_py_none v) end.

(** What a user function raises: the exception for an unexpected value, or another. *)
Inductive ferr := FUnexpected | FError.
(** union.rs:290-305: a discriminator. *)
Inductive disc := DKey (k : lookup_key) | DFun (f : pyval -> option pyval).

(** The serializers (shared.rs:92-148 [CombinedSerializer]).
    - [SerDefault]: the value of [get_default] (with_default.rs:73-84), evaluated once.
    - [SerTuple]: with the index of the variadic item.
    - [SerFields]: the fields by name, the serializer of additional items, the computed
      fields.
    - [SerTagged]: the index of the choice for the str() of each tag.
    - [SerDef]: a definition, with the cached answer of [retry_with_lax_check].
    - [SerFunction]: a plain function serializer; the function gets the model (for a
      field serializer) and the value.
    Not modelled: wrap functions, generator, format with a format string, decimal,
    datetime, timedelta, uuid, url, complex. *)
Inductive ser :=
| SerAny | SerNone | SerInt | SerBool | SerFloat (m : inf_nan_mode) | SerStr | SerBytes (m : bytes_mode)
| SerNullable (s : ser)
| SerDefault (d : option pyval) (s : ser)
| SerList (f : schema_filter) (s : ser)
| SerSet (s : ser)
| SerFrozenSet (s : ser)
| SerTuple (f : schema_filter) (items : list ser) (variadic : option nat)
| SerDict (f : schema_filter) (k v : ser)
| SerFields (mode : fields_mode) (fields : list (str * field ser)) (extras : option ser) (comp : list (computed ser))
| SerModel (cls : N) (inner : ser) (has_extra root : bool)
| SerDataclass (cls : N) (inner : ser) (names : list str)
| SerUnion (choices : list ser)
| SerTagged (d : disc) (tags : list (str * nat)) (choices : list ser)
| SerLiteral (expected : list pyval)
| SerEnum (cls : N) (sub : option ser)
| SerToString (w : when_used)
| SerJsonOrPython (j p : ser)
| SerJson (s : ser)
| SerDef (k : nat) (retry : bool)
| SerFunction (w : when_used) (is_field : bool) (f : option pyval -> pyval -> pyval + ferr) (r : ser) (fb : option ser).

(** What the model knows about a class: its __pydantic_serializer__ and the config of
    that serializer, the names of its dataclass fields, whether it is an Enum. *)
Record class_info := { ci_ser : option (ser * config); ci_dataclass : option (list str); ci_enum : bool }.
(** The surroundings of a call: the classes, issubclass, the definitions, str() of objects
    other than None, bool, int and str ([None]: it raises), whether hash() works on a
    model or dataclass instance, attributes computed by the class (properties), the
    text of finite floats (ryu), the depth of the native stack. *)
Record env := {
  e_class : N -> class_info; e_sub : N -> N -> bool; e_def : nat -> option ser;
  e_str : pyval -> option str; e_hash : pyval -> bool; e_prop : pyval -> str -> option pyval;
  e_ryu : f64 -> bytes; e_stack : nat }.

(** [str(v)].  Simplification: ints with more than 4300 digits, for which str() raises,
    are not represented. *)
Definition py_str (E : env) (v : pyval) : option str :=
  match v with
  | PNone => Some (lit "None")
  | PBool b => Some (if b then lit "True" else lit "False")
  | PInt z => Some (dec_Z z)
  | PStr s => Some s
  | _ => e_str E v
  end.

(** [getattr(v, name)]: an attribute of the instance, an item of its __dict__, or an
    attribute computed by its class. *)
Definition get_attr (E : env) (v : pyval) (name : str) : option pyval :=
  match v with
  | PObj _ attrs =>
      match assoc name attrs with
      | Some x => Some x
      | None =>
          match match assoc dunder_dict attrs with
                | Some d => match down_dict d with Some l => dict_get (PStr name) l | None => None end
                | None => None
                end with
          | Some x => Some x
          | None => e_prop E v name
          end
      end
  | _ => e_prop E v name
  end.
(** [v.__dict__] ([None]: v has none).  __pydantic_fields_set__ and __pydantic_extra__ are slots. *)
Definition dict_attr (v : pyval) : option pyval :=
  match v with
  | PObj _ attrs =>
      match assoc dunder_dict attrs with
      | Some d => Some d
      | None =>
          Some (PDict (map (fun a => (PStr (fst a), snd a))
            (List.filter (fun a => negb (str_eqb (fst a) dunder_fields_set || str_eqb (fst a) dunder_extra)) attrs)))
      end
  | PSub _ _ => Some (PDict [])
  | _ => None
  end.
(** [v.value] of an Enum member: a mixed-in built-in value, or the attribute. *)
Definition enum_value (E : env) (v : pyval) : option pyval :=
  match v with
  | PSub _ b => Some b
  | _ => get_attr E v (lit "value")
  end.

(** ob_type.rs:181-265 [get_type] and 288-339 [fallback_isinstance]. *)
Definition class_kind (E : env) (c : N) (dflt : obty) : obty :=
  let i := e_class E c in
  if is_some (ci_ser i) then TPydantic else if is_some (ci_dataclass i) then TDataclass else if ci_enum i then TEnum else dflt.
Definition get_type (E : env) (v : pyval) : obty :=
  match v with
  | PNone => TNone
  | PBool _ => TBool
  | PInt _ => TInt
  | PFloat _ => TFloat
  | PStr _ => TStr
  | PBytes _ => TBytes
  | PList _ => TList
  | PTuple _ => TTuple
  | PSet _ => TSet
  | PFrozenSet _ => TFrozenset
  | PDict _ => TDict
  | PObj c _ => class_kind E c TUnknown
  | PSub c b =>
      class_kind E c
        match b with
        | PInt _ => TIntSub | PFloat _ => TFloatSub | PStr _ => TStrSub | PBytes _ => TBytes | PList _ => TList
        | PTuple _ => TTuple | PSet _ => TSet | PFrozenSet _ => TFrozenset | PDict _ => TDict | _ => TUnknown
        end
  end.
(** ob_type.rs:98-179 [is_type], for None, int, bool, float and str: walking up the bases,
    so bool is a subclass of int, and int (hence bool) counts as a subclass of float. *)
Definition is_none_type (v : pyval) : istype := match v with PNone => Exact | _ => IsNot end.
Definition is_int_type (v : pyval) : istype :=
  match v with PInt _ => Exact | PBool _ | PSub _ (PInt _) => Subclass | _ => IsNot end.
Definition is_bool_type (v : pyval) : istype := match v with PBool _ => Exact | _ => IsNot end.
Definition is_float_type (v : pyval) : istype :=
  match v with PFloat _ => Exact | PInt _ | PBool _ | PSub _ (PFloat _) | PSub _ (PInt _) => Subclass | _ => IsNot end.
Definition is_str_type (v : pyval) : istype := match v with PStr _ => Exact | PSub _ (PStr _) => Subclass | _ => IsNot end.

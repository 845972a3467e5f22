(** Model of [CombinedSerializer::build]: which serializer a core schema gets
    (src/serializers/shared.rs:155-212 and the [build] functions in
    src/serializers/type_serializers). *)
From Coq Require Import List NArith ZArith Bool.
From Verif Require Import Base BytesCodec Values LookupKey Child Wrappers TaggedUnion Classes Interp.
From Verif Require Filter SerBase.
Import ListNotations SerBase.

(** What building a serializer ends in; [Panics] is a panic of the Rust code. *)
Inductive built (A : Type) := Built (a : A) | SchemaError | Panics.
Arguments Built {A}. Arguments SchemaError {A}. Arguments Panics {A}.
Definition bbind {A B} (m : built A) (f : A -> built B) : built B :=
  match m with Built a => f a | SchemaError => SchemaError | Panics => Panics end.
Fixpoint all_built {A} (l : list (built A)) : built (list A) :=
  match l with [] => Built [] | m :: l => bbind m (fun a => bbind (all_built l) (fun r => Built (a :: r))) end.

(** What the schema says for serializers only, and the config: modes for floats and bytes,
    aliases and exclusion of fields (by name), which models have extra_behavior 'allow' in
    their own schema or config, which typed dicts and dataclass arguments have it in the
    config they are built with, the text of tags, and the answer of
    [retry_with_lax_check] for definitions.
    Simplification: one config for all of the schema; no `serialization` key; computed
    fields are not represented. *)
Record written := {
  w_float : inf_nan_mode; w_bytes : bytes_mode; w_alias : str -> option str; w_hidden : str -> bool; w_by_alias : option bool;
  w_model_extra : N -> bool; w_td_extra : finfos -> bool; w_str : pyval -> str; w_retry : nat -> bool }.

(** with_default.rs:73-86 [get_default], evaluated once (as [SerDefault] does); an exception
    of the factory counts as no default. *)
Definition default_of (k : default_kind) : option pyval :=
  match k with
  | DNone => None
  | DValue v => Some v
  | DFactory f true => None
  | DFactory f false => match f None with inl v => Some v | inr _ => None end
  end.
(** union.rs:46-69 [from_choices]. *)
Definition from_choices (l : list ser) : built ser :=
  match l with [] => SchemaError | [s] => Built s | _ => Built (SerUnion l) end.
(** common/union.rs: the discriminator, shared with the validator; an exception of the
    function is no tag. *)
Definition disc_of (d : discriminator) : disc :=
  match d with
  | DLookup k => DKey k
  | DFunction f => DFun (fun v => match f v with inl t => Some t | inr _ => None end)
  end.
(** union.rs:217-221: the later of two tags with the same text wins. *)
Definition tag_table (w : written) (tags : list pyval) : list (str * nat) :=
  rev (combine (map (w_str w) tags) (seq 0 (length tags))).
Definition field_of (w : written) (required : bool) (name : str) (s : built ser) : built (str * field ser) :=
  if w_hidden w name then Built (name, {| f_alias := None; f_ser := None; f_required := required; f_by_alias := w_by_alias w |})
  else bbind s (fun s => Built (name, {| f_alias := w_alias w name; f_ser := Some s; f_required := required; f_by_alias := w_by_alias w |})).
(** model.rs:45-49 and typed_dict.rs:38-44: a schema for additional items needs 'allow'. *)
Definition extras_of (allow : bool) (s : option (built ser)) : built (option ser) :=
  match s, allow with
  | Some s, true => bbind s (fun s => Built (Some s))
  | Some _, false => SchemaError
  | None, _ => Built None
  end.

Section Of.
Variable w : written.

(** The [build] function of each type:
    - chain, custom-error, lax-or-strict, is-instance: other.rs:14-110 (the last step, the
      schema inside, the strict schema, any; `steps` empty is an unwrap of None);
    - functions: function.rs:28-80 (the schema inside, any for a plain function);
    - list, set, dict, nullable, default, json-or-python, literal: their [build];
    - tuple: tuple.rs:30-56 (the name of the serializer is made with an insertion behind the
      variadic item, which panics if there is no such item);
    - model-fields: model.rs:28-82; model: model.rs:92-118; typed-dict: typed_dict.rs:18-75;
      arguments: other.rs:82-92; dataclass-args: dataclass.rs:23-71 (init-only fields are
      left out); dataclass: dataclass.rs:82-108;
    - definition-ref: definitions.rs:70-85. *)
Fixpoint ser_of (sc : schema) : built ser :=
  match sc with
  | SAny | SIsInstance _ | SPlain _ _ => Built SerAny
  | SNone => Built SerNone
  | SBool _ => Built SerBool
  | SInt _ _ => Built SerInt
  | SFloat _ _ => Built (SerFloat (w_float w))
  | SStr _ => Built SerStr
  | SBytes _ => Built (SerBytes (w_bytes w))
  | SLiteral l => match l with [] => SchemaError | _ => Built (SerLiteral l) end
  | SList _ item => bbind (match item with Some sc => ser_of sc | None => Built SerAny end) (fun s => Built (SerList Filter.any_filter s))
  | SSet frozen _ item => bbind (ser_of item) (fun s => Built (if frozen then SerFrozenSet s else SerSet s))
  | STuple c items =>
      bbind (all_built (map ser_of items)) (fun l =>
      match tn_variadic c with
      | Some k => if Nat.leb (length l) k then Panics else Built (SerTuple Filter.any_filter l (Some k))
      | None => Built (SerTuple Filter.any_filter l None)
      end)
  | SDict _ k v => bbind (ser_of k) (fun k => bbind (ser_of v) (fun v => Built (SerDict Filter.any_filter k v)))
  | SNullable sc => bbind (ser_of sc) (fun s => Built (SerNullable s))
  | SDefault k _ _ sc => bbind (ser_of sc) (fun s => Built (SerDefault (default_of k) s))
  | SChain steps => last (map ser_of steps) Panics
  | SJsonOrPython j p => bbind (ser_of j) (fun j => bbind (ser_of p) (fun p => Built (SerJsonOrPython j p)))
  | SLaxOrStrict _ _ sc | SCustomError _ sc | SBefore _ _ sc | SAfter _ _ sc | SWrap _ _ sc => ser_of sc
  | SUnion _ _ choices => bbind (all_built (map (fun c => ser_of (fst c)) choices)) from_choices
  | STagged d _ _ choices =>
      bbind (all_built (map (fun c => ser_of (snd c)) choices)) (fun l => Built (SerTagged (disc_of d) (tag_table w (map fst choices)) l))
  | SModelFields c fields ex _ =>
      let allow := match fo_extra c with ExtraAllow => true | _ => false end in
      bbind (extras_of allow (match ex with Some sc => Some (ser_of sc) | None => None end)) (fun ex =>
      bbind (all_built (map (fun f => field_of w true (fi_name (fst f)) (ser_of (snd f))) fields)) (fun fs =>
      Built (SerFields (if allow then ModelExtra else SimpleDict) fs ex [])))
  | STypedDict c fields ex =>
      bbind (extras_of (w_td_extra w c) (match ex with Some sc => Some (ser_of sc) | None => None end)) (fun ex =>
      bbind (all_built (map (fun f => field_of w (fi_required (fst f)) (fi_name (fst f)) (ser_of (snd f))) fields)) (fun fs =>
      Built (SerFields (if w_td_extra w c then TypedDictAllow else SimpleDict) fs ex [])))
  | SArguments _ _ _ _ => SchemaError
  | SDataclassArgs c fields _ =>
      bbind (all_built (flat_map (fun f => if dn_init_only (fst f) then [] else [field_of w true (dn_name (fst f)) (ser_of (snd f))]) fields)) (fun fs =>
      Built (SerFields (match do_extra c with ExtraAllow => TypedDictAllow | _ => SimpleDict end) fs None []))
  | SModel c sc => bbind (ser_of sc) (fun s => Built (SerModel (mo_cls c) s (w_model_extra w (mo_cls c)) (mo_root c)))
  | SDataclass c sc => bbind (ser_of sc) (fun s => Built (SerDataclass (da_cls c) s (da_names c)))
  | SRef k => Built (SerDef k (w_retry w k))
  end.
End Of.

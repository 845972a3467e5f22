(** Which schemas, with which serializers, give a valid value back when its serialized
    form is validated. *)
From Coq Require Import List NArith ZArith Bool Permutation.
From Verif Require Import Base Utf8 Float64 IntParse Numbers BytesCodec BytesCodecSpec Decimal Values VState LookupKey Collections Child Inputs Scalars Wrappers Tuple ModelFields TypedDict Assign Arguments Classes Interp InterpSpec ConformSpec StableSpec.
From Verif Require NumbersSpec Filter SerBase Ser.
Import ListNotations.
Open Scope nat_scope.

(** ** Equality *)
(** Python's ==: dicts up to the order of their items, models by class and __dict__ (the
    record of which fields were set is not compared).  A value equals itself, NaN
    included; the items of sets have to be the same. *)
Inductive equal : pyval -> pyval -> Prop :=
| EqSame v : equal v v
| EqList l m : Forall2 equal l m -> equal (PList l) (PList m)
| EqTuple l m : Forall2 equal l m -> equal (PTuple l) (PTuple m)
| EqDict d e m : Permutation d e -> map fst e = map fst m -> Forall2 equal (map snd e) (map snd m) -> equal (PDict d) (PDict m)
| EqModel c d e x fs gs : equal d e -> equal (model_inst c d x fs) (model_inst c e x gs)
| EqRoot c v w fs gs : equal v w -> equal (root_inst c v fs) (root_inst c w gs).

(** ** Values *)
(** Nothing but instances of the built-in types themselves and of models: strings that can
    be encoded, ints that can be read back from text. *)
Inductive plain (max_digits : N) : pyval -> Prop :=
| PlNone : plain max_digits PNone
| PlBool b : plain max_digits (PBool b)
| PlInt z : (N.of_nat (length (dec_N (Z.abs_N z))) <= max_digits)%N -> plain max_digits (PInt z)
| PlFloat f : valid64 f = true -> plain max_digits (PFloat f)
| PlStr s : forallb scalar s = true -> plain max_digits (PStr s)
| PlBytes b : octets b -> plain max_digits (PBytes b)
| PlList l : (forall x, In x l -> plain max_digits x) -> plain max_digits (PList l)
| PlTuple l : (forall x, In x l -> plain max_digits x) -> plain max_digits (PTuple l)
| PlSet l : (forall x, In x l -> plain max_digits x) -> plain max_digits (PSet l)
| PlFrozenSet l : (forall x, In x l -> plain max_digits x) -> plain max_digits (PFrozenSet l)
| PlDict d : (forall k v, In (k, v) d -> plain max_digits k /\ plain max_digits v) -> plain max_digits (PDict d)
| PlObj c attrs : (forall n v, In (n, v) attrs -> plain max_digits v) -> plain max_digits (PObj c attrs).

(** A world where no object is an instance of a model class: the values that conform to
    a schema there are those whose models were built from their fields, none being an
    instance that validation took over unseen. *)
Definition unseen (E : env) : env :=
  {| e_parse_f64 := e_parse_f64 E; e_py_str := e_py_str E; e_f64_to_string := e_f64_to_string E; e_max_digits := e_max_digits E;
     e_to_lower := e_to_lower E; e_to_upper := e_to_upper E; e_repr := e_repr E; e_getattr := e_getattr E;
     e_subclass := fun _ _ => false; e_wd_fuel := e_wd_fuel E |}.

(** ** Schemas *)
Definition int_fine (c : option int_constraints) : Prop :=
  forall k m, c = Some k -> ic_multiple_of k = Some m -> (0 < NumbersSpec.int_value m)%Z.
Definition bounds_fine (c : float_constraints) : Prop :=
  forall b, fc_le c = Some b \/ fc_lt c = Some b \/ fc_ge c = Some b \/ fc_gt c = Some b -> valid64 b = true.
Definition case_kept (c : str_constraints) : Prop := sc_to_lower c = false /\ sc_to_upper c = false.

(** Schemas of hashable built-in values. *)
Fixpoint flat (sc : schema) : bool :=
  match sc with
  | SNone | SBool _ | SInt _ _ | SFloat _ _ | SStr _ | SBytes _ => true
  | SNullable sc => flat sc
  | STuple _ items => forallb flat items
  | SSet true _ item => flat item
  | _ => false
  end.

(** Keys of JSON objects that are read back. *)
Inductive key_pair : schema -> SerBase.ser -> Prop :=
| KpBool st : key_pair (SBool st) SerBase.SerBool
| KpInt st c : int_fine c -> key_pair (SInt st c) SerBase.SerInt
| KpStr c : case_kept c -> key_pair (SStr c) SerBase.SerStr
| KpBytes c : key_pair (SBytes c) (SerBase.SerBytes (bc_mode c)).

(** The key under which a field is written. *)
Definition written (by_alias : option bool) (name : str) (g : SerBase.field SerBase.ser) : str :=
  if match by_alias with Some b => b | None => match SerBase.f_by_alias g with Some b => b | None => false end end
  then match SerBase.f_alias g with Some a => a | None => name end
  else name.
(** Looking up [key] finds what is written under [k], among items with keys in [all]. *)
Inductive finds (all : list str) (k : str) : lookup_key -> Prop :=
| FiSimple : finds all k (Simple (path_from_str k))
| FiFirst p : (lp_first p = k \/ ~ In (lp_first p) all) -> finds all k (Choice (path_from_str k) p)
| FiSecond p : ~ In (lp_first p) all -> finds all k (Choice p (path_from_str k)).

Section Pairs.
Variable defs : nat -> option schema.

(** Only None is written as null. *)
Inductive solid : schema -> Prop :=
| SoLeaf sc : match sc with SNone | SBool _ | SInt _ _ | SFloat _ _ | SStr _ | SBytes _ | SList _ _ | SSet _ _ _ | STuple _ _ | SDict _ _ _ | STypedDict _ _ _ => True | _ => False end -> solid sc
| SoNullable sc : solid sc -> solid (SNullable sc)
| SoDefault k o vd sc : solid sc -> solid (SDefault k o vd sc)
| SoModel c sc : mo_root c = false -> solid (SModel c sc)
| SoRef k d : defs k = Some d -> solid d -> solid (SRef k).

(** A missing item of a typed dict stays missing. *)
Definition no_default_for (sc : schema) : Prop :=
  match sc with SRef k => exists d, defs k = Some d /\ without_default d | _ => without_default sc end.

Variable E : env.
(** The options of the calls: by_alias and round_trip of serialization; by_alias and
    by_name of validation. *)
Variable by_alias : option bool.
Variable round_trip : bool.
Variables v_by_alias v_by_name : option bool.
(** JSON mode, or Python mode. *)
Variable js : bool.

(** The fields of a model or typed dict and those of its serializer. *)
Definition fields_agree (pair : schema -> SerBase.ser -> Prop) (c : finfos) (fields : list (finfo * schema)) (sfs : list (str * SerBase.field SerBase.ser)) : Prop :=
  NoDup (map (fun f => fi_name (fst f)) fields) /\
  exists key_of : str -> str,
    NoDup (map (fun f => key_of (fi_name (fst f))) fields) /\
    forall f sc, In (f, sc) fields ->
      exists g s look, assoc (fi_name f) sfs = Some g /\ SerBase.f_ser g = Some s /\ pair sc s /\
        forallb scalar (fi_name f) = true /\ key_of (fi_name f) = written by_alias (fi_name f) g /\
        collection_select (fi_keys f) (unwrap_or (or_else v_by_alias (fo_by_alias c)) true) (unwrap_or (or_else v_by_name (fo_by_name c)) false) = BOk look /\
        finds (map (fun f => key_of (fi_name (fst f))) fields) (key_of (fi_name f)) look.

(** - floats: a non-finite float needs 'constants' in JSON;
    - bytes: the same encoding both ways in JSON;
    - strings: no change of case, which a second validation would repeat;
    - defaults: not omitted on error, and valid if they are not validated;
    - nullable: null stands only for None;
    - sets and dict keys: hashable built-in values; in JSON, keys that can be read back;
    - tuples: defaults are not counted for max_length;
    - models, typed dicts: no extra items, no user code, no computed fields unless
      round_trip is set, aliases that validation understands. *)
Inductive pair : schema -> SerBase.ser -> Prop :=
| PaNone : pair SNone SerBase.SerNone
| PaBool st : pair (SBool st) SerBase.SerBool
| PaInt st c : int_fine c -> pair (SInt st c) SerBase.SerInt
| PaFloat st c m : bounds_fine c -> (js = true -> m = SerBase.IConstants \/ fc_allow_inf_nan c = false) -> pair (SFloat st c) (SerBase.SerFloat m)
| PaStr c : case_kept c -> pair (SStr c) SerBase.SerStr
| PaBytes c m : (js = true -> bc_mode c = m) -> pair (SBytes c) (SerBase.SerBytes m)
| PaNullable sc s : pair sc s -> solid sc -> pair (SNullable sc) (SerBase.SerNullable s)
| PaDefault k o vd sc d s : pair sc s -> o <> OnOmit -> (vd = false -> forall v, is_default k v -> conforms (unseen E) defs false sc v) ->
    pair (SDefault k o vd sc) (SerBase.SerDefault d s)
| PaList c sc s : pair sc s -> pair (SList c (Some sc)) (SerBase.SerList Filter.any_filter s)
| PaSet c sc s : pair sc s -> flat sc = true -> pair (SSet false c sc) (SerBase.SerSet s)
| PaFrozenSet c sc s : pair sc s -> flat sc = true -> pair (SSet true c sc) (SerBase.SerFrozenSet s)
| PaTuple c items ss : Forall2 pair items ss -> (forall k, tn_variadic c = Some k -> k < length items) ->
    (tn_max c = None \/ forall sc, In sc items -> ~ defaulted defs sc) ->
    pair (STuple c items) (SerBase.SerTuple Filter.any_filter ss (tn_variadic c))
| PaDict c k v ks vs : (js = true -> key_pair k ks) -> (js = false -> pair k ks) -> flat k = true -> pair v vs ->
    pair (SDict c k v) (SerBase.SerDict Filter.any_filter ks vs)
| PaTypedDict c fields sfs mode ex comp : fo_extra c <> ExtraAllow -> mode <> SerBase.ModelExtra ->
    fields_agree pair c fields sfs -> (forall f sc, In (f, sc) fields -> fi_required f = true \/ no_default_for sc) -> (comp = [] \/ round_trip = true) ->
    pair (STypedDict c fields None) (SerBase.SerFields mode sfs ex comp)
| PaModel m c fields sfs cls ex comp : mo_root m = false -> mo_custom_init m = None -> mo_post_init m = None -> fo_extra c <> ExtraAllow ->
    fields_agree pair c fields sfs -> (comp = [] \/ round_trip = true) ->
    pair (SModel m (SModelFields c fields None None)) (SerBase.SerModel cls (SerBase.SerFields SerBase.SimpleDict sfs ex comp) false false)
| PaRootModel m sc cls s : mo_root m = true -> mo_custom_init m = None -> mo_post_init m = None -> pair sc s ->
    pair (SModel m sc) (SerBase.SerModel cls s false true)
| PaRef k r : pair (SRef k) (SerBase.SerDef k r).

(** Every definition of the schema has its serializer. *)
Definition definitions_pair (sdefs : nat -> option SerBase.ser) : Prop :=
  forall k, match defs k, sdefs k with Some d, Some s => pair d s | None, None => True | _, _ => False end.
End Pairs.

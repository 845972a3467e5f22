(** Vocabulary for "the location of an error leads to the input it shows" (C31). *)
From Coq Require Import List NArith ZArith Bool.
From Verif Require Import Base Float64 IntParse Numbers BytesCodec Values VState LookupKey Collections Child Inputs Scalars Literal Wrappers Union TaggedUnion Tuple ModelFields TypedDict Assign Arguments Classes Interp InterpSpec.
Import ListNotations.
Open Scope nat_scope.

(** Element [z] of a Python sequence; negative numbers count from the end. *)
Definition at_index {A} (l : list A) (z : Z) (x : A) : Prop :=
  exists n, nth_error l n = Some x /\ (z = Z.of_nat n \/ z = Z.of_nat n - Z.of_nat (length l))%Z.

(** [i[l]]: subscription of a Python value, indexing of a JSON value. *)
Inductive subscript : input -> loc_item -> input -> Prop :=
| sub_list v l z x : strip v = PList l \/ strip v = PTuple l -> at_index l z x -> subscript (IPy v) (LInt z) (IPy x)
| sub_bytes v b z x : strip v = PBytes b -> at_index b z x -> subscript (IPy v) (LInt z) (IPy (PInt (Z.of_N x)))
| sub_dict_str v d k x : strip v = PDict d -> dict_get (PStr k) d = Some x -> subscript (IPy v) (LStr k) (IPy x)
| sub_dict_int v d z x : strip v = PDict d -> dict_get (PInt z) d = Some x -> subscript (IPy v) (LInt z) (IPy x)
| sub_array l z x : at_index l z x -> subscript (IJson (JArr l)) (LInt z) (IJson x)
| sub_object l k x : json_last k l = Some x -> subscript (IJson (JObj l)) (LStr k) (IJson x).
Inductive subscripts : input -> list loc_item -> input -> Prop :=
| subs_nil i : subscripts i [] i
| subs_cons i l j p x : subscript i l j -> subscripts j p x -> subscripts i (l :: p) x.

Section Locate.
Variable E : env.
(** The location items that stand for a member of a union rather than for a part of the
    input. *)
Variable label : loc_item -> Prop.

(** One step into an input: subscription; an entry of a dict or JSON object by the way
    its key is shown in locations (a JSON object may repeat a key); an element of a set,
    counted in iteration order; an attribute; an argument of an ArgsKwargs object; an
    attribute (entry, for a dict) or keyword of a pair [(object, keywords)]
    (from_attributes). *)
Inductive step : input -> loc_item -> input -> Prop :=
| step_sub i l x : subscript i l x -> step i l x
| step_entry v d k x : strip v = PDict d -> In (k, x) d -> step (IPy v) (py_loc (e_repr E) k) (IPy x)
| step_json_entry l k x : In (k, x) l -> step (IJson (JObj l)) (LStr k) (IJson x)
| step_member v l n x : strip v = PSet l \/ strip v = PFrozenSet l -> nth_error l n = Some x -> step (IPy v) (LInt (Z.of_nat n)) (IPy x)
| step_arg v args kw n x : as_args_kwargs v = Some (args, kw) -> nth_error args n = Some x -> step (IPy v) (LInt (Z.of_nat n)) (IPy x)
| step_kwarg v args kw k x : as_args_kwargs v = Some (args, Some kw) -> In (k, x) kw -> step (IPy v) (py_loc (e_repr E) k) (IPy x)
| step_attr v k x : e_getattr E v k = AVal x -> step (IPy v) (LStr k) (IPy x)
| step_pair_attr o kw k x : e_getattr E o k = AVal x -> step (IPy (PTuple [o; kw])) (LStr k) (IPy x)
| step_pair_item o kw k x : is_dict o = true -> subscript (IPy o) (LStr k) (IPy x) -> step (IPy (PTuple [o; kw])) (LStr k) (IPy x)
| step_pair_kwarg o kw d k x : dict_items kw = Some d -> dict_get (PStr k) d = Some x -> step (IPy (PTuple [o; kw])) (LStr k) (IPy x).

(** A key of a dict, of the keywords of an ArgsKwargs object or of a JSON object, and how
    it is shown in locations. *)
Inductive key_of : input -> loc_item -> input -> Prop :=
| key_dict v d k x : strip v = PDict d -> In (k, x) d -> key_of (IPy v) (py_loc (e_repr E) k) (IPy k)
| key_kwarg v args kw k x : as_args_kwargs v = Some (args, Some kw) -> In (k, x) kw -> key_of (IPy v) (py_loc (e_repr E) k) (IPy k)
| key_json l k x : In (k, x) l -> key_of (IJson (JObj l)) (LStr k) (IKey k).

(** Following a location: steps, labels of unions (which stay where they are), and keys
    ([k, "[key]", ...] goes on inside the key). *)
Inductive leads : input -> list loc_item -> input -> Prop :=
| leads_here i : leads i [] i
| leads_step i l j p x : step i l j -> leads j p x -> leads i (l :: p) x
| leads_label i l p x : label l -> leads i p x -> leads i (l :: p) x
| leads_key i l k p x : key_of i l k -> leads k p x -> leads i (l :: key_marker :: p) x.

(** ** Something that is not there *)

(** Reading an object by attributes: [getattr] for names (subscription for a dict),
    subscription for numbers. *)
Inductive attr_item : pyval -> loc_item -> pyval -> Prop :=
| ai_attr v k x : is_dict v = false -> e_getattr E v k = AVal x -> attr_item v (LStr k) x
| ai_dict v k x : is_dict v = true -> subscript (IPy v) (LStr k) (IPy x) -> attr_item v (LStr k) x
| ai_index v z x : subscript (IPy v) (LInt z) (IPy x) -> attr_item v (LInt z) x.
Inductive attr_items : pyval -> list loc_item -> pyval -> Prop :=
| ais_nil v : attr_items v [] v
| ais_cons v l w p x : attr_item v l w -> attr_items w p x -> attr_items v (l :: p) x.

(** The input has a value at a path, read as data (a mapping, a sequence, arguments). *)
Inductive in_data : input -> list loc_item -> Prop :=
| data_sub i l j p x : subscript i l j -> subscripts j p x -> in_data i (l :: p)
| data_member v l n x p y : strip v = PSet l \/ strip v = PFrozenSet l -> nth_error l n = Some x -> subscripts (IPy x) p y ->
    in_data (IPy v) (LInt (Z.of_nat n) :: p)
| data_arg v args kw n x p y : as_args_kwargs v = Some (args, kw) -> nth_error args n = Some x -> subscripts (IPy x) p y ->
    in_data (IPy v) (LInt (Z.of_nat n) :: p)
| data_kwarg v args kw k x p y : as_args_kwargs v = Some (args, Some kw) -> dict_get (PStr k) kw = Some x -> subscripts (IPy x) p y ->
    in_data (IPy v) (LStr k :: p).
(** ... or read as an object. *)
Inductive in_object : input -> list loc_item -> Prop :=
| obj_attr o p x : from_attributes_applicable o = true -> is_dict o = false -> attr_items o p x -> in_object (IPy o) p
| obj_pair_attr o kw p x : is_dict o = false -> attr_items o p x -> in_object (IPy (PTuple [o; kw])) p
| obj_pair_kwarg o kw d k x p y : dict_items kw = Some d -> dict_get (PStr k) d = Some x -> subscripts (IPy x) p y ->
    in_object (IPy (PTuple [o; kw])) (LStr k :: p).

Definition data_like (i : input) : Prop :=
  match i with
  | IPy v => match strip v with PList _ | PTuple _ | PSet _ | PFrozenSet _ | PDict _ => True | _ => as_args_kwargs v <> None end
  | IJson (JArr _) | IJson (JObj _) => True
  | _ => False
  end.
(** An object, or a pair of an object and keywords, that is read by attributes. *)
Definition object_like (i : input) : Prop :=
  exists o, from_attributes_applicable o = true /\
    ((i = IPy o /\ dict_items o = None) \/ exists kw, i = IPy (PTuple [o; kw]) /\ dict_items kw <> None).
Inductive absent (i : input) (p : list loc_item) : Prop :=
| absent_data : data_like i -> ~ in_data i p -> absent i p
| absent_object : object_like i -> ~ in_object i p -> absent i p.

(** ** The property of an error *)

Definition missing_type (t : etype) : bool :=
  match t with EMissing | EMissingArgument | EMissingKeywordOnly => true | _ => false end.
(** The error shows this part of the input. *)
Definition shows (e : line_error) (i : input) : Prop := input_object (le_input e) = input_object i.
(** The object whose attributes are read. *)
Definition object_of (i : input) (o : pyval) : Prop := i = IPy o \/ exists kw, i = IPy (PTuple [o; kw]).

(** An error of the validation of [i].
    - Its location leads to the part of the input that it shows; or
    - something is missing: the location leads to the part that it shows, and then to
      something that this part does not have; or
    - a positional-only argument is missing: the same, the location ending with its
      number (if the arguments are a dict, that number may be one of its keys); or
    - reading an attribute raised: it shows the object, and its location leads to the
      object or to a name in it; or
    - it rejects a key: it shows the key and its location leads to the entry. *)
Inductive located (i : input) (e : line_error) : Prop :=
| loc_here x : leads i (loc_path (le_loc e)) x -> shows e x -> located i e
| loc_missing p j k rest : missing_type (le_type e) = true -> loc_path (le_loc e) = p ++ k :: rest -> leads i p j -> shows e j ->
    absent j (k :: rest) -> located i e
| loc_positional p j n : le_type e = EMissingPositionalOnly -> loc_path (le_loc e) = p ++ [LInt (Z.of_nat n)] -> leads i p j -> shows e j ->
    (exists v d, j = IPy v /\ dict_items v = Some d) \/ absent j [LInt (Z.of_nat n)] -> located i e
| loc_attribute p q j o r w k x : le_type e = EGetAttributeError -> loc_path (le_loc e) = p ++ q -> length q <= 1 -> leads i p j ->
    object_of j o -> shows e (IPy o) -> attr_items o r w -> e_getattr E w k = ARaise x -> located i e
| loc_key p j k key : le_type e = EInvalidKey -> loc_path (le_loc e) = p ++ [k] -> leads i p j -> key_of j k key -> shows e key -> located i e.

(** ** The schemas *)

(** Keys of a field as the code builds them from the name and the alias. *)
Definition built (name : str) (keys : key_collection) : Prop := exists alias, collection_new alias name = BOk keys.
Definition unaliased (name : str) (keys : key_collection) : Prop := collection_new None name = BOk keys.
(** A function may raise, but not a ValidationError (whose errors would be taken as they
    are). *)
Definition no_validation_error {A B} (f : A -> B + pyexc) : Prop := forall a l, f a <> inr (XValidation l).

(** The schemas in which every error can be traced.  Excluded (the refuted theorems show
    why): validated defaults, chains, before- and wrap-functions, and revalidated
    instances, whose errors are about values that are not in the input; a variadic item
    before the end of a tuple; validated extra keys; locations by field names
    (loc_by_alias=false); positional arguments that also have an alias; unpacked keyword
    arguments. *)
Definition locatable (sc : schema) : Prop :=
  match sc with
  | SDefault _ _ vd _ => vd = false
  | SChain steps => length steps <= 1
  | SBefore _ _ _ | SWrap _ _ _ => False
  | SAfter f _ _ | SPlain f _ => forall v inf l, f v inf <> inr (XValidation l)
  | STuple c items => match tn_variadic c with Some k => length items <= S k | None => True end
  | SUnion _ _ choices => forall sc l, In (sc, l) choices -> label (LStr l)
  | STagged _ _ _ choices => forall t sc v, In (t, sc) choices -> py_eq t v = true -> label (py_loc (e_repr E) v)
  | SModelFields c fields _ exk => fo_loc_by_alias c = true /\ exk = None /\ Forall (fun f => built (fi_name (fst f)) (fi_keys (fst f))) fields
  | STypedDict c fields _ => fo_loc_by_alias c = true /\ Forall (fun f => built (fi_name (fst f)) (fi_keys (fst f))) fields
  | SArguments c params _ _ =>
      po_loc_by_alias c = true /\ po_unpacked c = false /\
      Forall (fun p => match pi_mode (fst p) with PosOrKw => unaliased (pi_name (fst p)) (pi_keys (fst p)) | _ => built (pi_name (fst p)) (pi_keys (fst p)) end) params
  | SDataclassArgs c fields _ =>
      do_loc_by_alias c = true /\
      Forall (fun f => if dn_kw_only (fst f) then built (dn_name (fst f)) (dn_keys (fst f)) else unaliased (dn_name (fst f)) (dn_keys (fst f))) fields
  | SModel c _ =>
      mo_revalidate c = RNever /\ mo_origin c = None /\
      (forall f, mo_custom_init c = Some f -> no_validation_error f) /\ (forall f, mo_post_init c = Some f -> no_validation_error f)
  | SDataclass c _ =>
      da_revalidate c = RNever /\ da_origin c = None /\
      (forall f, da_post_init c = Some f -> forall v l es, f v l <> inr (XValidation es))
  | _ => True
  end.
End Locate.

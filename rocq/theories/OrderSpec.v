(** Vocabulary for saying that the order of the keys of an input does not matter. *)
From Coq Require Import List NArith ZArith Bool Permutation.
From Verif Require Import Base Float64 IntParse Numbers BytesCodec Values VState LookupKey Collections Child Inputs Scalars Literal Wrappers Union TaggedUnion Tuple ModelFields TypedDict Assign Arguments Classes Interp InterpSpec.
Import ListNotations.
Open Scope nat_scope.

(** Two values that differ only in the order of the items of dicts inside them, at any
    depth of lists, tuples and dicts; the keys of such a dict are distinct strings. *)
Inductive reordered : pyval -> pyval -> Prop :=
| RO_same v : reordered v v
| RO_list l l' : Forall2 reordered l l' -> reordered (PList l) (PList l')
| RO_tuple l l' : Forall2 reordered l l' -> reordered (PTuple l) (PTuple l')
| RO_dict d d1 d' : Forall (fun kv => exists k, fst kv = PStr k) d -> NoDup (map fst d) -> Permutation d d1 ->
    Forall2 (fun a b => fst a = fst b /\ reordered (snd a) (snd b)) d1 d' -> reordered (PDict d) (PDict d').
(** The same for JSON documents. *)
Inductive jreordered : json -> json -> Prop :=
| JO_same j : jreordered j j
| JO_arr l l' : Forall2 jreordered l l' -> jreordered (JArr l) (JArr l')
| JO_obj l l1 l' : NoDup (map fst l) -> Permutation l l1 ->
    Forall2 (fun a b => fst a = fst b /\ jreordered (snd a) (snd b)) l1 l' -> jreordered (JObj l) (JObj l').
Inductive reordered_input : input -> input -> Prop :=
| RI_same i : reordered_input i i
| RI_py v v' : reordered v v' -> reordered_input (IPy v) (IPy v')
| RI_json j j' : jreordered j j' -> reordered_input (IJson j) (IJson j')
| RI_strings v v' : reordered v v' -> reordered_input (IStrings v) (IStrings v').

(** What is compared of an error: its type (without the text of an invalid tag, which may
    show a dict) and its location. *)
Definition error_kind (e : line_error) : etype * location :=
  (match le_type e with EUnionTagInvalid _ => EUnionTagInvalid [] | t => t end, le_loc e).
(** The same value, or the same errors up to order, or the same exception. *)
Definition same_result {A} (r r' : vres A) : Prop :=
  match r, r' with
  | VOk a, VOk b => a = b
  | VErr (LineErrors l), VErr (LineErrors l') => Permutation (map error_kind l) (map error_kind l')
  | VErr e, VErr e' => e = e'
  | _, _ => False
  end.

(** ** Schemas that do not show the order *)
Definition atomic (v : pyval) : Prop := match v with PNone | PBool _ | PInt _ | PFloat _ | PStr _ | PBytes _ => True | _ => False end.
Definition ignores_order (f : pyfun) : Prop := forall v v' inf, reordered v v' -> f v inf = f v' inf.
(** Not a schema that returns its input or parts of it unvalidated, or a dict with the
    keys of the input (so: no extra="allow", no keyword arguments beyond the parameters),
    or gives it to a function that sees the order. *)
Definition order_blind (sc : schema) : Prop :=
  match sc with
  | SAny | SDict _ _ _ | SWrap _ _ _ | SList _ None => False
  | SLiteral l => Forall atomic l
  | SBefore f _ _ | SPlain f _ => ignores_order f
  | STagged (DFunction _) _ _ _ => False
  | STagged (DLookup _) _ _ choices => Forall atomic (map fst choices)
  | SModelFields c _ _ _ | STypedDict c _ _ => fo_extra c <> ExtraAllow
  | SArguments c _ _ vk => po_unpacked c = false /\ vk = None
  | SDataclassArgs c _ _ => do_extra c <> ExtraAllow
  | SModel c _ => mo_custom_init c = None
  | _ => True
  end.

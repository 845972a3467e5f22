(** What values conform to a schema, read off the schema alone. *)
From Coq Require Import List NArith ZArith Bool.
From Verif Require Import Base Float64 IntParse Numbers NumbersSpec BytesCodec Values VState LookupKey Collections Child Inputs Scalars Literal Wrappers Union TaggedUnion Tuple ModelFields TypedDict Assign Arguments Classes Interp InterpSpec.
Import ListNotations.
Open Scope nat_scope.

(** ** Small words *)
Definition within (mn mx : option nat) (n : nat) : Prop := (forall m, mn = Some m -> m <= n) /\ (forall m, mx = Some m -> n <= m).
(** No two entries have Python-equal keys. *)
Definition distinct {A} (key : A -> pyval) (l : list A) : Prop := ForallOrdPairs (fun a b => py_eq (key a) (key b) = false) l.
Definition somes {A} (l : list (option A)) : list A := flat_map (fun o => match o with Some a => [a] | None => [] end) l.

Definition str_meets (c : str_constraints) (u : str) : Prop :=
  (sc_strip c = true -> trim u = u) /\ within (sc_min c) (sc_max c) (length u) /\ (forall p, sc_pattern c = Some p -> p u = inl true).
Definition floats_valid (c : float_constraints) (f : f64) : Prop :=
  valid64 f = true /\ forall b, fc_le c = Some b \/ fc_lt c = Some b \/ fc_ge c = Some b \/ fc_gt c = Some b -> valid64 b = true.
(** The schemas of the positions of a tuple, the variadic one used [n] times. *)
Definition expanded (items : list schema) (variadic : option nat) (n : nat) : list schema :=
  match variadic with
  | None => items
  | Some k => firstn k items ++ match nth_error items k with Some sc => repeat sc n | None => [] end ++ skipn (S k) items
  end.
(** A field without an alias. *)
Definition unaliased (name : str) (k : key_collection) : Prop :=
  k = {| kc_by_name := Simple (path_from_str name); kc_by_alias := None; kc_by_alias_then_name := None |}.
Definition is_default (k : default_kind) (v : pyval) : Prop :=
  match k with DNone => False | DValue d => v = d | DFactory f _ => exists a, f a = inl v end.
Definition after_init (f : option (pyval -> pyval + pyexc)) (inst v : pyval) : Prop :=
  match f with None => v = inst | Some f => f inst = inl v end.

(** What a wrap function may return when its handler gives values in [C] (or raises). *)
Inductive wrap_returns (C : pyval -> Prop) : wprog -> pyval -> Prop :=
| WRReturn v : wrap_returns C (WReturn v) v
| WRCallOk v l k w r : C w -> wrap_returns C (k (inl w)) r -> wrap_returns C (WCall v l k) r
| WRCallErr v l k x r : wrap_returns C (k (inr x)) r -> wrap_returns C (WCall v l k) r.
Inductive wrap_omits : wprog -> Prop :=
| WORaise : wrap_omits (WRaise XOmit)
| WOCall v l k r : wrap_omits (k r) -> wrap_omits (WCall v l k).

Section Conforms.
Variable E : env.
Variable defs : nat -> option schema.

(** ** Items and fields that may be left out *)
(** on_error="omit", or a function raising PydanticOmit. *)
Definition omits_itself (sc : schema) : Prop :=
  match sc with
  | SDefault _ OnOmit _ _ => True
  | SBefore f _ _ | SAfter f _ _ | SPlain f _ => exists v inf, f v inf = inr XOmit
  | SWrap f _ _ => exists v inf, wrap_omits (f v inf)
  | SModel c _ => (exists f kw, mo_custom_init c = Some f /\ f kw = inr XOmit) \/ (exists f v, mo_post_init c = Some f /\ f v = inr XOmit)
  | SDataclass c _ => exists f v l, da_post_init c = Some f /\ f v l = inr XOmit
  | _ => False
  end.
(** The schemas inside whose omission is an omission of the whole. *)
Definition omit_through (sc : schema) : list schema :=
  match sc with
  | STuple _ _ | SNullable _ | SDefault _ _ _ _ | SChain _ | SJsonOrPython _ _ | SLaxOrStrict _ _ _ | SBefore _ _ _ | SAfter _ _ _ | SUnion _ _ _ | STagged _ _ _ _
  | SArguments _ _ _ _ | SDataclassArgs _ _ _ | SModel _ _ | SDataclass _ _ => children sc
  | SModelFields _ _ a b => opt_list a ++ opt_list b
  | STypedDict _ _ a => opt_list a
  | _ => []
  end.
Inductive omittable : schema -> Prop :=
| OmItself sc : omits_itself sc -> omittable sc
| OmThrough sc c : In c (omit_through sc) -> omittable c -> omittable sc
| OmRef k d : defs k = Some d -> omittable d -> omittable (SRef k).

(** A schema with a default value. *)
Inductive defaulted : schema -> Prop :=
| DfDefault k o vd sc : k <> DNone -> defaulted (SDefault k o vd sc)
| DfRef k d : defs k = Some d -> defaulted d -> defaulted (SRef k).

(** ** Conforming values *)
(** [strings]: the value comes out of validate_strings, where a required key of a typed
    dict may silently be missing (C21_required_strings_refuted). *)
Variable strings : bool.

Inductive conforms : schema -> pyval -> Prop :=
| CfAny v : conforms SAny v
| CfNone : conforms SNone PNone
| CfBool st b : conforms (SBool st) (PBool b)
| CfInt st c z : (forall k, c = Some k -> int_constraints_hold k z) -> conforms (SInt st c) (PInt z)
| CfFloat st c f : (floats_valid c f -> float_bounds_hold c f) -> conforms (SFloat st c) (PFloat f)
| CfStr c u : str_meets c u ->
    conforms (SStr c) (PStr (if sc_to_lower c then e_to_lower E u else if sc_to_upper c then e_to_upper E u else u))
| CfBytes c v b : strip v = PBytes b -> within (bc_min c) (bc_max c) (length b) -> conforms (SBytes c) v
| CfLiteral l v : In v l -> conforms (SLiteral l) v
| CfIsInstance cls v c : class_of v = Some c -> e_subclass E c cls = true -> conforms (SIsInstance cls) v
| CfList c item l : within (co_min c) (co_max c) (length l) -> (forall sc x, item = Some sc -> In x l -> conforms sc x) ->
    conforms (SList c item) (PList l)
| CfSet frozen c item l : within (co_min c) (co_max c) (length l) -> (forall x, In x l -> hashable x = true /\ conforms item x) -> distinct (fun x => x) l ->
    conforms (SSet frozen c item) (if frozen then PFrozenSet l else PSet l)
| CfTuple c items (slots : list (schema * option pyval)) n :
    map fst slots = expanded items (tn_variadic c) n ->
    (forall sc v, In (sc, Some v) slots -> conforms sc v) -> (forall sc, In (sc, None) slots -> omittable sc) ->
    (forall m, tn_min c = Some m -> m <= length (somes (map snd slots))) ->
    (forall m, tn_max c = Some m -> (forall sc, In sc items -> ~ defaulted sc) -> length (somes (map snd slots)) <= m) ->
    conforms (STuple c items) (PTuple (somes (map snd slots)))
| CfDict c k v d : within (co_min c) (co_max c) (length d) -> (forall a b, In (a, b) d -> hashable a = true /\ conforms k a /\ conforms v b) -> distinct fst d ->
    conforms (SDict c k v) (PDict d)
| CfNullNone sc : conforms (SNullable sc) PNone
| CfNullSome sc v : conforms sc v -> conforms (SNullable sc) v
| CfDefault k o sc v : is_default k v -> conforms (SDefault k o false sc) v
| CfDefaultInner k o vd sc v : conforms sc v -> conforms (SDefault k o vd sc) v
| CfChain steps sc v : conforms sc v -> conforms (SChain (steps ++ [sc])) v
| CfJson j p v : conforms j v -> conforms (SJsonOrPython j p) v
| CfPython j p v : conforms p v -> conforms (SJsonOrPython j p) v
| CfLax st l t v : conforms l v -> conforms (SLaxOrStrict st l t) v
| CfStrict st l t v : conforms t v -> conforms (SLaxOrStrict st l t) v
| CfCustom t sc v : conforms sc v -> conforms (SCustomError t sc) v
| CfBefore f own sc v : conforms sc v -> conforms (SBefore f own sc) v
| CfAfter f own sc w inf v : conforms sc w -> f w inf = inl v -> conforms (SAfter f own sc) v
| CfPlain f own w inf v : f w inf = inl v -> conforms (SPlain f own) v
| CfWrap f own sc w inf v : wrap_returns (conforms sc) (f w inf) v -> conforms (SWrap f own sc) v
| CfUnion mode custom choices sc label v : In (sc, label) choices -> conforms sc v -> conforms (SUnion mode custom choices) v
| CfTagged d fa custom choices tag sc v : In (tag, sc) choices -> conforms sc v -> conforms (STagged d fa custom choices) v
| CfModelFields c fields ex exk d x fs :
    distinct fst d -> (forall k v, In (k, v) d -> exists f sc, In (f, sc) fields /\ k = PStr (fi_name f) /\ conforms sc v) ->
    (forall f sc, In (f, sc) fields -> In (PStr (fi_name f)) (map fst d) \/ omittable sc) ->
    (fo_extra c <> ExtraAllow -> x = PNone) ->
    (fo_extra c = ExtraAllow -> exists e, x = PDict e /\ distinct fst e /\
       forall k v, In (k, v) e -> exists n, k = PStr n /\ (forall sc, ex = Some sc -> conforms sc v) /\
                                            (forall sc, exk = Some sc -> exists w, conforms sc w /\ as_str w = Some n)) ->
    (forall y, In y fs -> In y (map fst d) \/ exists e, x = PDict e /\ In y (map fst e)) ->
    conforms (SModelFields c fields ex exk) (PTuple [PDict d; x; PSet fs])
| CfTypedDict c fields ex d :
    distinct fst d ->
    (forall k v, In (k, v) d ->
       (exists f sc, In (f, sc) fields /\ k = PStr (fi_name f) /\ conforms sc v) \/
       (fo_extra c = ExtraAllow /\ (exists n, k = PStr n) /\ (forall sc, ex = Some sc -> conforms sc v) /\
        (strings = false -> forall f sc, In (f, sc) fields -> k = PStr (fi_name f) -> ~ unaliased (fi_name f) (fi_keys f)))) ->
    (strings = false -> forall f sc, In (f, sc) fields -> fi_required f = true -> In (PStr (fi_name f)) (map fst d) \/ omittable sc) ->
    conforms (STypedDict c fields ex) (PDict d)
| CfArguments c params va vk (binds : list ((pinfo * schema) * (bool * pyval))) rest kw :
    map fst binds = params ->
    (forall p sc b v, In ((p, sc), (b, v)) binds -> conforms sc v /\ (if b then pi_mode p <> KwOnly else pi_mode p <> PosOnly)) ->
    (forall x, In x rest -> exists sc, va = Some sc /\ conforms sc x) ->
    distinct fst kw ->
    (forall k v, In (k, v) kw ->
       (exists p sc, In ((p, sc), (false, v)) binds /\ k = PStr (pi_name p)) \/
       (po_unpacked c = false /\ (exists n, k = PStr n) /\ exists sc, vk = Some sc /\ conforms sc v) \/
       (po_unpacked c = true /\ exists sc w d k', vk = Some sc /\ conforms sc w /\ as_dict w = Some d /\ In (k', v) d /\ (k = k' \/ py_eq k k' = true))) ->
    (forall p sc v, In ((p, sc), (false, v)) binds -> In (PStr (pi_name p)) (map fst kw)) ->
    conforms (SArguments c params va vk)
      (PTuple [PTuple (flat_map (fun b : (pinfo * schema) * (bool * pyval) => if fst (snd b) then [snd (snd b)] else []) binds ++ rest); PDict kw])
| CfDataclassArgs c fields ex d x :
    distinct fst d ->
    (forall k v, In (k, v) d ->
       (exists f sc, In (f, sc) fields /\ dn_init_only f = false /\ k = PStr (dn_name f) /\ conforms sc v) \/
       (do_extra c = ExtraAllow /\ (exists n, k = PStr n) /\ (forall sc, ex = Some sc -> conforms sc v))) ->
    (forall f sc, In (f, sc) fields -> dn_init f = true -> dn_init_only f = false -> In (PStr (dn_name f)) (map fst d) \/ omittable sc) ->
    (do_collect c = false -> x = PNone) ->
    (do_collect c = true -> exists l, x = PTuple l /\ forall v, In v l -> exists f sc, In (f, sc) fields /\ dn_init_only f = true /\ conforms sc v) ->
    conforms (SDataclassArgs c fields ex) (PTuple [PDict d; x])
| CfModelInstance c sc v k : class_of v = Some k -> e_subclass E k (mo_cls c) = true -> should_revalidate (mo_revalidate c) v (mo_cls c) = false ->
    conforms (SModel c sc) v
| CfModelInit c sc f kw v : mo_custom_init c = Some f -> f kw = inl v -> conforms (SModel c sc) v
| CfModelBuilt c sc d x fs fs' v : mo_root c = false -> conforms sc (PTuple [d; x; fs]) ->
    after_init (mo_post_init c) (model_inst (mo_cls c) d x fs') v -> conforms (SModel c sc) v
| CfModelRoot c sc out fs v : mo_root c = true -> conforms sc out ->
    after_init (mo_post_init c) (root_inst (mo_cls c) out fs) v -> conforms (SModel c sc) v
| CfDataclassInstance c sc v k : class_of v = Some k -> e_subclass E k (da_cls c) = true -> should_revalidate (da_revalidate c) v (da_cls c) = false ->
    conforms (SDataclass c sc) v
| CfDataclassBuilt c sc dv x d v : conforms sc (PTuple [dv; x]) -> as_dict dv = Some d ->
    (match da_post_init c with
     | None => v = PObj (da_cls c) (attrs_of d)
     | Some f => exists l : list pyval, (x = PNone /\ l = [] \/ x = PTuple l) /\ f (PObj (da_cls c) (attrs_of d)) l = inl v
     end) -> conforms (SDataclass c sc) v
| CfRef k d v : defs k = Some d -> conforms d v -> conforms (SRef k) v.
End Conforms.

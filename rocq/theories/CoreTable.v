(** What each schema and config mean, key by key: a table. *)
From Coq Require Import List NArith ZArith Bool.
From Verif Require Import Base Float64 IntParse Numbers BytesCodec Values VState LookupKey Collections Child Inputs Scalars Literal Wrappers Union TaggedUnion Tuple ModelFields TypedDict Assign Arguments Classes Interp Core CoreSpec.
Import ListNotations.
Open Scope nat_scope.

(** The value of a setting: the schema's, else the config's, else the default; and of a
    key that only schemas have. *)
Definition chosen {A} (own : option A) (g : option config) (f : config -> option A) (default : A) : A :=
  match said own (in_config g f) with Some a => a | None => default end.
Definition or_default {A} (own : option A) (default : A) : A := match own with Some a => a | None => default end.
Definition of_extra (w : option str) (default e : extra_behavior) : Prop :=
  (w = Some (lit "allow") /\ e = ExtraAllow) \/ (w = Some (lit "ignore") /\ e = ExtraIgnore) \/ (w = Some (lit "forbid") /\ e = ExtraForbid) \/ (w = None /\ e = default).
Definition of_revalidate (w : option str) (r : revalidate) : Prop :=
  (w = Some (lit "always") /\ r = RAlways) \/ ((w = Some (lit "never") \/ w = None) /\ r = RNever) \/ (w = Some (lit "subclass-instances") /\ r = RSubclassInstances).
Definition of_bytes (w : option str) (m : bytes_mode) : Prop :=
  ((w = Some (lit "utf8") \/ w = None) /\ m = MUtf8) \/ (w = Some (lit "base64") /\ m = MBase64) \/ (w = Some (lit "hex") /\ m = MHex).
Definition of_mode (w : option str) (m : union_mode) : Prop :=
  ((w = Some (lit "smart") \/ w = None) /\ m = UnionSmart) \/ (w = Some (lit "left_to_right") /\ m = UnionLeftToRight).
Definition of_default (k : default_keys) (d : default_kind) : Prop :=
  match hk_default k, hk_factory k with
  | Some v, None => d = DValue v
  | None, Some f => d = DFactory f (or_default (hk_takes_data k) false)
  | None, None => d = DNone
  | Some _, Some _ => False
  end.
Definition coll_is (g : option config) (k : coll_keys) (c : coll) : Prop :=
  co_strict c = chosen (lk_strict k) g g_strict false /\ co_min c = lk_min k /\ co_max c = lk_max k /\ co_fail_fast c = or_default (lk_fail_fast k) false.
Definition no_bounds : int_constraints := {| ic_multiple_of := None; ic_le := None; ic_lt := None; ic_ge := None; ic_gt := None |}.
Inductive opt_all2 {A C} (R : A -> C -> Prop) : option A -> option C -> Prop :=
| BothNot : opt_all2 R None None
| Both a c : R a c -> opt_all2 R (Some a) (Some c).
(** Items that are not said are anything. *)
Inductive opt_or_any (R : core -> schema -> Prop) : option core -> schema -> Prop :=
| Unsaid : opt_or_any R None SAny
| Said a s : R a s -> opt_or_any R (Some a) s.
Definition names_fields (loc_by_alias by_alias by_name : _) (g : option config) (lba : bool) (ba bn : option bool) : Prop :=
  lba = chosen None g loc_by_alias true /\ ba = in_config g by_alias /\ bn = in_config g by_name.

Section Table.
Variable name_of : schema -> str.
Variable compile : bool -> str -> option (str -> bool + pyexc).
Definition pattern_is (g : option config) (k : str_keys) (p : option (str -> bool + pyexc)) : Prop :=
  match sk_pattern k with
  | None => p = None
  | Some (PatCompiled m) => p = Some m
  | Some (PatText t) =>
      exists m, p = Some m /\
        ((chosen (sk_regex k) g g_regex (lit "rust-regex") = lit "rust-regex" /\ compile false t = Some m) \/
         (chosen (sk_regex k) g g_regex (lit "rust-regex") = lit "python-re" /\ compile true t = Some m))
  end.

(** [Reads g c s]: where [g] governs, [c] is the validator [s]. *)
Inductive reads : option config -> core -> schema -> Prop :=
| RdAny g : reads g KAny SAny
| RdNone g : reads g KNone SNone
| RdBool g st : reads g (KBool st) (SBool (chosen st g g_strict false))
| RdIntAny g st : reads g (KInt st no_bounds) (SInt (chosen st g g_strict false) None)
| RdInt g st c : c <> no_bounds -> reads g (KInt st c) (SInt (chosen st g g_strict false) (Some c))
| RdFloat g k c : fc_allow_inf_nan c = chosen (fk_inf_nan k) g g_inf_nan true -> fc_multiple_of c = fk_multiple_of k -> fc_le c = fk_le k -> fc_lt c = fk_lt k -> fc_ge c = fk_ge k -> fc_gt c = fk_gt k ->
    reads g (KFloat k) (SFloat (chosen (fk_strict k) g g_strict false) c)
| RdStr g k c : sc_strict c = chosen (sk_strict k) g g_strict false -> sc_coerce_numbers c = chosen (sk_coerce k) g g_coerce false -> sc_strip c = chosen (sk_strip k) g g_str_strip false ->
    sc_min c = said (sk_min k) (in_config g g_str_min) -> sc_max c = said (sk_max k) (in_config g g_str_max) -> pattern_is g k (sc_pattern c) ->
    sc_to_lower c = chosen (sk_lower k) g g_str_lower false -> sc_to_upper c = chosen (sk_upper k) g g_str_upper false -> reads g (KStr k) (SStr c)
| RdBytes g st mn mx c : bc_strict c = chosen st g g_strict false -> of_bytes (in_config g g_bytes) (bc_mode c) -> bc_min c = mn -> bc_max c = mx -> reads g (KBytes st mn mx) (SBytes c)
| RdLiteral g l : reads g (KLiteral l) (SLiteral l)
| RdIsInstance g cls : reads g (KIsInstance cls) (SIsInstance cls)
| RdListUnsaid g k c : coll_is g k c -> reads g (KList k None) (SList c None)
| RdListAny g k x c : coll_is g k c -> reads g x SAny -> reads g (KList k (Some x)) (SList c None)
| RdList g k x c s : coll_is g k c -> reads g x s -> s <> SAny -> reads g (KList k (Some x)) (SList c (Some s))
| RdSet g f k o c s : coll_is g k c -> opt_or_any (reads g) o s -> reads g (KSet f k o) (SSet f c s)
| RdTuple g k v l c r : tn_strict c = chosen (lk_strict k) g g_strict false -> tn_variadic c = v -> tn_min c = lk_min k -> tn_max c = lk_max k -> tn_fail_fast c = or_default (lk_fail_fast k) false ->
    Forall2 (reads g) l r -> reads g (KTuple k v l) (STuple c r)
| RdDict g k a b c s t : coll_is g k c -> opt_or_any (reads g) a s -> opt_or_any (reads g) b t -> reads g (KDict k a b) (SDict c s t)
| RdNullable g c s : reads g c s -> reads g (KNullable c) (SNullable s)
| RdDefault g k c d s : of_default k d -> reads g c s -> reads g (KDefault k c) (SDefault d (or_default (hk_on_error k) OnRaise) (chosen (hk_validate k) g g_validate_default false) s)
| RdStep g c s : reads g c s -> reads g (KChain [c]) s
| RdChain g l r rs : Forall2 (reads g) l r -> Forall2 (fun s steps => s = SChain steps \/ ((forall t, s <> SChain t) /\ steps = [s])) r rs -> 2 <= length (concat rs) -> reads g (KChain l) (SChain (concat rs))
| RdJsonOrPython g a b s t : reads g a s -> reads g b t -> reads g (KJsonOrPython a b) (SJsonOrPython s t)
| RdLaxOrStrict g st a b s t : reads g a s -> reads g b t -> reads g (KLaxOrStrict st a b) (SLaxOrStrict (chosen st g g_strict false) s t)
| RdCustomError g e c s : reads g c s -> reads g (KCustomError (Some e) c) (SCustomError e s)
| RdBefore g f own c s : reads g c s -> reads g (KBefore f own c) (SBefore (f g) own s)
| RdAfter g f own c s : reads g c s -> reads g (KAfter f own c) (SAfter (f g) own s)
| RdPlain g f own : reads g (KPlain f own) (SPlain (f g) own)
| RdWrap g f own c s : reads g c s -> reads g (KWrap f own c) (SWrap (f g) own s)
| RdOnly g m col cu c o s : or_default col true = true -> reads g c s -> reads g (KUnion m col cu [(c, o)]) s
| RdUnion g m col cu l u r : (forall p, l = [p] -> col = Some false) -> of_mode m u -> Forall2 (fun p x => reads g (fst p) (fst x) /\ snd x = or_default (snd p) (name_of (fst x))) l r -> reads g (KUnion m col cu l) (SUnion u cu r)
| RdTagged g d fa cu l r : Forall2 (fun p x => fst x = fst p /\ reads g (snd p) (snd x)) l r -> reads g (KTagged d fa cu l) (STagged d (chosen fa g g_from_attributes true) cu r)
| RdModelFields g k fs a b c r s t : of_extra (extra_word (rk_extra k) g) ExtraIgnore (fo_extra c) -> fo_strict c = chosen (rk_strict k) g g_strict false ->
    fo_from_attributes c = chosen (rk_from_attributes k) g g_from_attributes false -> names_fields g_loc_by_alias g_by_alias g_by_name g (fo_loc_by_alias c) (fo_by_alias c) (fo_by_name c) ->
    Forall2 (fun p x => fi_name (fst x) = ek_name (fst p) /\ collection_new (ek_alias (fst p)) (ek_name (fst p)) = BOk (fi_keys (fst x)) /\ fi_frozen (fst x) = or_default (ek_frozen (fst p)) false /\
      fi_required (fst x) = true /\ reads g (snd p) (snd x)) fs r -> opt_all2 (reads g) a s -> opt_all2 (reads g) b t -> reads g (KModelFields k fs a b) (SModelFields c r s t)
| RdTypedDict g own k fs a c r s : of_extra (extra_word (rk_extra k) own) ExtraIgnore (fo_extra c) -> fo_strict c = chosen (rk_strict k) own g_strict false ->
    fo_from_attributes c = false -> names_fields g_loc_by_alias g_by_alias g_by_name own (fo_loc_by_alias c) (fo_by_alias c) (fo_by_name c) ->
    Forall2 (fun p x => fi_name (fst x) = ek_name (fst p) /\ collection_new (ek_alias (fst p)) (ek_name (fst p)) = BOk (fi_keys (fst x)) /\ fi_frozen (fst x) = false /\
      fi_required (fst x) = or_default (ek_required (fst p)) (chosen (rk_total k) own g_total true) /\ reads own (snd p) (snd x)) fs r -> opt_all2 (reads own) a s -> reads g (KTypedDict own k fs a) (STypedDict c r s)
| RdArguments g k ps a b c r s t : (po_unpacked c = true <-> ak_mode k = Some (lit "unpacked-typed-dict")) -> of_extra (extra_word (ak_extra k) g) ExtraForbid (po_extra c) ->
    po_loc_by_alias c = chosen None g g_loc_by_alias true -> po_by_alias c = said (ak_by_alias k) (in_config g g_by_alias) -> po_by_name c = said (ak_by_name k) (in_config g g_by_name) ->
    Forall2 (fun p x => pi_name (fst x) = qk_name (fst p) /\ pi_mode (fst x) = or_default (qk_mode (fst p)) PosOrKw /\ collection_new (qk_alias (fst p)) (qk_name (fst p)) = BOk (pi_keys (fst x)) /\
      reads g (snd p) (snd x)) ps r -> opt_all2 (reads g) a s -> opt_all2 (reads g) b t -> reads g (KArguments k ps a b) (SArguments c r s t)
| RdDataclassArgs g k fs a c r s : do_collect c = or_default (cak_collect k) false -> of_extra (extra_word (cak_extra k) g) ExtraIgnore (do_extra c) ->
    names_fields g_loc_by_alias g_by_alias g_by_name g (do_loc_by_alias c) (do_by_alias c) (do_by_name c) ->
    Forall2 (fun p x => dn_name (fst x) = ck_name (fst p) /\ collection_new (ck_alias (fst p)) (ck_name (fst p)) = BOk (dn_keys (fst x)) /\ dn_kw_only (fst x) = or_default (ck_kw_only (fst p)) true /\
      dn_init (fst x) = or_default (ck_init (fst p)) true /\ dn_init_only (fst x) = or_default (ck_init_only (fst p)) false /\ reads g (snd p) (snd x)) fs r -> opt_all2 (reads g) a s ->
    reads g (KDataclassArgs k fs a) (SDataclassArgs c r s)
| RdModel g own k c m s : reads own c s -> mo_cls m = mk_cls k -> mo_origin m = mk_origin k -> of_revalidate (said (mk_revalidate k) (in_config own g_revalidate)) (mo_revalidate m) ->
    mo_root m = or_default (mk_root k) false -> mo_custom_init m = mk_custom_init k -> mo_post_init m = mk_post_init k -> reads g (KModel own k c) (SModel m s)
| RdDataclass g own k c m s : reads own c s -> da_cls m = dk_cls k -> da_origin m = dk_origin k -> of_revalidate (said (dk_revalidate k) (in_config own g_revalidate)) (da_revalidate m) ->
    da_strict m = chosen (dk_strict k) own g_strict false -> da_names m = dk_names k -> da_slots m = or_default (dk_slots k) false -> da_post_init m = dk_post_init k -> reads g (KDataclass own k c) (SDataclass m s)
| RdDefinitions g l c s : reads g c s -> reads g (KDefinitions l c) s
| RdRef g k : reads g (KRef k) (SRef k).
End Table.

(** Vocabulary for comparing a schema with a looser one. *)
From Coq Require Import List NArith ZArith Bool.
From Verif Require Import Base Float64 IntParse Numbers BytesCodec Values VState LookupKey Collections Child Inputs Scalars Literal Wrappers Union TaggedUnion Tuple ModelFields TypedDict Assign Arguments Classes Interp InterpSpec StrictSpec.
Import ListNotations.
Open Scope nat_scope.

(** ** User code that raises ordinary exceptions only: not PydanticOmit, not
    PydanticUseDefault, not a ValidationError without line errors.  A wrap function may pass
    on what its handler raised. *)
Definition raises_ordinary {A B} (f : A -> B + pyexc) : Prop := forall a e, f a = inr e -> ordinary e.
Inductive wrap_ordinary : wprog -> Prop :=
| WOReturn v : wrap_ordinary (WReturn v)
| WORaise e : ordinary e -> wrap_ordinary (WRaise e)
| WOCall v l k : (forall r, (forall e, r = inr e -> ordinary e) -> wrap_ordinary (k r)) -> wrap_ordinary (WCall v l k).
(** The functions in the schema do that, a union has a member, and on_error="omit" is not used. *)
Definition orderly (sc : schema) : Prop :=
  match sc with
  | SBefore f _ _ | SAfter f _ _ | SPlain f _ => forall v inf e, f v inf = inr e -> ordinary e
  | SWrap f _ _ => forall v inf, wrap_ordinary (f v inf)
  | SDefault k o _ _ => match k with DFactory f _ => raises_ordinary f | _ => True end /\ o <> OnOmit
  | SStr c => forall f, sc_pattern c = Some f -> raises_ordinary f
  | STagged (DFunction f) _ _ _ => raises_ordinary f
  | SModel c _ => (forall f, mo_custom_init c = Some f -> raises_ordinary f) /\ (forall f, mo_post_init c = Some f -> raises_ordinary f)
  | SDataclass c _ => forall f, da_post_init c = Some f -> forall v l e, f v l = inr e -> ordinary e
  | SUnion _ _ l => l <> []
  | _ => True
  end.

(** ** A looser schema *)
(** A bound is dropped or moved outwards. *)
Definition upper {A} (le : A -> A -> Prop) (a b : option A) : Prop := match b with None => True | Some n => exists m, a = Some m /\ le m n end.
Definition lower {A} (le : A -> A -> Prop) (a b : option A) : Prop := match b with None => True | Some n => exists m, a = Some m /\ le n m end.
Definition kept_or_dropped {A} (a b : option A) : Prop := b = a \/ b = None.
(** Strict is switched off, or stays. *)
Definition laxer (a b : bool) : Prop := b = true -> a = true.
Definition int_z (n : int) : Z := match n with I64 z | Big z => z end.
Definition int_le (a b : int) : Prop := (int_z a <= int_z b)%Z.
Definition int_looser (c c' : int_constraints) : Prop :=
  kept_or_dropped (ic_multiple_of c) (ic_multiple_of c') /\ upper int_le (ic_le c) (ic_le c') /\ upper int_le (ic_lt c) (ic_lt c') /\
  lower int_le (ic_ge c) (ic_ge c') /\ lower int_le (ic_gt c) (ic_gt c').
Definition float_looser (c c' : float_constraints) : Prop :=
  laxer (fc_allow_inf_nan c') (fc_allow_inf_nan c) /\ kept_or_dropped (fc_multiple_of c) (fc_multiple_of c') /\ kept_or_dropped (fc_le c) (fc_le c') /\
  kept_or_dropped (fc_lt c) (fc_lt c') /\ kept_or_dropped (fc_ge c) (fc_ge c') /\ kept_or_dropped (fc_gt c) (fc_gt c').
Definition str_looser (c c' : str_constraints) : Prop :=
  laxer (sc_strict c) (sc_strict c') /\ laxer (sc_coerce_numbers c') (sc_coerce_numbers c) /\ sc_strip c' = sc_strip c /\
  lower le (sc_min c) (sc_min c') /\ upper le (sc_max c) (sc_max c') /\ kept_or_dropped (sc_pattern c) (sc_pattern c') /\
  sc_to_lower c' = sc_to_lower c /\ sc_to_upper c' = sc_to_upper c.
Definition bytes_looser (c c' : bytes_constraints) : Prop :=
  laxer (bc_strict c) (bc_strict c') /\ bc_mode c' = bc_mode c /\ lower le (bc_min c) (bc_min c') /\ upper le (bc_max c) (bc_max c').
(** fail_fast may be anything. *)
Definition coll_looser (c c' : coll) : Prop := laxer (co_strict c) (co_strict c') /\ lower le (co_min c) (co_min c') /\ upper le (co_max c) (co_max c').
Definition tuple_looser (c c' : tinfo) : Prop :=
  laxer (tn_strict c) (tn_strict c') /\ tn_variadic c' = tn_variadic c /\ lower le (tn_min c) (tn_min c') /\ upper le (tn_max c) (tn_max c').
(** extra="forbid" becomes extra="ignore"; [allow]: also extra="allow". *)
Definition extra_looser (allow : bool) (e e' : extra_behavior) : Prop :=
  e' = e \/ e = ExtraForbid /\ (e' = ExtraIgnore \/ allow = true).
(** The name of the key in an error location does not matter. *)
Definition fields_looser (allow : bool) (c c' : finfos) : Prop :=
  extra_looser allow (fo_extra c) (fo_extra c') /\ laxer (fo_strict c) (fo_strict c') /\ fo_from_attributes c' = fo_from_attributes c /\
  fo_by_alias c' = fo_by_alias c /\ fo_by_name c' = fo_by_name c.
Definition args_looser (c c' : pinfos) : Prop :=
  extra_looser true (po_extra c) (po_extra c') /\ po_unpacked c' = po_unpacked c /\ po_by_alias c' = po_by_alias c /\ po_by_name c' = po_by_name c.
Definition dargs_looser (c c' : dinfos) : Prop :=
  extra_looser true (do_extra c) (do_extra c') /\ do_collect c' = do_collect c /\ do_by_alias c' = do_by_alias c /\ do_by_name c' = do_by_name c.
Definition dataclass_looser (c c' : dataclass_cfg) : Prop :=
  da_cls c' = da_cls c /\ da_origin c' = da_origin c /\ da_revalidate c' = da_revalidate c /\ laxer (da_strict c) (da_strict c') /\
  da_names c' = da_names c /\ da_slots c' = da_slots c /\ da_post_init c' = da_post_init c.

(** Kinds of schemas that refuse None and PydanticUndefined and have no default. *)
Definition refuses_none (sc : schema) : Prop :=
  match sc with
  | SBool _ | SInt _ _ | SFloat _ _ | SStr _ | SBytes _ | SList _ _ | SSet _ _ _ | STuple _ _ | SDict _ _ _ | STypedDict _ _ _ => True
  | _ => False
  end.

(** Nothing inside refers to a definition outside [U]. *)
Definition refs_in (U : nat -> Prop) : schema -> Prop := everywhere (fun sc => match sc with SRef k => U k | _ => True end).

Inductive opt_rel {A} (R : A -> A -> Prop) : option A -> option A -> Prop :=
| ONone : opt_rel R None None
| OSome a b : R a b -> opt_rel R (Some a) (Some b).

(** [looser U needed sc sc']: [sc'] is a looser version of [sc].  [U] are the definitions that
    stay as they are (with all they refer to).  [needed] says that the schema stands where a
    missing value is an error. *)
Inductive looser (U : nat -> Prop) : bool -> schema -> schema -> Prop :=
| L_same n sc : refs_in U sc -> looser U n sc sc
| L_bool n st st' : laxer st st' -> looser U n (SBool st) (SBool st')
| L_int n st st' c c' : laxer st st' -> opt_rel int_looser c c' \/ c' = None -> looser U n (SInt st c) (SInt st' c')
| L_float n st st' c c' : laxer st st' -> float_looser c c' -> looser U n (SFloat st c) (SFloat st' c')
| L_str n c c' : str_looser c c' -> looser U n (SStr c) (SStr c')
| L_bytes n c c' : bytes_looser c c' -> looser U n (SBytes c) (SBytes c')
| L_list n c c' o o' : coll_looser c c' -> opt_rel (looser U true) o o' -> looser U n (SList c o) (SList c' o')
| L_set n z c c' x x' : coll_looser c c' -> looser U true x x' -> looser U n (SSet z c x) (SSet z c' x')
| L_tuple n c c' l l' : tuple_looser c c' -> Forall2 (looser U true) l l' -> looser U n (STuple c l) (STuple c' l')
| L_dict n c c' k k' v v' : coll_looser c c' -> looser U true k k' -> looser U true v v' -> looser U n (SDict c k v) (SDict c' k' v')
| L_nullable n x x' : looser U true x x' -> looser U n (SNullable x) (SNullable x')
| L_add_nullable n sc sc' : refuses_none sc -> looser U n sc sc' -> looser U n sc (SNullable sc')
| L_default n k o' vd x x' : looser U true x x' -> looser U n (SDefault k OnRaise vd x) (SDefault k o' vd x')
| L_add_default sc k o' vd sc' : refuses_none sc -> looser U true sc sc' -> looser U true sc (SDefault k o' vd sc')
| L_chain n l l' : Forall2 (looser U true) l l' -> looser U n (SChain l) (SChain l')
| L_json n j j' p p' : looser U true j j' -> looser U true p p' -> looser U n (SJsonOrPython j p) (SJsonOrPython j' p')
| L_lax n st l l' t : looser U true l l' -> refs_in U t -> looser U n (SLaxOrStrict st l t) (SLaxOrStrict st l' t)
| L_custom n t t' x x' : looser U true x x' -> looser U n (SCustomError t x) (SCustomError t' x')
| L_before n f own x x' : looser U true x x' -> looser U n (SBefore f own x) (SBefore f own x')
| L_after n f own x x' : looser U true x x' -> looser U n (SAfter f own x) (SAfter f own x')
| L_union n t t' cs c c' l l' more : Forall (fun m => refs_in U (fst m)) cs -> looser U true c c' ->
    looser U n (SUnion UnionLeftToRight t (cs ++ [(c, l)])) (SUnion UnionLeftToRight t' (cs ++ (c', l') :: more))
| L_tagged n d fa t t' cs cs' : Forall2 (fun a b => fst b = fst a /\ looser U true (snd a) (snd b)) cs cs' -> looser U n (STagged d fa t cs) (STagged d fa t' cs')
| L_model_fields n c c' fs fs' ex ex' kx kx' : fields_looser false c c' ->
    Forall2 (fun a b => fi_name (fst b) = fi_name (fst a) /\ fi_keys (fst b) = fi_keys (fst a) /\ looser U true (snd a) (snd b)) fs fs' ->
    opt_rel (looser U true) ex ex' -> opt_rel (looser U true) kx kx' -> looser U n (SModelFields c fs ex kx) (SModelFields c' fs' ex' kx')
| L_typed_dict n c c' fs fs' ex ex' : fields_looser true c c' ->
    Forall2 (fun a b => fi_name (fst b) = fi_name (fst a) /\ fi_keys (fst b) = fi_keys (fst a) /\ laxer (fi_required (fst a)) (fi_required (fst b)) /\
                        looser U (fi_required (fst a)) (snd a) (snd b)) fs fs' ->
    opt_rel (looser U true) ex ex' \/ fo_extra c = ExtraForbid -> looser U n (STypedDict c fs ex) (STypedDict c' fs' ex')
| L_arguments n c c' ps ps' va va' vk vk' : args_looser c c' ->
    Forall2 (fun a b => fst b = fst a /\ looser U true (snd a) (snd b)) ps ps' ->
    opt_rel (looser U true) va va' \/ va = None ->
    opt_rel (looser U true) vk vk' \/ (vk = None /\ po_unpacked c = false /\ po_extra c = ExtraForbid) ->
    looser U n (SArguments c ps va vk) (SArguments c' ps' va' vk')
| L_dataclass_args n c c' fs fs' ex ex' : dargs_looser c c' ->
    Forall2 (fun a b => fst b = fst a /\ looser U (dn_init (fst a)) (snd a) (snd b)) fs fs' ->
    opt_rel (looser U true) ex ex' \/ do_extra c = ExtraForbid -> looser U n (SDataclassArgs c fs ex) (SDataclassArgs c' fs' ex')
| L_model n c x x' : looser U true x x' -> looser U n (SModel c x) (SModel c x')
| L_dataclass n c c' x x' : dataclass_looser c c' -> looser U true x x' -> looser U n (SDataclass c x) (SDataclass c' x')
| L_ref n k : looser U n (SRef k) (SRef k).

(** The definitions in [U] are the same; every other definition is loosened. *)
Definition looser_defs (U : nat -> Prop) (defs defs' : nat -> option schema) : Prop :=
  (forall k, U k -> defs' k = defs k /\ forall d, defs k = Some d -> refs_in U d) /\
  (forall k d, defs k = Some d -> exists d', defs' k = Some d' /\ looser U false d d').

(** Any number of such steps; the functions of every schema but the last raise ordinary
    exceptions only. *)
Inductive loosened : (nat -> option schema) -> schema -> (nat -> option schema) -> schema -> Prop :=
| LD_refl defs sc : loosened defs sc defs sc
| LD_step U n defs sc defs1 sc1 defs' sc' : holds_of orderly defs sc -> looser_defs U defs defs1 -> looser U n sc sc1 ->
    loosened defs1 sc1 defs' sc' -> loosened defs sc defs' sc'.

(** Vocabulary for the options of a call. *)
From Coq Require Import List NArith ZArith Bool.
From Verif Require Import Base Float64 IntParse Numbers BytesCodec Values VState LookupKey Collections Child Inputs Scalars Literal Wrappers Union TaggedUnion Tuple ModelFields TypedDict Assign Arguments Classes Interp.
Import ListNotations.
Open Scope nat_scope.

(** What an option of the call makes of a setting: the option counts, if it is given. *)
Definition ruled {A} (option_ : option A) (setting : A) : A := match option_ with Some a => a | None => setting end.
Definition ruled_opt {A} (option_ setting : option A) : option A := match option_ with Some a => Some a | None => setting end.

(** No options but that for partial input. *)
Definition unruled (o : call_opts) : call_opts :=
  {| op_strict := None; op_from_attributes := None; op_by_alias := None; op_by_name := None; op_partial := op_partial o |}.

Section Over.
Variable o : call_opts.
Notation st := (ruled (op_strict o)).
Definition over_coll (c : coll) : coll := {| co_strict := st (co_strict c); co_min := co_min c; co_max := co_max c; co_fail_fast := co_fail_fast c |}.
Definition over_str (c : str_constraints) : str_constraints :=
  {| sc_strict := st (sc_strict c); sc_coerce_numbers := sc_coerce_numbers c; sc_strip := sc_strip c; sc_min := sc_min c; sc_max := sc_max c;
     sc_pattern := sc_pattern c; sc_to_lower := sc_to_lower c; sc_to_upper := sc_to_upper c |}.
Definition over_bytes (c : bytes_constraints) : bytes_constraints := {| bc_strict := st (bc_strict c); bc_mode := bc_mode c; bc_min := bc_min c; bc_max := bc_max c |}.
Definition over_tuple (c : tinfo) : tinfo := {| tn_strict := st (tn_strict c); tn_variadic := tn_variadic c; tn_min := tn_min c; tn_max := tn_max c; tn_fail_fast := tn_fail_fast c |}.
Definition over_fields (c : finfos) : finfos :=
  {| fo_extra := fo_extra c; fo_strict := st (fo_strict c); fo_from_attributes := ruled (op_from_attributes o) (fo_from_attributes c); fo_loc_by_alias := fo_loc_by_alias c;
     fo_by_alias := ruled_opt (op_by_alias o) (fo_by_alias c); fo_by_name := ruled_opt (op_by_name o) (fo_by_name c) |}.
Definition over_typed (c : finfos) : finfos :=
  {| fo_extra := fo_extra c; fo_strict := st (fo_strict c); fo_from_attributes := fo_from_attributes c; fo_loc_by_alias := fo_loc_by_alias c;
     fo_by_alias := ruled_opt (op_by_alias o) (fo_by_alias c); fo_by_name := ruled_opt (op_by_name o) (fo_by_name c) |}.
Definition over_params (c : pinfos) : pinfos :=
  {| po_unpacked := po_unpacked c; po_extra := po_extra c; po_loc_by_alias := po_loc_by_alias c;
     po_by_alias := ruled_opt (op_by_alias o) (po_by_alias c); po_by_name := ruled_opt (op_by_name o) (po_by_name c) |}.
Definition over_dc (c : dinfos) : dinfos :=
  {| do_collect := do_collect c; do_extra := do_extra c; do_loc_by_alias := do_loc_by_alias c;
     do_by_alias := ruled_opt (op_by_alias o) (do_by_alias c); do_by_name := ruled_opt (op_by_name o) (do_by_name c) |}.
Definition over_dataclass (c : dataclass_cfg) : dataclass_cfg :=
  {| da_cls := da_cls c; da_origin := da_origin c; da_revalidate := da_revalidate c; da_strict := st (da_strict c); da_names := da_names c; da_slots := da_slots c; da_post_init := da_post_init c |}.

(** The schema where every part says itself what the options of the call say. *)
Fixpoint over (s : schema) : schema :=
  match s with
  | SAny | SNone | SLiteral _ | SIsInstance _ | SPlain _ _ | SRef _ => s
  | SBool b => SBool (st b)
  | SInt b c => SInt (st b) c
  | SFloat b c => SFloat (st b) c
  | SStr c => SStr (over_str c)
  | SBytes c => SBytes (over_bytes c)
  | SList c item => SList (over_coll c) (option_map over item)
  | SSet f c item => SSet f (over_coll c) (over item)
  | STuple c items => STuple (over_tuple c) (map over items)
  | SDict c k v => SDict (over_coll c) (over k) (over v)
  | SNullable s => SNullable (over s)
  | SDefault k e vd s => SDefault k e vd (over s)
  | SChain l => SChain (map over l)
  | SJsonOrPython a b => SJsonOrPython (over a) (over b)
  | SLaxOrStrict b l t => SLaxOrStrict (st b) (over l) (over t)
  | SCustomError t s => SCustomError t (over s)
  | SBefore f own s => SBefore f own (over s)
  | SAfter f own s => SAfter f own (over s)
  | SWrap f own s => SWrap f own (over s)
  | SUnion m c l => SUnion m c (map (fun p => (over (fst p), snd p)) l)
  | STagged d fa c l => STagged d (ruled (op_from_attributes o) fa) c (map (fun p => (fst p, over (snd p))) l)
  | SModelFields c fs a b => SModelFields (over_fields c) (map (fun p => (fst p, over (snd p))) fs) (option_map over a) (option_map over b)
  | STypedDict c fs a => STypedDict (over_typed c) (map (fun p => (fst p, over (snd p))) fs) (option_map over a)
  | SArguments c ps a b => SArguments (over_params c) (map (fun p => (fst p, over (snd p))) ps) (option_map over a) (option_map over b)
  | SDataclassArgs c fs a => SDataclassArgs (over_dc c) (map (fun p => (fst p, over (snd p))) fs) (option_map over a)
  | SModel c s => SModel c (over s)
  | SDataclass c s => SDataclass (over_dataclass c) (over s)
  end.

(** The two kinds of schemas where an option does what no schema can say: a tagged union
    reads the tag strictly, and below a wrap function the aliases go back to the schemas. *)
Definition sayable (s : schema) : Prop :=
  match s with
  | STagged (DLookup _) _ _ _ => op_strict o <> Some true
  | SWrap _ _ _ => op_by_alias o = None /\ op_by_name o = None
  | _ => True
  end.
End Over.

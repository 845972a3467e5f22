(** Vocabulary for options of a call and configs. *)
From Coq Require Import List NArith ZArith Bool.
From Verif Require Import Base Float64 IntParse Numbers BytesCodec Values VState LookupKey Collections Child Inputs Scalars Literal Wrappers Union TaggedUnion Tuple ModelFields TypedDict Assign Arguments Classes Interp InterpSpec SerOf Core CoreSpec OptsSpec.
Import ListNotations.
Open Scope nat_scope.

Section Configured.
Variable o : call_opts.
(** The config with the options put in; a new one, if there was none. *)
Definition with_options (g : option config) : config :=
  let g := match g with Some g => g | None => no_config end in
  {| g_strict := ruled_opt (op_strict o) (g_strict g); g_extra := g_extra g; g_from_attributes := ruled_opt (op_from_attributes o) (g_from_attributes g); g_total := g_total g;
     g_str_min := g_str_min g; g_str_max := g_str_max g; g_str_strip := g_str_strip g; g_str_lower := g_str_lower g; g_str_upper := g_str_upper g;
     g_coerce := g_coerce g; g_regex := g_regex g; g_inf_nan := g_inf_nan g; g_validate_default := g_validate_default g; g_revalidate := g_revalidate g;
     g_loc_by_alias := g_loc_by_alias g; g_by_alias := ruled_opt (op_by_alias o) (g_by_alias g); g_by_name := ruled_opt (op_by_name o) (g_by_name g); g_bytes := g_bytes g |}.

(** The schema with the options put into the configs of all models, dataclasses and typed
    dicts. *)
Fixpoint configured (c : core) : core :=
  match c with
  | KAny | KNone | KBool _ | KInt _ _ | KFloat _ | KStr _ | KBytes _ _ _ | KLiteral _ | KIsInstance _ | KPlain _ _ | KRef _ => c
  | KList k item => KList k (option_map configured item)
  | KSet frozen k item => KSet frozen k (option_map configured item)
  | KTuple k v items => KTuple k v (map configured items)
  | KDict k kc vc => KDict k (option_map configured kc) (option_map configured vc)
  | KNullable c => KNullable (configured c)
  | KDefault k c => KDefault k (configured c)
  | KChain l => KChain (map configured l)
  | KJsonOrPython a b => KJsonOrPython (configured a) (configured b)
  | KLaxOrStrict st a b => KLaxOrStrict st (configured a) (configured b)
  | KCustomError t c => KCustomError t (configured c)
  | KBefore f own c => KBefore f own (configured c)
  | KAfter f own c => KAfter f own (configured c)
  | KWrap f own c => KWrap f own (configured c)
  | KUnion m col custom l => KUnion m col custom (map (fun p => (configured (fst p), snd p)) l)
  | KTagged d fa custom l => KTagged d fa custom (map (fun p => (fst p, configured (snd p))) l)
  | KModelFields k fs a b => KModelFields k (map (fun p => (fst p, configured (snd p))) fs) (option_map configured a) (option_map configured b)
  | KTypedDict g k fs a => KTypedDict (Some (with_options g)) k (map (fun p => (fst p, configured (snd p))) fs) (option_map configured a)
  | KArguments k ps a b => KArguments k (map (fun p => (fst p, configured (snd p))) ps) (option_map configured a) (option_map configured b)
  | KDataclassArgs k fs a => KDataclassArgs k (map (fun p => (fst p, configured (snd p))) fs) (option_map configured a)
  | KModel g k c => KModel (Some (with_options g)) k (configured c)
  | KDataclass g k c => KDataclass (Some (with_options g)) k (configured c)
  | KDefinitions l c => KDefinitions (map (fun p => (fst p, configured (snd p))) l) (configured c)
  end.

(** What a schema says itself is not against the option. *)
Definition agrees {A} (own option_ : option A) : Prop := own = None \/ option_ = None \/ own = option_.
Definition deaf {A} (f : option config -> A) : Prop := forall g, f (Some (with_options g)) = f g.
(** Schemas that say nothing against the options, functions that do not look at the config
    for them, and those where the options can be said. *)
Definition unopposed (c : core) : Prop :=
  match c with
  | KBool st | KInt st _ | KBytes st _ _ => agrees st (op_strict o)
  | KLaxOrStrict st _ _ => agrees st (op_strict o)
  | KFloat k => agrees (fk_strict k) (op_strict o)
  | KStr k => agrees (sk_strict k) (op_strict o)
  | KList k _ | KSet _ k _ => agrees (lk_strict k) (op_strict o)
  | KTuple k _ _ => agrees (lk_strict k) (op_strict o)
  | KDict k _ _ => agrees (lk_strict k) (op_strict o)
  | KTagged d fa _ _ => agrees fa (op_from_attributes o) /\ match d with DLookup _ => op_strict o <> Some true | _ => True end
  | KModelFields k _ _ _ => agrees (rk_strict k) (op_strict o) /\ agrees (rk_from_attributes k) (op_from_attributes o)
  | KTypedDict _ k _ _ => agrees (rk_strict k) (op_strict o)
  | KArguments k _ _ _ => agrees (ak_by_alias k) (op_by_alias o) /\ agrees (ak_by_name k) (op_by_name o)
  | KDataclass _ k _ => agrees (dk_strict k) (op_strict o)
  | KBefore f _ _ | KAfter f _ _ | KPlain f _ => deaf f
  | KWrap f _ _ => deaf f /\ op_by_alias o = None /\ op_by_name o = None
  | _ => True
  end.
End Configured.

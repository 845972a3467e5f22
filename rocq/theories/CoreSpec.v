(** Vocabulary for statements about building validators. *)
From Coq Require Import List NArith ZArith Bool.
From Verif Require Import Base Float64 IntParse Numbers BytesCodec Values VState LookupKey Collections Child Inputs Scalars Literal Wrappers Union TaggedUnion Tuple ModelFields TypedDict Assign Arguments Classes Interp InterpSpec SerOf Core.
Import ListNotations.
Open Scope nat_scope.

(** ** A config written out *)

Definition no_config : config :=
  {| g_strict := None; g_extra := None; g_from_attributes := None; g_total := None; g_str_min := None; g_str_max := None; g_str_strip := None;
     g_str_lower := None; g_str_upper := None; g_coerce := None; g_regex := None; g_inf_nan := None; g_validate_default := None; g_revalidate := None;
     g_loc_by_alias := None; g_by_alias := None; g_by_name := None; g_bytes := None |}.
(** The settings that cannot be written in schemas (arguments excepted): loc_by_alias,
    validate_by_alias, validate_by_name and val_json_bytes. *)
Definition config_only (g : config) : config :=
  {| g_strict := None; g_extra := None; g_from_attributes := None; g_total := None; g_str_min := None; g_str_max := None; g_str_strip := None;
     g_str_lower := None; g_str_upper := None; g_coerce := None; g_regex := None; g_inf_nan := None; g_validate_default := None; g_revalidate := None;
     g_loc_by_alias := g_loc_by_alias g; g_by_alias := g_by_alias g; g_by_name := g_by_name g; g_bytes := g_bytes g |}.

(** What is said, else the other. *)
Definition said {A} (own other : option A) : option A := match own with Some a => Some a | None => other end.
Definition write_coll (g : config) (k : coll_keys) : coll_keys :=
  {| lk_strict := said (lk_strict k) (g_strict g); lk_min := lk_min k; lk_max := lk_max k; lk_fail_fast := lk_fail_fast k |}.
Definition write_str (g : config) (k : str_keys) : str_keys :=
  {| sk_strict := said (sk_strict k) (g_strict g); sk_coerce := said (sk_coerce k) (g_coerce g); sk_strip := said (sk_strip k) (g_str_strip g);
     sk_min := said (sk_min k) (g_str_min g); sk_max := said (sk_max k) (g_str_max g); sk_pattern := sk_pattern k; sk_regex := said (sk_regex k) (g_regex g);
     sk_lower := said (sk_lower k) (g_str_lower g); sk_upper := said (sk_upper k) (g_str_upper g) |}.
Definition write_float (g : config) (k : float_keys) : float_keys :=
  {| fk_strict := said (fk_strict k) (g_strict g); fk_inf_nan := said (fk_inf_nan k) (g_inf_nan g);
     fk_multiple_of := fk_multiple_of k; fk_le := fk_le k; fk_lt := fk_lt k; fk_ge := fk_ge k; fk_gt := fk_gt k |}.
Definition write_default (g : config) (k : default_keys) : default_keys :=
  {| hk_default := hk_default k; hk_factory := hk_factory k; hk_takes_data := hk_takes_data k; hk_on_error := hk_on_error k; hk_validate := said (hk_validate k) (g_validate_default g) |}.
Definition write_fields (g : config) (k : fields_keys) : fields_keys :=
  {| rk_strict := said (rk_strict k) (g_strict g); rk_extra := said (rk_extra k) (g_extra g); rk_from_attributes := said (rk_from_attributes k) (g_from_attributes g); rk_total := rk_total k |}.
Definition write_args (g : config) (k : args_keys) : args_keys :=
  {| ak_mode := ak_mode k; ak_extra := said (ak_extra k) (g_extra g); ak_by_alias := said (ak_by_alias k) (g_by_alias g); ak_by_name := said (ak_by_name k) (g_by_name g) |}.

(** The schema with the settings of the config written into it, and into the schemas
    inside it up to models, dataclasses and typed dicts.  Functions are told the config. *)
Fixpoint written_out (g : config) (c : core) : core :=
  match c with
  | KAny | KNone | KBytes _ _ _ | KLiteral _ | KIsInstance _ | KRef _ | KTypedDict _ _ _ _ | KModel _ _ _ | KDataclass _ _ _ =>
      match c with KBytes st mn mx => KBytes (said st (g_strict g)) mn mx | _ => c end
  | KBool st => KBool (said st (g_strict g))
  | KInt st b => KInt (said st (g_strict g)) b
  | KFloat k => KFloat (write_float g k)
  | KStr k => KStr (write_str g k)
  | KList k item => KList (write_coll g k) (option_map (written_out g) item)
  | KSet frozen k item => KSet frozen (write_coll g k) (option_map (written_out g) item)
  | KTuple k v items => KTuple (write_coll g k) v (map (written_out g) items)
  | KDict k kc vc => KDict (write_coll g k) (option_map (written_out g) kc) (option_map (written_out g) vc)
  | KNullable c => KNullable (written_out g c)
  | KDefault k c => KDefault (write_default g k) (written_out g c)
  | KChain l => KChain (map (written_out g) l)
  | KJsonOrPython a b => KJsonOrPython (written_out g a) (written_out g b)
  | KLaxOrStrict st a b => KLaxOrStrict (said st (g_strict g)) (written_out g a) (written_out g b)
  | KCustomError t c => KCustomError t (written_out g c)
  | KBefore f own c => KBefore (fun _ => f (Some g)) own (written_out g c)
  | KAfter f own c => KAfter (fun _ => f (Some g)) own (written_out g c)
  | KPlain f own => KPlain (fun _ => f (Some g)) own
  | KWrap f own c => KWrap (fun _ => f (Some g)) own (written_out g c)
  | KUnion m col custom l => KUnion m col custom (map (fun p => (written_out g (fst p), snd p)) l)
  | KTagged d fa custom l => KTagged d (said fa (g_from_attributes g)) custom (map (fun p => (fst p, written_out g (snd p))) l)
  | KModelFields k fs a b => KModelFields (write_fields g k) (map (fun p => (fst p, written_out g (snd p))) fs) (option_map (written_out g) a) (option_map (written_out g) b)
  | KArguments k ps a b => KArguments (write_args g k) (map (fun p => (fst p, written_out g (snd p))) ps) (option_map (written_out g) a) (option_map (written_out g) b)
  | KDataclassArgs k fs a =>
      KDataclassArgs {| cak_extra := said (cak_extra k) (g_extra g); cak_collect := cak_collect k |} (map (fun p => (fst p, written_out g (snd p))) fs) (option_map (written_out g) a)
  | KDefinitions l c => KDefinitions (map (fun p => (fst p, written_out g (snd p))) l) (written_out g c)
  end.

(** Schemas of classes, which have configs of their own. *)
Definition of_class (c : core) : bool := match c with KModel _ _ _ | KDataclass _ _ _ | KTypedDict _ _ _ _ => true | _ => false end.

(** ** Which schemas can be built *)

(** The schemas directly inside a schema, with the config that governs each. *)
Definition parts (g : option config) (c : core) : list (option config * core) :=
  match c with
  | KAny | KNone | KBool _ | KInt _ _ | KFloat _ | KStr _ | KBytes _ _ _ | KLiteral _ | KIsInstance _ | KPlain _ _ | KRef _ => []
  | KList _ o | KSet _ _ o => map (pair g) (opt_list o)
  | KTuple _ _ l | KChain l => map (pair g) l
  | KDict _ a b => map (pair g) (opt_list a ++ opt_list b)
  | KNullable c | KDefault _ c | KCustomError _ c | KBefore _ _ c | KAfter _ _ c | KWrap _ _ c => [(g, c)]
  | KJsonOrPython a b | KLaxOrStrict _ a b => [(g, a); (g, b)]
  | KUnion _ _ _ l => map (fun p => (g, fst p)) l
  | KTagged _ _ _ l => map (fun p => (g, snd p)) l
  | KModelFields _ fs a b => map (fun p => (g, snd p)) fs ++ map (pair g) (opt_list a ++ opt_list b)
  | KTypedDict own _ fs a => map (fun p => (own, snd p)) fs ++ map (pair own) (opt_list a)
  | KArguments _ ps a b => map (fun p => (g, snd p)) ps ++ map (pair g) (opt_list a ++ opt_list b)
  | KDataclassArgs _ fs a => map (fun p => (g, snd p)) fs ++ map (pair g) (opt_list a)
  | KModel own _ c | KDataclass own _ c => [(own, c)]
  | KDefinitions l c => map (fun p => (g, snd p)) l ++ [(g, c)]
  end.

(** The default schema a schema amounts to: chains of one step, unions of one member and
    definitions are what they contain. *)
Fixpoint amounts_to_default (c : core) : option default_keys :=
  match c with
  | KDefault k _ => Some k
  | KChain [c] => amounts_to_default c
  | KUnion _ col _ [(c, _)] => if match col with Some false => false | _ => true end then amounts_to_default c else None
  | KDefinitions _ c => amounts_to_default c
  | _ => None
  end.
Definition defaulted (c : core) : bool :=
  match amounts_to_default c with Some k => match hk_default k, hk_factory k with None, None => false | _, _ => true end | None => false end.
Definition omitting (c : core) : bool :=
  match amounts_to_default c with Some k => match hk_on_error k with Some OnOmit => true | _ => false end | None => false end.

Definition in_config {A} (g : option config) (f : config -> option A) : option A := match g with Some g => f g | None => None end.
Definition a_word (w : option str) (l : list str) : Prop := forall t, w = Some t -> In t l.
Definition extra_word (own : option (option str)) (g : option config) : option str :=
  match said own (in_config g g_extra) with Some w => w | None => None end.
Definition extras_need (w : option str) (o : option core) : Prop := o <> None -> w = Some (lit "allow").
Definition extra_words : list str := [lit "allow"; lit "forbid"; lit "ignore"].
Definition alias_ok (a : option alias_item) (name : str) : Prop := exists k, collection_new a name = BOk k.
Definition param_mode (p : param_keys * core) : pmode := match qk_mode (fst p) with Some m => m | None => PosOrKw end.

Section Good.
Variable compile : bool -> str -> option (str -> bool + pyexc).
(** What building insists on at a node that is governed by config [g]. *)
Definition good_node (g : option config) (c : core) : Prop :=
  match c with
  | KStr k =>
      match sk_pattern k with
      | Some (PatText t) =>
          match said (sk_regex k) (in_config g g_regex) with
          | None => compile false t <> None
          | Some e => (e = lit "rust-regex" /\ compile false t <> None) \/ (e = lit "python-re" /\ compile true t <> None)
          end
      | _ => True
      end
  | KBytes _ _ _ => a_word (in_config g g_bytes) [lit "utf8"; lit "base64"; lit "hex"]
  | KLiteral l => l <> []
  | KTuple _ v l => forall i, v = Some i -> i < length l
  | KDefault k _ => (hk_default k = None \/ hk_factory k = None) /\ (hk_on_error k = Some OnDefault -> hk_default k <> None \/ hk_factory k <> None)
  | KChain l => l <> []
  | KCustomError t _ => t <> None
  | KUnion m _ _ l => l <> [] /\ a_word m [lit "smart"; lit "left_to_right"]
  | KModelFields k fs a b =>
      a_word (extra_word (rk_extra k) g) extra_words /\ extras_need (extra_word (rk_extra k) g) a /\ extras_need (extra_word (rk_extra k) g) b /\
      forall f, In f fs -> alias_ok (ek_alias (fst f)) (ek_name (fst f))
  | KTypedDict own k fs a =>
      a_word (extra_word (rk_extra k) own) extra_words /\ extras_need (extra_word (rk_extra k) own) a /\
      forall f, In f fs -> alias_ok (ek_alias (fst f)) (ek_name (fst f)) /\ ~ (ek_required (fst f) = Some true /\ defaulted (snd f) = true) /\
        (omitting (snd f) = true -> said (ek_required (fst f)) (said (rk_total k) (in_config own g_total)) = Some false)
  | KArguments k ps _ kw =>
      a_word (ak_mode k) [lit "uniform"; lit "unpacked-typed-dict"] /\ (ak_mode k = Some (lit "unpacked-typed-dict") -> kw <> None) /\ a_word (extra_word (ak_extra k) g) extra_words /\
      (forall p, In p ps -> alias_ok (qk_alias (fst p)) (qk_name (fst p)) /\ omitting (snd p) = false) /\
      (forall before p after, ps = before ++ p :: after -> (exists q, In q before /\ defaulted (snd q) = true) -> defaulted (snd p) = false ->
         exists q, In q (before ++ [p]) /\ param_mode q = KwOnly)
  | KDataclassArgs k fs a =>
      a_word (extra_word (cak_extra k) g) extra_words /\ extras_need (extra_word (cak_extra k) g) a /\
      forall f, In f fs -> alias_ok (ck_alias (fst f)) (ck_name (fst f)) /\ omitting (snd f) = false
  | KModel own k _ => a_word (said (mk_revalidate k) (in_config own g_revalidate)) [lit "always"; lit "never"; lit "subclass-instances"]
  | KDataclass own k _ => a_word (said (dk_revalidate k) (in_config own g_revalidate)) [lit "always"; lit "never"; lit "subclass-instances"]
  | _ => True
  end.
(** ... and at all nodes inside. *)
Inductive good : option config -> core -> Prop :=
| Good g c : good_node g c -> (forall p, In p (parts g c) -> good (fst p) (snd p)) -> good g c.
End Good.

(** The references that a schema declares and uses, in the order of building. *)
Inductive mention := Declares (k : nat) | Uses (k : nat).
Fixpoint mentions (c : core) : list mention :=
  match c with
  | KAny | KNone | KBool _ | KInt _ _ | KFloat _ | KStr _ | KBytes _ _ _ | KLiteral _ | KIsInstance _ | KPlain _ _ => []
  | KRef k => [Uses k]
  | KList _ o | KSet _ _ o => match o with Some c => mentions c | None => [] end
  | KTuple _ _ l | KChain l => flat_map mentions l
  | KDict _ a b => match a with Some c => mentions c | None => [] end ++ match b with Some c => mentions c | None => [] end
  | KNullable c | KDefault _ c | KCustomError _ c | KBefore _ _ c | KAfter _ _ c | KWrap _ _ c | KModel _ _ c | KDataclass _ _ c => mentions c
  | KJsonOrPython a b | KLaxOrStrict _ a b => mentions a ++ mentions b
  | KUnion _ _ _ l => flat_map (fun p => mentions (fst p)) l
  | KTagged _ _ _ l => flat_map (fun p => mentions (snd p)) l
  | KModelFields _ fs a b =>
      match a with Some c => mentions c | None => [] end ++ match b with Some c => mentions c | None => [] end ++ flat_map (fun p => mentions (snd p)) fs
  | KTypedDict _ _ fs a | KDataclassArgs _ fs a => match a with Some c => mentions c | None => [] end ++ flat_map (fun p => mentions (snd p)) fs
  | KArguments _ ps a b =>
      flat_map (fun p => mentions (snd p)) ps ++ match b with Some c => mentions c | None => [] end ++ match a with Some c => mentions c | None => [] end
  | KDefinitions l c => flat_map (fun p => mentions (snd p) ++ [Declares (fst p)]) l ++ mentions c
  end.
Definition declared (l : list mention) : list nat := flat_map (fun m => match m with Declares k => [k] | Uses _ => [] end) l.
Definition used (l : list mention) : list nat := flat_map (fun m => match m with Uses k => [k] | Declares _ => [] end) l.

(** ** What validators are like that were built *)
Definition gives_default (s : schema) : Prop := exists k o v x, s = SDefault k o v x /\ k <> DNone.
Definition leaves_out (s : schema) : Prop := exists k v x, s = SDefault k OnOmit v x.
Definition sound (s : schema) : Prop :=
  match s with
  | SLiteral l => l <> []
  | SList _ it => it <> Some SAny
  | STuple c l => forall i, tn_variadic c = Some i -> i < length l
  | SDefault k o _ _ => o = OnDefault -> k <> DNone
  | SChain l => 2 <= length l /\ forall x, In x l -> forall l', x <> SChain l'
  | SUnion _ _ l => l <> []
  | SModelFields c _ a b => fo_extra c <> ExtraAllow -> a = None /\ b = None
  | STypedDict c fs a => (fo_extra c <> ExtraAllow -> a = None) /\ forall f, In f fs -> fi_required (fst f) = true -> ~ leaves_out (snd f)
  | SArguments c ps a b =>
      (po_unpacked c = true -> b <> None) /\ (forall p, In p ps -> ~ leaves_out (snd p)) /\
      (forall before p after, ps = before ++ p :: after -> (exists q, In q before /\ gives_default (snd q)) -> ~ gives_default (snd p) ->
         exists q, In q (before ++ [p]) /\ pi_mode (fst q) = KwOnly)
  | SDataclassArgs c fs a => (do_extra c <> ExtraAllow -> a = None) /\ forall f, In f fs -> ~ leaves_out (snd f)
  | _ => True
  end.
(** ... and every reference leads to a definition. *)
Definition linked (defs : nat -> option schema) (s : schema) : Prop := match s with SRef k => defs k <> None | _ => True end.

(** ** Schemas inside schemas *)

(** [Within g c g' x]: [x] occurs in [c] (or is it); where [g] governs [c], [g'] governs [x]. *)
Inductive within : option config -> core -> option config -> core -> Prop :=
| WSelf g c : within g c g c
| WPart g c p g' x : In p (parts g c) -> within (fst p) (snd p) g' x -> within g c g' x.
(** [x] occurs in [c] under the same config, whatever that is. *)
Inductive shares : core -> core -> Prop :=
| SSelf c : shares c c
| SPart c p x : of_class c = false -> In p (parts None c) -> shares (snd p) x -> shares c x.
(** A function that is told of no config and of an empty one does the same. *)
Definition same_without (x : core) : Prop :=
  match x with
  | KBefore f _ _ | KAfter f _ _ | KPlain f _ => f (Some no_config) = f None
  | KWrap f _ _ => f (Some no_config) = f None
  | _ => True
  end.
(** Schemas that Rust code panics on. *)
Definition panicking (x : core) : Prop :=
  match x with KTuple _ (Some i) l => length l <= i | KCustomError None _ => True | _ => False end.

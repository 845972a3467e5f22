(** Lemmas about building validators. *)
From Coq Require Import List NArith ZArith Bool Lia.
From Verif Require Import Base Float64 IntParse Numbers BytesCodec Values VState LookupKey Collections Child Inputs Scalars Literal Wrappers Union TaggedUnion Tuple ModelFields TypedDict Assign Arguments Classes Interp InterpSpec SerOf Core CoreSpec.
Import ListNotations.
Open Scope nat_scope.

(** ** Induction over core schemas *)
Definition all_opt {A} (P : A -> Prop) (o : option A) : Prop := match o with Some a => P a | None => True end.
Section Induction.
Variable P : core -> Prop.
Hypothesis Hany : P KAny. Hypothesis Hnone : P KNone. Hypothesis Hbool : forall st, P (KBool st). Hypothesis Hint : forall st c, P (KInt st c).
Hypothesis Hfloat : forall k, P (KFloat k). Hypothesis Hstr : forall k, P (KStr k). Hypothesis Hbytes : forall st a b, P (KBytes st a b).
Hypothesis Hlit : forall l, P (KLiteral l). Hypothesis Hinst : forall c, P (KIsInstance c).
Hypothesis Hlist : forall k o, all_opt P o -> P (KList k o). Hypothesis Hset : forall f k o, all_opt P o -> P (KSet f k o).
Hypothesis Htuple : forall k v l, Forall P l -> P (KTuple k v l). Hypothesis Hdict : forall k a b, all_opt P a -> all_opt P b -> P (KDict k a b).
Hypothesis Hnullable : forall c, P c -> P (KNullable c). Hypothesis Hdefault : forall k c, P c -> P (KDefault k c).
Hypothesis Hchain : forall l, Forall P l -> P (KChain l). Hypothesis Hjop : forall a b, P a -> P b -> P (KJsonOrPython a b).
Hypothesis Hlos : forall st a b, P a -> P b -> P (KLaxOrStrict st a b). Hypothesis Hcustom : forall t c, P c -> P (KCustomError t c).
Hypothesis Hbefore : forall f o c, P c -> P (KBefore f o c). Hypothesis Hafter : forall f o c, P c -> P (KAfter f o c).
Hypothesis Hplain : forall f o, P (KPlain f o). Hypothesis Hwrap : forall f o c, P c -> P (KWrap f o c).
Hypothesis Hunion : forall m col cu l, Forall (fun p => P (fst p)) l -> P (KUnion m col cu l).
Hypothesis Htagged : forall d fa cu l, Forall (fun p => P (snd p)) l -> P (KTagged d fa cu l).
Hypothesis Hfields : forall k l a b, Forall (fun p => P (snd p)) l -> all_opt P a -> all_opt P b -> P (KModelFields k l a b).
Hypothesis Htd : forall g k l a, Forall (fun p => P (snd p)) l -> all_opt P a -> P (KTypedDict g k l a).
Hypothesis Hargs : forall k l a b, Forall (fun p => P (snd p)) l -> all_opt P a -> all_opt P b -> P (KArguments k l a b).
Hypothesis Hdca : forall k l a, Forall (fun p => P (snd p)) l -> all_opt P a -> P (KDataclassArgs k l a).
Hypothesis Hmodel : forall g k c, P c -> P (KModel g k c). Hypothesis Hdc : forall g k c, P c -> P (KDataclass g k c).
Hypothesis Hdefs : forall l c, Forall (fun p => P (snd p)) l -> P c -> P (KDefinitions l c). Hypothesis Href : forall k, P (KRef k).
Fixpoint core_induction (c : core) : P c :=
  let list_of {A} (f : A -> core) := fix go (l : list A) : Forall (fun a => P (f a)) l :=
    match l with [] => Forall_nil _ | a :: l => Forall_cons a (core_induction (f a)) (go l) end in
  let opt_of (o : option core) : all_opt P o := match o with Some c => core_induction c | None => I end in
  match c with
  | KAny => Hany | KNone => Hnone | KBool st => Hbool st | KInt st c => Hint st c | KFloat k => Hfloat k | KStr k => Hstr k
  | KBytes st a b => Hbytes st a b | KLiteral l => Hlit l | KIsInstance c => Hinst c
  | KList k o => Hlist k o (opt_of o) | KSet f k o => Hset f k o (opt_of o) | KTuple k v l => Htuple k v l (list_of (fun c => c) l)
  | KDict k a b => Hdict k a b (opt_of a) (opt_of b) | KNullable c => Hnullable c (core_induction c) | KDefault k c => Hdefault k c (core_induction c)
  | KChain l => Hchain l (list_of (fun c => c) l) | KJsonOrPython a b => Hjop a b (core_induction a) (core_induction b)
  | KLaxOrStrict st a b => Hlos st a b (core_induction a) (core_induction b) | KCustomError t c => Hcustom t c (core_induction c)
  | KBefore f o c => Hbefore f o c (core_induction c) | KAfter f o c => Hafter f o c (core_induction c) | KPlain f o => Hplain f o
  | KWrap f o c => Hwrap f o c (core_induction c) | KUnion m col cu l => Hunion m col cu l (list_of fst l)
  | KTagged d fa cu l => Htagged d fa cu l (list_of snd l)
  | KModelFields k l a b => Hfields k l a b (list_of snd l) (opt_of a) (opt_of b) | KTypedDict g k l a => Htd g k l a (list_of snd l) (opt_of a)
  | KArguments k l a b => Hargs k l a b (list_of snd l) (opt_of a) (opt_of b) | KDataclassArgs k l a => Hdca k l a (list_of snd l) (opt_of a)
  | KModel g k c => Hmodel g k c (core_induction c) | KDataclass g k c => Hdc g k c (core_induction c)
  | KDefinitions l c => Hdefs l c (list_of snd l) (core_induction c) | KRef k => Href k
  end.
End Induction.

(** ** The monad *)
Lemma bind_ext : forall A C (m m' : B A) (f f' : A -> B C) k, m k = m' k -> (forall a k, f a k = f' a k) -> bind m f k = bind m' f' k.
Proof. intros A C m m' f f' k E F. unfold bind. rewrite E. destruct (m' k) as [[a n]| |]; cbn; auto. Qed.
Lemma mapB_map : forall A C D (h : A -> D) (f : A -> B C) (f' : D -> B C) l, Forall (fun a => forall k, f a k = f' (h a) k) l -> forall k, mapB f l k = mapB f' (map h l) k.
Proof.
  intros A C D h f f' l F. induction F as [|a l E F IH]; intros k; [reflexivity|].
  cbn [mapB map]. apply bind_ext; [apply E|]. intros c n. apply bind_ext; [apply IH|]. reflexivity.
Qed.
Lemma optB_map : forall (f f' : core -> B schema) h o, all_opt (fun c => forall k, f c k = f' (h c) k) o -> forall k, optB f o k = optB f' (option_map h o) k.
Proof. intros f f' h [c|] E k; cbn in *; [|reflexivity]. apply bind_ext; [apply E|reflexivity]. Qed.
Lemma extras_map : forall (f f' : core -> B schema) h e o, all_opt (fun c => forall k, f c k = f' (h c) k) o -> forall k, extras_B f e o k = extras_B f' e (option_map h o) k.
Proof. intros f f' h [] [c|] E k; cbn in *; try reflexivity. apply bind_ext; [apply E|reflexivity]. Qed.
Lemma params_map : forall (f f' : core -> B schema) h l, Forall (fun p => forall k, f (snd p) k = f' (h (snd p)) k) l ->
  forall d kw k, params_B f d kw l k = params_B f' d kw (map (fun p => (fst p, h (snd p))) l) k.
Proof.
  intros f f' h l F. induction F as [|p l E F IH]; intros d kw k; [reflexivity|].
  cbn [params_B map]. cbn zeta. cbn [fst snd]. apply bind_ext; [apply E|]. intros s n.
  destruct (omits s); [reflexivity|]. destruct (d && _ && _); [reflexivity|].
  apply bind_ext; [reflexivity|]. intros ks n2. apply bind_ext; [apply IH|reflexivity].
Qed.

(** ** A config is the same as its settings written out *)
Lemma said_setting : forall A own g (f : config -> option A), f (config_only g) = None -> setting own (Some g) f = setting (said own (f g)) (Some (config_only g)) f.
Proof. intros A [a|] g f E; cbn; [reflexivity|]. destruct (f g); cbn; auto. Qed.
Lemma said_kept : forall A own g (f : config -> option A), f (config_only g) = f g -> setting own (Some g) f = setting (said own (f g)) (Some (config_only g)) f.
Proof. intros A [a|] g f E; cbn; [reflexivity|]. destruct (f g); cbn; auto. Qed.
Lemma strict_said : forall st g, is_strict st (Some g) = is_strict (said st (g_strict g)) (Some (config_only g)).
Proof. intros st g. unfold is_strict. now rewrite (said_setting _ st g g_strict). Qed.
Lemma extra_said : forall own g d k, extra_of own (Some g) d k = extra_of (said own (g_extra g)) (Some (config_only g)) d k.
Proof. intros own g d k. unfold extra_of. now rewrite (said_setting _ own g g_extra). Qed.

Section Build.
Variable name_of : schema -> str.
Variable compile : bool -> str -> option (str -> bool + pyexc).
Notation build := (build name_of compile).

Lemma written_out_builds : forall g c k, build (Some g) c k = build (Some (config_only g)) (written_out g c) k.
Proof.
  intros g. induction c using core_induction; intros n; cbn [Core.build written_out]; try reflexivity.
  - now rewrite strict_said.
  - now rewrite strict_said.
  - cbn [fk_strict fk_inf_nan fk_multiple_of fk_le fk_lt fk_ge fk_gt write_float]. now rewrite strict_said, (said_setting _ (fk_inf_nan k) g g_inf_nan).
  - apply bind_ext.
    + unfold pattern_of. cbn [sk_pattern sk_regex write_str]. destruct (sk_pattern k) as [[t|m]|]; try reflexivity.
      now rewrite (said_setting _ (sk_regex k) g g_regex).
    + intros p k'. cbn [sk_strict sk_coerce sk_strip sk_min sk_max sk_lower sk_upper write_str].
      now rewrite strict_said, (said_setting _ (sk_coerce k) g g_coerce), (said_setting _ (sk_strip k) g g_str_strip), (said_setting _ (sk_min k) g g_str_min),
        (said_setting _ (sk_max k) g g_str_max), (said_setting _ (sk_lower k) g g_str_lower), (said_setting _ (sk_upper k) g g_str_upper).
  - apply bind_ext; [reflexivity|]. intros m k. now rewrite strict_said.
  - apply bind_ext; [now apply optB_map|]. intros it k'. unfold coll_of. cbn. now rewrite strict_said.
  - apply bind_ext; [now apply optB_map|]. intros it k'. unfold coll_of. cbn. now rewrite strict_said.
  - apply bind_ext; [now apply mapB_map|]. intros it k'. cbn. now rewrite strict_said.
  - apply bind_ext; [now apply optB_map|]. intros a' k'. apply bind_ext; [now apply optB_map|]. intros b' k2. unfold coll_of. cbn. now rewrite strict_said.
  - apply bind_ext; [apply IHc|reflexivity].
  - apply bind_ext; [reflexivity|]. intros d k'. cbn [hk_on_error hk_validate write_default]. destruct (wd_build_ok _ _); [|reflexivity]. cbn [negb].
    apply bind_ext; [apply IHc|]. intros s k2. now rewrite (said_setting _ (hk_validate k) g g_validate_default).
  - apply bind_ext; [now apply mapB_map|reflexivity].
  - apply bind_ext; [apply IHc1|]. intros a k. apply bind_ext; [apply IHc2|reflexivity].
  - apply bind_ext; [apply IHc1|]. intros a k. apply bind_ext; [apply IHc2|]. intros b k2. now rewrite strict_said.
  - destruct t; [|reflexivity]. apply bind_ext; [apply IHc|reflexivity].
  - apply bind_ext; [apply IHc|reflexivity].
  - apply bind_ext; [apply IHc|reflexivity].
  - apply bind_ext; [apply IHc|reflexivity].
  - apply bind_ext; [|reflexivity]. apply mapB_map. eapply Forall_impl; [|exact H]. intros p E k. apply bind_ext; [apply E|reflexivity].
  - apply bind_ext; [apply mapB_map|].
    + eapply Forall_impl; [|exact H]. intros p E k. apply bind_ext; [apply E|reflexivity].
    + intros l' k. now rewrite (said_setting _ fa g g_from_attributes).
  - apply bind_ext; [apply extra_said|]. intros e k1. apply bind_ext; [now apply extras_map|]. intros x k2. apply bind_ext; [now apply extras_map|]. intros y k3.
    apply bind_ext; [apply mapB_map|].
    + eapply Forall_impl; [|exact H]. intros p E k'. unfold model_field_B. apply bind_ext; [apply E|reflexivity].
    + intros fs k4. cbn [rk_strict rk_from_attributes write_fields]. now rewrite strict_said, (said_setting _ (rk_from_attributes k) g g_from_attributes).
  - apply bind_ext; [now apply params_map|]. intros ps k1. apply bind_ext; [reflexivity|]. intros u k2. apply bind_ext; [now apply optB_map|]. intros y k3.
    destruct (u && _); [reflexivity|]. apply bind_ext; [now apply optB_map|]. intros x k4. apply bind_ext; [apply extra_said|]. intros e k5.
    cbn [ak_by_alias ak_by_name write_args]. now rewrite (said_kept _ (ak_by_alias k) g g_by_alias), (said_kept _ (ak_by_name k) g g_by_name).
  - apply bind_ext; [apply extra_said|]. intros e k1. apply bind_ext; [now apply extras_map|]. intros x k2. apply bind_ext; [apply mapB_map|reflexivity].
    eapply Forall_impl; [|exact H]. intros p E k'. unfold dataclass_field_B. apply bind_ext; [apply E|reflexivity].
  - apply bind_ext; [|intros; apply IHc]. apply mapB_map. eapply Forall_impl; [|exact H]. intros p E k. apply bind_ext; [apply E|reflexivity].
Qed.
End Build.

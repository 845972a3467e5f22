(** C86: building a validator from a core schema and a config. *)
From Coq Require Import List NArith ZArith Bool Lia.
From Verif Require Import Base Float64 IntParse Numbers BytesCodec Values VState LookupKey Collections Child Inputs Scalars Literal Wrappers Union TaggedUnion Tuple ModelFields TypedDict Assign Arguments Classes Interp InterpSpec SerOf Core CoreSpec CoreProofs CoreProofs2 CoreProofs3 CoreProofs4 CoreTable CoreTableProofs.
Import ListNotations.
Open Scope nat_scope.

Section Props.
(** The names validators have, and the two regular expression engines. *)
Variable name_of : schema -> str.
Variable compile : bool -> str -> option (str -> bool + pyexc).
Notation build := (build name_of compile).
Notation validator := (schema_validator name_of compile).

(** C86: a config is a shorthand.  It says for all schemas inside, up to models,
    dataclasses and typed dicts, what each could say itself, and where one does, that
    counts; but for the four settings that only configs have. *)
Theorem C86_config_is_shorthand : forall g c, validator (Some g) c = validator (Some (config_only g)) (written_out g c).
Proof. intros g c. unfold schema_validator. now rewrite (written_out_builds name_of compile g c). Qed.

(** C86: models, dataclasses and typed dicts are built with the config in their own schema
    only, wherever they occur. *)
Theorem C86_classes_ignore_parent : forall g g' c, of_class c = true -> build g c = build g' c.
Proof. intros g g' c H. destruct c; try discriminate H; reflexivity. Qed.

(** C86: a validator is built iff the schemas meet the conditions that are spelled out in
    [good], no reference is declared twice and every one used is declared. *)
Lemma forallb_found : forall (d : list (nat * schema)) l, forallb (fun k => match find_def k d with Some _ => true | None => false end) l = true <-> incl l (map fst d).
Proof.
  intros d l. rewrite forallb_forall. split; intros H k I; specialize (H k I).
  - destruct (find_def k d) eqn:E; [|discriminate H]. destruct (in_dec Nat.eq_dec k (map fst d)) as [Y|N]; [exact Y|]. apply (find_none name_of) in N. congruence.
  - destruct (find_def k d) eqn:E; [reflexivity|]. apply (find_none name_of) in E. contradiction.
Qed.
Theorem C86_builds : forall g c, (exists r, validator g c = Built r) <->
  good compile g c /\ NoDup (declared (mentions c)) /\ incl (used (mentions c)) (declared (mentions c)).
Proof.
  intros g c. destruct (build_meets name_of compile c g) as [H K]. unfold schema_validator. split.
  - intros [r E]. destruct (build g c _) as [[s n]| |] eqn:Eb; try discriminate E. cbn [bbind fst snd] in E.
    destruct (H _ _ _ Eb) as (G & (new & D & N & U & R & _) & _). cbn in D, R, U. split; [exact G|].
    rewrite <- N. split; [rewrite <- D; apply U; constructor|].
    destruct (forallb _ _) eqn:F; [|discriminate E]. apply forallb_found in F. rewrite D, R, app_nil_r in F. intros k I. apply F. now apply -> in_rev.
  - intros (G & N & I). destruct (K {| kn_defs := []; kn_refs := [] |} G N) as (s & n & Eb). rewrite Eb. cbn [bbind fst snd].
    destruct (H _ _ _ Eb) as (_ & (new & D & M & _ & R & _) & _). cbn in D, R.
    replace (forallb _ _) with true; [eauto|]. symmetry. apply forallb_found. rewrite D, R, M, app_nil_r. intros k X. apply I. now apply in_rev.
Qed.

(** C86: what is built is sound all through, definitions included: only fields that may be
    missing are left out on errors, parameters without default come before those with one
    unless keyword-only, and so on; and every reference in it leads somewhere. *)
Lemma find_in : forall k l s, find_def k l = Some s -> In (k, s) l.
Proof. intros k l s. induction l as [|[j x] l IH]; cbn; [discriminate|]. destruct (k =? j) eqn:E; [apply Nat.eqb_eq in E; intros [= ->]; subst; now left|auto]. Qed.
Theorem C86_sound : forall g c s defs, validator g c = Built (s, defs) -> holds_of (fun x => sound x /\ linked defs x) defs s.
Proof.
  intros g c s defs E. unfold schema_validator in E. destruct (build g c _) as [[s0 n]| |] eqn:Eb; try discriminate E. cbn [bbind fst snd] in E.
  destruct (forallb _ _) eqn:F; [|discriminate E]. injection E as <- <-.
  destruct (build_meets name_of compile c g) as [H _]. destruct (H _ _ _ Eb) as (_ & (new & D & _ & _ & R & A) & (Q & _)). cbn in D, R. rewrite app_nil_r in R.
  assert (L : forall x, fine (mentions c) x -> everywhere (fun x => sound x /\ linked (fun k => find_def k (kn_defs n)) x) x).
  { intros x X. induction X as [x [S U] C IH]. constructor; [|exact IH]. split; [exact S|]. destruct x; cbn; auto.
    rewrite forallb_forall in F. specialize (F k). intros Z. rewrite Z in F. discriminate F. rewrite R. apply -> in_rev. apply in_flat_map. exists (Uses k). split; [exact U|now left]. }
  split; [now apply L|]. intros k d X. apply find_in in X. apply L. rewrite D in X. rewrite Forall_forall in A. apply (A _ X).
Qed.

(** C86: a definition is what its schema gives under the config that governs the place
    where it is declared (not the places where it is used); that does not depend on what
    else has been built. *)
Definition made (g : option config) (c : core) (s : schema) : Prop := exists n n', build g c n = Built (s, n').
Theorem C86_definitions : forall g c s defs, validator g c = Built (s, defs) ->
  made g c s /\
  (forall g' l x k d, within g c g' (KDefinitions l x) -> In (k, d) l -> exists t, defs k = Some t /\ made g' d t /\ forall t', made g' d t' -> t' = t).
Proof.
  intros g c s defs E. unfold schema_validator in E. destruct (build g c _) as [[s0 n]| |] eqn:Eb; try discriminate E. cbn [bbind fst snd] in E.
  destruct (forallb _ _) eqn:F; [|discriminate E]. injection E as <- <-. split; [eexists _, _; exact Eb|].
  intros g' l x k d W I. destruct (inside_built name_of compile _ _ _ _ W _ _ _ Eb) as (n1 & s1 & n2 & E1 & X). cbn [Core.build] in E1. unfold bind at 1 in E1.
  destruct (mapB _ l n1) as [[r n3]| |] eqn:E2; try discriminate E1. cbn [bbind fst snd] in E1.
  destruct (definition_kept name_of compile _ _ _ _ _ E2 k d I) as (n4 & t & n5 & E4 & J).
  destruct (visits_build name_of compile g' x _ _ _ E1) as [Y _]. apply Y, X in J.
  exists t. split; [|split; [eexists _, _; exact E4|]].
  - destruct (build_meets name_of compile c g) as [H _]. destruct (H _ _ _ Eb) as (_ & (new & D & _ & U & _) & _). cbn in D. specialize (U (NoDup_nil _)). unfold names in U.
    clear - J U. induction (kn_defs n) as [|[j y] q IH]; [destruct J|]. cbn in *. inversion U; subst. destruct J as [[= -> ->]|J]; [now rewrite Nat.eqb_refl|].
    destruct (k =? j) eqn:E; [|now apply IH]. apply Nat.eqb_eq in E. subst. destruct H1. apply in_map_iff. exists (j, t). now split.
  - intros t' (m & m' & E5). eapply (build_same name_of compile d g'); eassumption.
Qed.

(** C86: what is built is what the table in CoreTable.v says, key by key; definitions
    included. *)
Theorem C86_as_written : forall g c s defs, validator g c = Built (s, defs) ->
  reads name_of compile g c s /\
  (forall g' l x k d, within g c g' (KDefinitions l x) -> In (k, d) l -> exists t, defs k = Some t /\ reads name_of compile g' d t).
Proof.
  intros g c s defs E. destruct (C86_definitions _ _ _ _ E) as [(n & n' & M) D]. split; [eapply build_reads; exact M|].
  intros g' l x k d W I. destruct (D _ _ _ _ _ W I) as (t & F & (m & m' & T) & _). exists t. split; [exact F|eapply build_reads; exact T].
Qed.

(** C86: code panics at two kinds of schemas only; all others give a validator or a
    SchemaError. *)
Theorem C86_panics_only : forall g c, (forall g' x, within g c g' x -> ~ panicking x) -> validator g c <> Panics.
Proof.
  intros g c N. unfold schema_validator. pose proof (build_quiet name_of compile c g N {| kn_defs := []; kn_refs := [] |}) as Q.
  destruct (build g c _) as [[s n]| |]; cbn; [destruct (forallb _ _); discriminate|discriminate|contradiction].
Qed.

(** C86: a validator that is pickled and restored is the same one.  It is built again from
    its schema and config, where an empty config is forgotten; which shows if a function
    looks at it. *)
Theorem C86_empty_config : forall c, (forall x, shares c x -> same_without x) -> validator (Some no_config) c = validator None c.
Proof. intros c N. unfold schema_validator. now rewrite (build_plain name_of compile c N). Qed.
End Props.
Print Assumptions C86_config_is_shorthand.
Print Assumptions C86_classes_ignore_parent.
Print Assumptions C86_builds.
Print Assumptions C86_sound.
Print Assumptions C86_definitions.
Print Assumptions C86_as_written.
Print Assumptions C86_panics_only.
Print Assumptions C86_empty_config.

(** ** Cases *)
Definition x_name (s : schema) : str := lit "name".
Definition x_compile (py : bool) (t : str) : option (str -> bool + pyexc) := if str_eqb t (lit "(") then None else Some (fun s => inl (str_eqb s t)).
Notation x_validator := (schema_validator x_name x_compile).
Definition x_ic : int_constraints := {| ic_multiple_of := None; ic_le := None; ic_lt := None; ic_ge := None; ic_gt := None |}.
Definition k_int (st : option bool) : core := KInt st x_ic.
Definition x_sk : str_keys :=
  {| sk_strict := None; sk_coerce := None; sk_strip := None; sk_min := Some 2; sk_max := None; sk_pattern := Some (PatText (lit "ab")); sk_regex := None; sk_lower := None; sk_upper := None |}.
Definition x_lk : coll_keys := {| lk_strict := None; lk_min := None; lk_max := None; lk_fail_fast := None |}.
Definition x_ek (name : str) (req : option bool) : field_keys := {| ek_name := name; ek_alias := None; ek_frozen := None; ek_required := req |}.
Definition x_rk (e : option (option str)) : fields_keys := {| rk_strict := None; rk_extra := e; rk_from_attributes := None; rk_total := None |}.
Definition x_hk (v : pyval) : default_keys := {| hk_default := Some v; hk_factory := None; hk_takes_data := None; hk_on_error := None; hk_validate := None |}.
Definition x_mk : model_keys := {| mk_cls := 5%N; mk_origin := None; mk_revalidate := None; mk_root := None; mk_custom_init := None; mk_post_init := None |}.
(** strict, at least three characters, additional items forbidden. *)
Definition x_cfg : config :=
  {| g_strict := Some true; g_extra := Some (Some (lit "forbid")); g_from_attributes := None; g_total := None; g_str_min := Some 3; g_str_max := Some 9; g_str_strip := None;
     g_str_lower := None; g_str_upper := None; g_coerce := None; g_regex := Some (lit "python-re"); g_inf_nan := None; g_validate_default := None; g_revalidate := None;
     g_loc_by_alias := Some false; g_by_alias := None; g_by_name := None; g_bytes := None |}.
(** A list of trees of integers or strings, by way of a definition that refers to itself. *)
Definition x_tree : core :=
  KDefinitions [(0, KTypedDict None (x_rk None) [(x_ek (lit "value") None, KUnion None None None [(k_int None, None); (KStr x_sk, Some (lit "text"))]);
      (x_ek (lit "children") (Some false), KDefault (x_hk (PList [])) (KList x_lk (Some (KRef 0))))] None)]
    (KList x_lk (Some (KRef 0))).
Ltac the_parts := let p := fresh in let I := fresh in intros p I; cbn in I; repeat (destruct I as [<-|I]; [cbn [fst snd]|]); try contradiction.
Example C86_ex_tree : good x_compile (Some x_cfg) x_tree /\ NoDup (declared (mentions x_tree)) /\ incl (used (mentions x_tree)) (declared (mentions x_tree)) /\
  exists s defs d, x_validator (Some x_cfg) x_tree = Built (s, defs) /\ defs 0 = Some d /\ s = SList {| co_strict := true; co_min := None; co_max := None; co_fail_fast := false |} (Some (SRef 0)).
Proof.
  split; [|split; [|split]].
  - constructor; [exact I|]. the_parts.
    + constructor.
      * cbn. split; [discriminate|]. split; [now intros N|]. intros f [<-|[<-|[]]]; (split; [eexists; reflexivity|]); (split; [intros []; discriminate|discriminate]).
      * the_parts.
        -- constructor; [split; [discriminate|discriminate]|]. the_parts; (constructor; [cbn|intros ? []]); [exact I|discriminate].
        -- constructor; [cbn; split; [now right|discriminate]|]. the_parts. constructor; [exact I|]. the_parts. constructor; [exact I|intros ? []].
    + constructor; [exact I|]. the_parts. constructor; [exact I|intros ? []].
  - cbn. constructor; [intros []|constructor].
  - cbn. intros k [<-|[<-|[]]]; now left.
  - eexists _, _, _. lazy. repeat split; reflexivity.
Qed.
(** A list of texts, strict by the config; the text has its own minimum, the config's
    maximum and engine. *)
Example C86_ex_as_written : exists p, x_validator (Some x_cfg) (KList x_lk (Some (KStr x_sk))) = Built (SList {| co_strict := true; co_min := None; co_max := None; co_fail_fast := false |}
    (Some (SStr {| sc_strict := true; sc_coerce_numbers := false; sc_strip := false; sc_min := Some 2; sc_max := Some 9; sc_pattern := Some p; sc_to_lower := false; sc_to_upper := false |})), fun _ => None) /\
  x_compile true (lit "ab") = Some p.
Proof. eexists. split; lazy; reflexivity. Qed.
(** The config reaches the integer, the text keeps its own minimum, and the model goes
    without. *)
Example C86_ex_shorthand : written_out x_cfg (KTuple x_lk None [k_int None; KStr x_sk; KModel None x_mk (k_int None)]) =
    KTuple {| lk_strict := Some true; lk_min := None; lk_max := None; lk_fail_fast := None |} None
      [k_int (Some true);
       KStr {| sk_strict := Some true; sk_coerce := None; sk_strip := None; sk_min := Some 2; sk_max := Some 9; sk_pattern := Some (PatText (lit "ab")); sk_regex := Some (lit "python-re"); sk_lower := None; sk_upper := None |};
       KModel None x_mk (k_int None)] /\
  exists s defs, x_validator (Some x_cfg) (KTuple x_lk None [k_int None; KStr x_sk; KModel None x_mk (k_int None)]) = Built (s, defs).
Proof. split; [reflexivity|]. eexists _, _. lazy. reflexivity. Qed.
Example C86_ex_classes : of_class (KModel (Some x_cfg) x_mk (k_int None)) = true /\ exists defs,
  x_validator None (KModel (Some x_cfg) x_mk (k_int None)) =
    Built (SModel {| mo_cls := 5%N; mo_origin := None; mo_revalidate := RNever; mo_root := false; mo_custom_init := None; mo_post_init := None |} (SInt true None), defs).
Proof. split; [reflexivity|]. eexists. lazy. reflexivity. Qed.
Example C86_ex_definition : within None x_tree None x_tree /\ exists l x d, x_tree = KDefinitions l x /\ In (0, d) l.
Proof. split; [constructor|]. eexists _, _, _. split; [reflexivity|now left]. Qed.
Example C86_ex_quiet : forall g' x, within None (KTuple x_lk (Some 0) [k_int None]) g' x -> ~ panicking x.
Proof. intros g' x W. inversion W as [|? ? p ? ? I V]; subst; [cbn; lia|]. destruct I as [<-|[]]. cbn in V. inversion V as [|? ? p ? ? I V']; subst; [auto|destruct I]. Qed.
Example C86_ex_empty : forall x, shares (KList x_lk (Some (KBefore (fun _ v _ => inl v) None (k_int None)))) x -> same_without x.
Proof.
  intros x S. inversion S as [|? p ? _ I S1]; subst; [exact Logic.I|]. destruct I as [<-|[]]. cbn in S1. inversion S1 as [|? p ? _ I S2]; subst; [reflexivity|].
  destruct I as [<-|[]]. cbn in S2. inversion S2 as [|? p ? _ I S3]; subst; [exact Logic.I|destruct I].
Qed.
(** What is refused: a pattern that does not compile, an unknown word, a reference twice or
    never declared, a default after which nothing has one. *)
Example C86_ex_refused :
  x_validator None (KStr {| sk_strict := None; sk_coerce := None; sk_strip := None; sk_min := None; sk_max := None; sk_pattern := Some (PatText (lit "(")); sk_regex := None; sk_lower := None; sk_upper := None |}) = SchemaError /\
  x_validator None (KUnion (Some (lit "clever")) None None [(KAny, None); (KNone, None)]) = SchemaError /\
  x_validator None (KDefinitions [(0, KAny); (0, KNone)] KAny) = SchemaError /\ x_validator None (KList x_lk (Some (KRef 3))) = SchemaError /\
  x_validator None (KArguments {| ak_mode := None; ak_extra := None; ak_by_alias := None; ak_by_name := None |}
    [({| qk_name := lit "a"; qk_mode := None; qk_alias := None |}, KDefault (x_hk PNone) KAny); ({| qk_name := lit "b"; qk_mode := None; qk_alias := None |}, KAny)] None None) = SchemaError.
Proof. repeat split; lazy; reflexivity. Qed.

(** ** Against what one might expect *)

(** C86, against the reading that a reference means what its definition says in its place:
    inside a strict model the definition stays as lax as where it was declared. *)
Theorem C86_reference_refuted : exists d s defs t defs',
  x_validator None (KDefinitions [(0, d)] (KModel (Some x_cfg) x_mk (KRef 0))) = Built (s, defs) /\
  x_validator None (KModel (Some x_cfg) x_mk d) = Built (t, defs') /\ defs 0 = Some (SInt false None) /\ children t = [SInt true None].
Proof. exists (k_int None). eexists _, _, _, _. lazy. repeat split; reflexivity. Qed.
Print Assumptions C86_reference_refuted.
(** C86, against the reading that the config of a validator holds for all of it: the fields
    of a typed dict stay lax, and it takes additional items. *)
Theorem C86_whole_config_refuted : exists c e, exists f defs,
  x_validator (Some x_cfg) c = Built (STypedDict e [f] None, defs) /\ fo_extra e = ExtraIgnore /\ snd f = SInt false None.
Proof. exists (KTypedDict None (x_rk None) [(x_ek (lit "a") None, k_int None)] None). eexists _, _, _. lazy. repeat split; reflexivity. Qed.
Print Assumptions C86_whole_config_refuted.
(** C86, against the reading that a custom error of a union is always given: with one
    choice it is dropped with the union (unless auto_collapse is off). *)
Theorem C86_custom_error_refuted : exists e c, x_validator None (KUnion None None (Some e) [(c, None)]) = x_validator None c /\
  exists defs, x_validator None (KUnion None (Some false) (Some e) [(c, None)]) = Built (SUnion UnionSmart (Some e) [(SInt false None, lit "name")], defs).
Proof. exists (EOther 7), (k_int None). split; [|eexists]; lazy; reflexivity. Qed.
Print Assumptions C86_custom_error_refuted.
(** C86, against the reading that a wrong schema gives a SchemaError: these panic. *)
Theorem C86_schema_error_refuted : x_validator None (KTuple x_lk (Some 1) [KAny]) = Panics /\ x_validator None (KCustomError None KAny) = Panics.
Proof. split; lazy; reflexivity. Qed.
Print Assumptions C86_schema_error_refuted.
(** C86, against the reading that [required=True] on a field says the same as [total=True]
    on the typed dict: with a default the first is refused, the second is not. *)
Theorem C86_required_refuted : exists c, x_validator None (KTypedDict None (x_rk None) [(x_ek (lit "a") (Some true), c)] None) = SchemaError /\
  exists r, x_validator None (KTypedDict None {| rk_strict := None; rk_extra := None; rk_from_attributes := None; rk_total := Some true |} [(x_ek (lit "a") None, c)] None) = Built r.
Proof. exists (KDefault (x_hk PNone) KAny). split; [|eexists]; lazy; reflexivity. Qed.
Print Assumptions C86_required_refuted.
(** C86, against the reading that None is no setting: an [extra_behavior] of None in the
    schema hides the one in the config. *)
Theorem C86_none_refuted : exists e e' defs defs',
  x_validator (Some x_cfg) (KModelFields (x_rk None) [] None None) = Built (SModelFields e [] None None, defs) /\
  x_validator (Some x_cfg) (KModelFields (x_rk (Some None)) [] None None) = Built (SModelFields e' [] None None, defs') /\ fo_extra e = ExtraForbid /\ fo_extra e' = ExtraIgnore.
Proof. eexists _, _, _, _. lazy. repeat split; reflexivity. Qed.
Print Assumptions C86_none_refuted.
(** C86, against the reading that pickling is invisible: a function that looks at
    info.config sees an empty config before and none afterwards. *)
Theorem C86_pickled_refuted : exists c (v : pyval) (i : info) f f' defs defs',
  x_validator (Some no_config) c = Built (SPlain f None, defs) /\ x_validator None c = Built (SPlain f' None, defs') /\ f v i <> f' v i.
Proof.
  exists (KPlain (fun g _ _ => inl (PBool (match g with Some _ => true | None => false end))) None), PNone, {| in_data := None; in_field_name := None; in_mode := ITPython |}.
  eexists _, _, _, _. split; [lazy; reflexivity|]. split; [lazy; reflexivity|]. discriminate.
Qed.
Print Assumptions C86_pickled_refuted.

From Coq Require Import List NArith ZArith Bool Lia.
From Verif Require Import Base Float64 IntParse IntParseProofs Numbers NumbersSpec NumbersProofs BytesCodec Values VState LookupKey Collections Child Inputs Scalars Literal Wrappers Union TaggedUnion Tuple ModelFields TypedDict Assign Arguments Classes Interp InterpSpec InterpProofs ConformSpec ConformProofs ConformProofs2 ConformProofs3 ConformProofs4 ConformProofs5 ConformProofs6 ConformProofs7.
Import ListNotations.
Open Scope nat_scope.

Section EvalOk.
Variable E : env.
Variable defs : nat -> option schema.
Variable strings : bool.
Notation conf := (conforms E defs strings).
Notation omit := (omittable defs).
Notation dflt := (defaulted defs).
Definition good (v : cv) (sc : schema) : Prop :=
  vok strings (conf sc) (omit sc) (cv_validate v) /\ dok (conf sc) (omit sc) (dflt sc) (cv_default v).
Lemma good_nd v sc : vok strings (conf sc) (omit sc) v -> good (no_default v) sc.
Proof. intros H. split; [exact H|]. intros l s. exact I. Qed.
Lemma through sc c : In c (omit_through sc) -> omit c -> omit sc. Proof. intros A B. exact (OmThrough _ _ _ A B). Qed.
Lemma opt_some A B (f : A -> B) o : option_map f o <> None -> exists a, o = Some a. Proof. destruct o; [eauto|easy]. Qed.

Lemma eval_ok ref : (forall k, cvne (ref k)) -> (forall k, good (ref k) (SRef k)) -> forall sc, everywhere proper sc -> good (eval E ref sc) sc.
Proof.
  intros RN R. apply (schema_children_ind (fun sc => everywhere proper sc -> good (eval E ref sc) sc)).
  intros sc IH W. pose proof W as W0. destruct W as [sc PR W].
  assert (C : forall c, In c (children sc) -> good (eval E ref c) c) by auto.
  assert (CN : forall c, In c (children sc) -> cvne (eval E ref c)). { intros c Cc. apply eval_ne; [exact RN|auto]. }
  clear IH W. 
  assert (CV : forall c, In c (children sc) -> vok strings (conf c) (omit c) (cv_validate (eval E ref c))) by (intros c Cc; apply C, Cc).
  assert (CO : forall c, In c (children sc) -> (forall x, In x (children sc) -> In x (omit_through sc)) -> vok strings (conf c) (omit sc) (cv_validate (eval E ref c))).
  { intros c Cc T. apply (vok_mono strings (conf c) (conf c) (omit c)); [auto| |now apply CV]. apply through. auto. }
  destruct sc; cbn [eval children] in *; try apply good_nd.
  - eapply vok_mono; [| |apply (any_ok strings False)]; [intros v _; constructor|easy].
  - eapply vok_mono; [| |apply (none_ok strings False)]; [intros v ->; constructor|easy].
  - eapply vok_mono; [| |apply (bool_ok strings strict False)]; [intros v [b ->]; constructor|easy].
  - eapply vok_mono; [| |apply (int_ok strings _ strict c False)]; [intros v (z & -> & H); now constructor|easy].
  - eapply vok_mono; [| |apply (float_ok strings _ strict c False)]; [intros v (z & -> & H); now constructor|easy].
  - eapply vok_mono; [| |apply (str_ok strings _ _ _ _ c False)]; [intros v (z & -> & H); now constructor|easy].
  - eapply vok_mono; [| |apply (bytes_ok strings c False)]; [intros v (z & H & K); now apply (CfBytes _ _ _ _ _ z)|easy].
  - eapply vok_mono; [| |apply (literal_ok strings _ _ _ expected False)]; [intros v H; now constructor|easy].
  - eapply vok_mono; [| |apply (is_instance_ok strings _ cls False)]; [intros v (k & H & K); now apply (CfIsInstance _ _ _ _ _ k)|easy].
  - (* list *)
    eapply vok_mono; [| |apply (list_ok strings c _ validate_list (fun v => forall sc, item = Some sc -> conf sc v) (forall sc, item = Some sc -> omit sc))]; [|easy| |apply list_allowed|].
    + intros v (l & -> & H & K). constructor; [exact H|]. intros sc x -> X. cbn in K. specialize (K ltac:(discriminate)). rewrite Forall_forall in K. exact (K x X _ eq_refl).
    + intros v. destruct item as [sc|]; [|discriminate]. intros [= <-]. eapply vok_mono; [| |apply (CV sc); now left]; [intros x X s [= <-]; exact X|intros X s [= <-]; exact X].
    + intros b i. unfold validate_list, lax_sequence. nob.
  - (* set *)
    eapply vok_mono; [| |apply (set_ok strings frozen c _ _ (conf sc) (omit sc))]; [|easy|apply CV; now left| |].
    + intros v (l & -> & H & K & D). now constructor.
    + destruct frozen; [apply frozenset_allowed|apply set_allowed].
    + intros b i. destruct frozen; unfold validate_frozenset, validate_set, lax_sequence; nob.
  - (* tuple *)
    eapply vok_mono; [| |apply (tuple_ok strings (eval E ref) conf omit dflt items)]; [| | | |exact CN|reflexivity|apply tuple_allowed|].
    + intros v (slots & n & A & B & D & F & G & ->). exact (CfTuple _ _ _ c items slots n A B D F G).
    + intros (x & X & O). exact (OmThrough _ (STuple c items) x X O).
    + exact CV.
    + intros x X. apply C, X.
    + intros b i. unfold validate_tuple, lax_sequence. nob.
  - (* dict *)
    eapply vok_mono; [| |apply (dict_ok strings c _ _ _ (conf sc1) (conf sc2) (omit sc1) (omit sc2))]; [|easy|apply CV; now left|apply CV; right; now left|].
    + intros v (d & -> & H & K & D). now constructor.
    + intros b i A. now apply dict_entries_ok.
  - (* nullable *)
    eapply vok_mono; [| |apply (nullable_ok strings (conf sc) (omit (SNullable sc)))]; [|auto|apply CO; [now left|auto]].
    intros v [->|H]; [constructor|now apply CfNullSome].
  - (* default *)
    match goal with |- good (wd_cv ?n ?w) _ => pose proof (wd_ok strings n w (conf (SDefault k o validate sc)) (omit (SDefault k o validate sc))) as H end. cbn [wd_inner wd_on_error wd_validate_default wd_default_kind] in H.
    destruct H as [H1 H2].
    + eapply vok_mono; [| |apply (CO sc); [now left|auto]]; [intros v V; now apply CfDefaultInner|auto].
    + intros ->. now apply OmItself.
    + intros ->. intros v V. now apply CfDefault.
    + split; [exact H1|]. intros l s. specialize (H2 l s). destruct (fst _) as [[v|]|[]]; cbn in *; auto. destruct H2. split; [auto|]. now constructor.
  - (* chain *)
    destruct steps as [|s0 steps0] eqn:ES using rev_ind; [intros i s _; exact I|]. clear IHsteps0.
    subst steps. rewrite map_app. cbn [map].
    pose proof (chain_ok strings (map (fun sc => (cv_validate (eval E ref sc), conf sc)) steps0) (cv_validate (eval E ref s0)) (conf (SChain (steps0 ++ [s0]))) (omit (SChain (steps0 ++ [s0])))) as H.
    rewrite map_map in H. cbn [fst] in H. apply H.
    + intros w Ww. apply in_map_iff in Ww. destruct Ww as (x & <- & X). cbn. apply CO; [apply in_or_app; now left|auto].
    + eapply vok_mono; [| |apply (CO s0); [apply in_or_app; right; now left|auto]]; [intros v V; now constructor|auto].
  - (* json or python *)
    apply jop_ok; (eapply vok_mono; [|intros X; exact X|apply CO; [|auto]]; cbn; [|auto]); intros v V; [now apply CfJson|now apply CfPython].
  - (* lax or strict *)
    apply los_ok; (eapply vok_mono; [|intros X; exact X|apply CO; [|auto]]; cbn; [|auto]); intros v V; [now apply CfLax|now apply CfStrict].
  - (* custom error *)
    eapply custom_error_ok. eapply vok_mono; [|intros X; exact X|apply (CV sc); now left]. intros v V. now constructor.
  - (* before *)
    eapply vok_mono; [| |apply (before_ok strings (conf sc) (omit (SBefore f own sc))); apply CO; [now left|auto]]; [intros v V; now constructor|].
    intros [O|O]; [exact O|]. apply OmItself. exact O.
  - eapply vok_mono; [| |apply (after_ok strings (conf sc) (omit (SAfter f own sc))); apply CO; [now left|auto]]; [intros v (w & inf & V & F); exact (CfAfter _ _ _ _ _ _ _ _ _ V F)|].
    intros [O|O]; [exact O|]. apply OmItself. exact O.
  - eapply vok_mono; [| |apply (plain_ok strings f own)]; [intros v (w & inf & F); exact (CfPlain _ _ _ _ _ _ _ _ F)|]. intros O. apply OmItself. exact O.
  - eapply vok_mono; [| |apply (wrap_ok strings (conf sc) (omit sc)); apply CV; now left]; [intros v (w & inf & F); exact (CfWrap _ _ _ _ _ _ _ _ _ F)|]. intros O. apply OmItself. exact O.
  - (* union *)
    assert (F : Forall (fun c => vok strings (conf (SUnion mode custom choices)) (omit (SUnion mode custom choices)) (ch_validator c)) (map (fun cl => {| ch_validator := cv_validate (eval E ref (fst cl)); ch_label := snd cl |}) choices)).
    { apply Forall_map_in. intros [sc label] X. cbn. eapply vok_mono; [|intros O; exact O|apply CO; [|auto]].
      - intros v V. exact (CfUnion _ _ _ _ _ _ _ _ _ X V).
      - apply in_map_iff. now exists (sc, label). }
    destruct mode; [now apply smart_ok|now apply ltr_ok].
  - (* tagged *)
    apply tagged_ok. apply Forall_map_in. intros [tag sc] X. cbn. eapply vok_mono; [|intros O; exact O|apply CO; [|auto]].
    + intros v V. exact (CfTagged _ _ _ _ _ _ _ _ _ _ X V).
    + apply in_map_iff. now exists (tag, sc).
  - (* model fields *)
    eapply vok_mono; [| |apply (model_fields_ok strings (finfo * schema) (fun fi => mk_field (fst fi) (eval E ref (snd fi))) (fun fi => conf (snd fi)) (fun fi => omit (snd fi)) _ _
      (fun v => forall sc, extras = Some sc -> conf sc v) (fun v => forall sc, extras_keys = Some sc -> conf sc v) (forall sc, extras = Some sc -> omit sc) (forall sc, extras_keys = Some sc -> omit sc) fields)]; [| | |reflexivity| | | | |].
    + intros v (d & x & fs & -> & D1 & D2 & D3 & D4 & D5 & D6). cbn in D2, D3, D4, D5. apply CfModelFields; auto.
      * intros k v J. destruct (D2 _ _ J) as ([f sc] & A & B & G). exists f, sc. auto.
      * intros f sc J. exact (D3 _ J).
      * intros EX. destruct (D5 EX) as (e & -> & E1 & E2). exists e. split; [reflexivity|]. split; [exact E1|]. intros k v J. destruct (E2 _ _ J) as (n & -> & E3 & E4). exists n. split; [reflexivity|]. split.
        -- intros sc Q. apply (E3); [now rewrite Q|exact Q].
        -- intros sc Q. destruct E4 as (w & A & B); [now rewrite Q|]. exists w. auto.
    + cbn. intros [[NS O]|[NS O]]; apply opt_some in NS; destruct NS as [sc NS]; subst; apply (OmThrough _ _ sc); [cbn; now left|auto|cbn; apply in_or_app; right; now left|auto].
    + intros [f sc] X. cbn. assert (J : In sc (map snd fields ++ opt_list extras ++ opt_list extras_keys)) by (apply in_or_app; left; apply in_map_iff; now exists (f, sc)).
      split; [exact (CV _ J)|]. split; [exists (dflt sc); apply (C _ J)|exact (CN _ J)].
    + cbn. intros v. destruct extras as [sc|]; [|discriminate]. intros [= <-]. eapply vok_mono; [| |apply (CV sc), in_or_app; right; now left]; [intros x X s [= <-]; exact X|intros X s [= <-]; exact X].
    + cbn. intros v. destruct extras_keys as [sc|]; [|discriminate]. intros [= <-]. eapply vok_mono; [| |apply (CV sc), in_or_app; right; apply in_or_app; right; now left]; [intros x X s [= <-]; exact X|intros X s [= <-]; exact X].
    + intros a b i md A V. exact (validate_mf_ok strings _ _ _ _ _ _ A V).
    + intros. apply validate_mf_no.
    + intros. eapply validate_mf_md; eassumption.
  - (* typed dict *)
    eapply vok_mono; [| |apply (typed_dict_ok strings (finfo * schema) (fun fi => mk_field (fst fi) (eval E ref (snd fi))) (fun fi => conf (snd fi)) (fun fi => omit (snd fi)) _
      (fun v => forall sc, extras = Some sc -> conf sc v) (forall sc, extras = Some sc -> omit sc) fields)]; [| | | |reflexivity| | |].
    + intros v (d & -> & D1 & D2 & D3). apply CfTypedDict; auto.
      * intros k v J. destruct (D2 _ _ J) as [([f sc] & A & B & G)|(A & B & G & K)]; [left; exists f, sc; auto|right]. cbn in A, G, K. split; [exact A|]. split; [exact B|]. split.
        -- intros sc Q. apply G; [now rewrite Q|exact Q].
        -- intros ST f sc X. exact (K ST (f, sc) X).
      * intros ST f sc J. exact (D3 ST _ J).
    + cbn. intros [NS O]. apply opt_some in NS; destruct NS as [sc NS]; subst. apply (OmThrough _ _ sc); [cbn; now left|auto].
    + cbn. intros v. destruct extras as [sc|]; [|discriminate]. intros [= <-]. eapply vok_mono; [| |apply (CV sc), in_or_app; right; now left]; [intros x X s [= <-]; exact X|intros X s [= <-]; exact X].
    + intros [f sc] X. cbn. assert (J : In sc (map snd fields ++ opt_list extras)) by (apply in_or_app; left; apply in_map_iff; now exists (f, sc)).
      split; [exact (CV _ J)|]. split; [exists (dflt sc); apply (C _ J)|exact (CN _ J)].
    + intros b i md A V. exact (validate_dict_ok strings _ _ _ _ A V).
    + intros. apply validate_dict_no.
    + intros. eapply validate_dict_md; eassumption.
  - (* arguments *)
    eapply vok_mono; [| |apply (arguments_ok strings (pinfo * schema) (fun p => mk_param (fst p) (eval E ref (snd p))) (fun p => conf (snd p)) (fun p => omit (snd p)) _
      (fun v => forall sc, var_args = Some sc -> conf sc v) (fun v => forall sc, var_kwargs = Some sc -> conf sc v) (forall sc, var_args = Some sc -> omit sc) (forall sc, var_kwargs = Some sc -> omit sc)) with (xs := params)]; [| | | | |reflexivity| |].
    + intros v (bs & rest & kw & -> & B1 & B2 & B3 & B4 & B5 & B6). cbn in B2, B3, B5, B6. unfold positionals. apply CfArguments with (binds := bs); auto.
      * intros p sc b v J. exact (B2 _ _ _ J).
      * intros x X. destruct (B3 x X) as [NS Q]. apply opt_some in NS; destruct NS as [sc NS]. exists sc. auto.
      * intros k v J. destruct (B5 _ _ J) as [([p sc] & A & B)|[(A & B & NS & Q)|(A & NS & w & d & k' & Q & AD & I1 & I2)]]; [left; exists p, sc; auto| |]; right; [left|right]; apply opt_some in NS; destruct NS as [sc NS].
        -- split; [exact A|]. split; [exact B|]. exists sc. auto.
        -- split; [exact A|]. exists sc, w, d, k'. auto.
      * intros p sc v J. exact (B6 _ _ J).
    + cbn. intros [([p sc] & X & O)|[[NS O]|[NS O]]].
      * apply (OmThrough _ _ sc); [cbn; apply in_or_app; left; apply in_map_iff; now exists (p, sc)|exact O].
      * apply opt_some in NS; destruct NS as [sc NS]; subst. apply (OmThrough _ _ sc); [cbn; apply in_or_app; right; now left|auto].
      * apply opt_some in NS; destruct NS as [sc NS]; subst. apply (OmThrough _ _ sc); [cbn; apply in_or_app; right; apply in_or_app; right; now left|auto].
    + cbn. intros v. destruct var_args as [sc|]; [|discriminate]. intros [= <-]. eapply vok_mono; [| |apply (CV sc), in_or_app; right; now left]; [intros x X s [= <-]; exact X|intros X s [= <-]; exact X].
    + cbn. intros v. destruct var_kwargs as [sc|]; [|discriminate]. intros [= <-]. eapply vok_mono; [| |apply (CV sc), in_or_app; right; apply in_or_app; right; now left]; [intros x X s [= <-]; exact X|intros X s [= <-]; exact X].
    + intros [f sc] X. cbn. assert (J : In sc (map snd params ++ opt_list var_args ++ opt_list var_kwargs)) by (apply in_or_app; left; apply in_map_iff; now exists (f, sc)).
      split; [exact (CV _ J)|]. split; [exists (dflt sc); apply (C _ J)|exact (CN _ J)].
    + intros i a A V. exact (validate_args_ok strings _ _ _ A V).
    + intros. apply validate_args_no.
  - (* dataclass arguments *)
    eapply vok_mono; [| |apply (dataclass_args_ok strings (dinfo * schema) (fun p => mk_dcf (fst p) (eval E ref (snd p))) (fun p => conf (snd p)) (fun p => omit (snd p)) _
      (fun v => forall sc, extras = Some sc -> conf sc v) (forall sc, extras = Some sc -> omit sc)) with (xs := fields)]; [| | | |reflexivity| |].
    + intros v (d & x & -> & D1 & D2 & D3 & D4 & D5). cbn in D2, D3, D4, D5. apply CfDataclassArgs; auto.
      * intros k v J. destruct (D2 _ _ J) as [([f sc] & A & B & G & K)|(A & B & G)]; [left; exists f, sc; auto|right]. split; [exact A|]. split; [exact B|]. intros sc Q. apply G; [now rewrite Q|exact Q].
      * intros f sc J. exact (D3 _ J).
      * intros Q. destruct (D5 Q) as (l & -> & L). exists l. split; [reflexivity|]. intros v V. destruct (L v V) as ([f sc] & A & B & G). exists f, sc. auto.
    + cbn. intros [([p sc] & X & O)|[NS O]].
      * apply (OmThrough _ _ sc); [cbn; apply in_or_app; left; apply in_map_iff; now exists (p, sc)|exact O].
      * apply opt_some in NS; destruct NS as [sc NS]; subst. apply (OmThrough _ _ sc); [cbn; apply in_or_app; right; now left|auto].
    + cbn. intros v. destruct extras as [sc|]; [|discriminate]. intros [= <-]. eapply vok_mono; [| |apply (CV sc), in_or_app; right; now left]; [intros x X s [= <-]; exact X|intros X s [= <-]; exact X].
    + intros [f sc] X. cbn. assert (J : In sc (map snd fields ++ opt_list extras)) by (apply in_or_app; left; apply in_map_iff; now exists (f, sc)).
      split; [exact (CV _ J)|]. split; [exists (dflt sc); apply (C _ J)|exact (CN _ J)].
    + intros i a A V. exact (validate_dargs_ok strings _ _ _ A V).
    + intros. apply validate_dargs_no.
  - (* model *)
    eapply vok_mono; [| |apply (model_ok strings (e_subclass E) c (conf sc) (omit (SModel c sc))); apply CO; [now left|auto]].
    + intros v [(k & A & B & G)|[(f & kw & A & B)|[(A & d & x & fs & fs' & B & G)|(A & out & fs & B & G)]]].
      * exact (CfModelInstance _ _ _ _ _ _ _ A B G).
      * exact (CfModelInit _ _ _ _ _ _ _ _ A B).
      * exact (CfModelBuilt _ _ _ _ _ _ _ _ _ _ A B G).
      * exact (CfModelRoot _ _ _ _ _ _ _ _ A B G).
    + intros [O|O]; [exact O|]. apply OmItself. exact O.
  - eapply vok_mono; [| |apply (dataclass_ok strings (e_subclass E) c (conf sc) (omit (SDataclass c sc))); apply CO; [now left|auto]].
    + intros v [(k & A & B & G)|(dv & x & d & A & B & G)].
      * exact (CfDataclassInstance _ _ _ _ _ _ _ A B G).
      * exact (CfDataclassBuilt _ _ _ _ _ _ _ _ _ A B G).
    + intros [O|O]; [exact O|]. apply OmItself. exact O.
  - apply R.
Qed.

Hypothesis D : forall k d, defs k = Some d -> everywhere proper d.
Lemma refs_ok : forall fuel depth k, good (refs E defs fuel depth k) (SRef k).
Proof.
  induction fuel as [|fuel IH]; intros depth k; cbn [refs]; [split; intros ? ?; intros; exact I|].
  destruct (defs k) as [sc|] eqn:K; [|split; intros ? ?; intros; exact I].
  assert (V : forall d, good (eval E (refs E defs fuel d) sc) sc) by (intros d; apply eval_ok; [intros; now apply refs_ne|apply IH|exact (D _ _ K)]).
  assert (V' : forall d i s, allowed strings i -> vk (conf (SRef k)) (omit (SRef k)) (fst (cv_validate (eval E (refs E defs fuel d) sc) i s))).
  { intros d i s A. eapply vok_mono; [| |apply (V d)|exact A]; [intros v X; exact (CfRef _ _ _ _ _ _ K X)|intros X; exact (OmRef _ _ _ K X)]. }
  split.
  - intros i s A. cbn [cv_validate]. destruct i; try (destruct (_ <=? _); [exact I|]); now apply V'.
  - intros l s. cbn [cv_default]. destruct (V depth) as [_ V2]. specialize (V2 l s). destruct (fst _) as [[v|]|[]]; cbn in *; auto.
    + destruct V2 as [A B]. split; [exact (CfRef _ _ _ _ _ _ K A)|exact (DfRef _ _ _ K B)].
    + exact (OmRef _ _ _ K V2).
Qed.
Lemma run_ok fuel sc : everywhere proper sc -> vok strings (conf sc) (omit sc) (run E defs fuel sc).
Proof. intros W. apply (eval_ok (refs E defs fuel 0)); [intros; now apply refs_ne|apply refs_ok|exact W]. Qed.
End EvalOk.

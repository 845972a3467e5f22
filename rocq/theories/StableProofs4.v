From Coq Require Import List NArith ZArith Bool Lia.
From Verif Require Import Base Float64 IntParse IntParseProofs Numbers NumbersSpec NumbersProofs BytesCodec Values VState LookupKey Collections Child Inputs Scalars Literal LiteralSpec LiteralProps Wrappers Union TaggedUnion Tuple ModelFields TypedDict Assign Arguments Classes Interp InterpSpec InterpProofs ConformSpec ConformProofs ConformProofs2 ConformProofs3 ConformProofs4 ConformProofs5 ConformProofs6 ConformProofs7 ConformProofs8 StableSpec StableProofs StableProofs2 StableProofs3.
Import ListNotations.
Open Scope nat_scope.

(** ** Wrappers *)
Definition nu (v : validator) : Prop := forall i s w s', allowed false i -> is_undefined i = false -> v i s = (VOk w, s') -> w <> py_undefined.
Lemma undefined_py v : is_undefined (IPy v) = false <-> v <> py_undefined.
Proof. unfold py_undefined. split; [intros H ->; discriminate|]. destruct v as [| | | | | | | | | | |[|c] [|a l]|]; try reflexivity. easy. Qed.
Lemma object_undefined i : allowed false i -> is_undefined i = false -> input_object i <> py_undefined.
Proof. destruct i as [v|j|t|]; cbn [allowed input_object]; intros A U; try discriminate; [now apply undefined_py|]. destruct j; discriminate. Qed.

Definition shield (v : validator) : validator := fun i s => if is_undefined i then (VErr Panic, s) else v i s.
Lemma shield_wd n k o vd v i s :
  wd_validate n {| wd_default_kind := k; wd_on_error := o; wd_inner := shield v; wd_validate_default := vd |} i s =
  wd_validate n {| wd_default_kind := k; wd_on_error := o; wd_inner := v; wd_validate_default := vd |} i s.
Proof.
  revert i s. induction n as [|n IH]; intros i s; [reflexivity|]. cbn [wd_validate wd_inner wd_on_error]. unfold default_value. cbn [wd_default_kind wd_validate_default].
  assert (U : forall e s0, match (match stored_default k (x_data (st_extra s0)) with
      | VErr e => Some (VErr e, s0) | VOk None => Some (VOk None, s0)
      | VOk (Some dft) => if vd then match wd_validate n {| wd_default_kind := k; wd_on_error := o; wd_inner := shield v; wd_validate_default := vd |} (IPy dft) s0 with
        | None => None | Some (VOk v, s') => Some (VOk (Some v), s') | Some (VErr e, s') => Some (VErr e, s') end else Some (VOk (Some dft), s0) end) with
      | None => None | Some (VErr e', s') => Some (VErr e', s') | Some (VOk (Some v), s') => Some (VOk v, s') | Some (VOk None, s') => Some (VErr e, s') end =
     match (match stored_default k (x_data (st_extra s0)) with
      | VErr e => Some (VErr e, s0) | VOk None => Some (VOk None, s0)
      | VOk (Some dft) => if vd then match wd_validate n {| wd_default_kind := k; wd_on_error := o; wd_inner := v; wd_validate_default := vd |} (IPy dft) s0 with
        | None => None | Some (VOk v, s') => Some (VOk (Some v), s') | Some (VErr e, s') => Some (VErr e, s') end else Some (VOk (Some dft), s0) end) with
      | None => None | Some (VErr e', s') => Some (VErr e', s') | Some (VOk (Some v), s') => Some (VOk v, s') | Some (VOk None, s') => Some (VErr e, s') end).
  { intros e s0. destruct (stored_default _ _) as [[d|]|]; [|reflexivity|reflexivity]. destruct vd; [|reflexivity]. now rewrite IH. }
  destruct (is_undefined i) eqn:UI; [apply U|]. unfold shield at 1. rewrite UI. destruct (v i s) as [[w|[es| | | |]] s1]; try reflexivity; try (destruct o; try reflexivity; apply U).
Qed.
Lemma shield_default n k o vd v l s :
  default_value (wd_validate n {| wd_default_kind := k; wd_on_error := o; wd_inner := shield v; wd_validate_default := vd |}) {| wd_default_kind := k; wd_on_error := o; wd_inner := shield v; wd_validate_default := vd |} l s =
  default_value (wd_validate n {| wd_default_kind := k; wd_on_error := o; wd_inner := v; wd_validate_default := vd |}) {| wd_default_kind := k; wd_on_error := o; wd_inner := v; wd_validate_default := vd |} l s.
Proof. unfold default_value. cbn [wd_default_kind wd_validate_default]. destruct (stored_default _ _) as [[d|]|]; try reflexivity. destruct vd; [|reflexivity]. now rewrite shield_wd. Qed.

Lemma wd_stays lim n k o vd v x : x <> py_undefined -> fixes lim v x -> (o = OnRaise \/ lim = false) ->
  fixes lim (cv_validate (wd_cv (S n) {| wd_default_kind := k; wd_on_error := o; wd_inner := v; wd_validate_default := vd |})) x.
Proof.
  intros U F O s C. cbn [wd_cv cv_validate wd_validate wd_inner wd_on_error]. apply undefined_py in U. rewrite U. destruct (F s C) as [C' R]. destruct (v (IPy x) s) as [r s']. cbn in C', R.
  destruct R as [->|(L & e & -> & l & -> & B)]; [split; [exact C'|now left]|]. destruct O as [->|O]; [|congruence]. split; [exact C'|right]. split; [exact L|]. eexists. split; [reflexivity|]. now exists l.
Qed.
Lemma nullable_stays lim v x : x = PNone \/ fixes lim v x -> fixes lim (nullable v) x.
Proof. intros H s C. unfold nullable. destruct (is_none_input (IPy x)) eqn:N; [destruct x; try discriminate; split; [exact C|now left]|]. destruct H as [->|H]; [discriminate|]. now apply H. Qed.
Lemma custom_stays t v x lim : fixes false v x -> fixes lim (custom_error t v) x.
Proof. intros F s C. unfold custom_error. destruct (F s C) as [C' R]. destruct (v (IPy x) s) as [r s']. cbn in C', R. destruct R as [->|[L _]]; [|discriminate]. split; [exact C'|now left]. Qed.

Lemma construct_defined c inner i ex s w s' : mo_custom_init c = None -> mo_post_init c = None -> model_construct c inner i ex s = (VOk w, s') -> w <> py_undefined.
Proof.
  intros CI PI. unfold model_construct. rewrite CI, PI. destruct (mo_root c).
  - destruct (rebind _ _ _) as [[out|] s1]; [|discriminate]. intros [= <- _]. discriminate.
  - destruct (inner i s) as [[out|] s1]; [|discriminate]. intros H. destruct (build_model c ex out) as [inst|] eqn:B; [|discriminate]. injection H as <- _.
    unfold build_model in B. destruct out as [| | | | | | |[|d [|x [|fs [|]]]]| | | | |]; try discriminate. injection B as <-. discriminate.
Qed.
Lemma model_nu sub c inner : mo_revalidate c = RNever -> mo_custom_init c = None -> mo_post_init c = None -> nu (model_validate sub c inner).
Proof.
  intros RV CI PI i s w s' A U. unfold model_validate. rewrite RV. cbn [should_revalidate orb]. destruct (instance_input _ _ _ _) as [[v force]|] eqn:II; [|now apply construct_defined].
  destruct force.
  - destruct (inst_attr _ _); [|discriminate]. destruct (model_data _ _); [|discriminate]. now apply construct_defined.
  - intros [= <- _]. unfold instance_input in II. destruct i as [x| | |]; try discriminate. apply undefined_py in U.
    destruct (is_instance sub x (mo_cls c)); [injection II as <-; exact U|]. destruct (mo_origin c); [|discriminate]. destruct (is_instance sub x n); congruence.
Qed.
Lemma dataclass_nu sub c inner : da_revalidate c = RNever -> da_post_init c = None -> da_cls c <> 0%N -> nu (dataclass_validate sub c inner).
Proof.
  intros RV PI NZ i s w s' A U. unfold dataclass_validate. rewrite RV. cbn [should_revalidate orb].
  assert (K : forall out i, set_dict_call c out i = VOk w -> w <> py_undefined).
  { intros out i0. unfold set_dict_call. rewrite PI. destruct out as [| | | | | | |[|d [|x [|]]]| | | | |]; try discriminate. destruct (as_dict d); [|discriminate]. intros [= <-] [= Q _]. contradiction. }
  destruct (instance_input _ _ _ _) as [[v force]|] eqn:II.
  - destruct force.
    + destruct (inst_to_dict _ _ _); [|discriminate]. destruct (inner _ s) as [[out|] s1]; [|discriminate]. intros [= H _]. exact (K _ _ H).
    + intros [= <- _]. unfold instance_input in II. destruct i as [x| | |]; try discriminate. apply undefined_py in U.
      destruct (is_instance sub x (da_cls c)); [injection II as <-; exact U|]. destruct (da_origin c); [|discriminate]. destruct (is_instance sub x n); congruence.
  - destruct (_ && _); [discriminate|]. destruct (inner i s) as [[out|] s1]; [|discriminate]. intros [= H _]. exact (K _ _ H).
Qed.

(** ** Schemas *)
Section EvalStays.
Variable E : env.
Variable defs : nat -> option schema.
Variable named : nat -> Prop.
Hypothesis WF : e_wd_fuel E <> 0.
Hypothesis D : forall k d, defs k = Some d -> everywhere proper d.
Notation omit := (omittable defs).
Notation dflt := (defaulted defs).
Definition stays (sc : schema) (x : pyval) : Prop :=
  forall fuel depth, depth <= guard_limit -> guard_limit < fuel + depth -> fixes (has_ref sc) (cv_validate (eval E (refs E defs fuel depth) sc)) x.
Definition firm (v : cv) (sc : schema) : Prop :=
  vok false (stays sc) (omit sc) (cv_validate v) /\ dok (stays sc) (omit sc) (dflt sc) (cv_default v) /\ nu (cv_validate v).

Lemma vok_more strings (P Q : pyval -> Prop) O v : vok strings P O v -> (forall i s w s', allowed strings i -> v i s = (VOk w, s') -> P w -> Q w) -> vok strings Q O v.
Proof. intros H K i s A. specialize (H i s A). destruct (v i s) as [[w|e] s'] eqn:R; cbn in *; [|exact H]. exact (K _ _ _ _ A R H). Qed.
Lemma firm_nd v sc : vok false (stays sc) (omit sc) v -> nu v -> firm (no_default v) sc.
Proof. intros H N. split; [exact H|]. split; [|exact N]. intros l s. exact I. Qed.
Lemma nu_conf v sc (Q : pyval -> Prop) : vok false Q (omit sc) v -> (forall x, Q x -> x <> py_undefined) -> nu v.
Proof. intros H K i s w s' A _ R. apply K. specialize (H i s A). now rewrite R in H. Qed.
Lemma slots_values slots : (forall sc, In (sc, None) slots -> False) -> (forall sc v, In (sc, Some v) slots -> stays sc v) ->
  Forall2 stays (map fst slots) (somes (map snd slots)).
Proof.
  induction slots as [|[sc [v|]] slots IH]; intros A B; cbn; [constructor| |].
  - constructor; [apply B; now left|]. apply IH; intros; [eapply A|apply B]; right; eassumption.
  - destruct (A sc (or_introl eq_refl)).
Qed.

Lemma field_default sc ref l s : without_default sc -> cv_default (eval E ref sc) l s = (VOk None, s).
Proof. destruct sc; cbn [without_default]; try reflexivity; [|easy]. intros ->. reflexivity. Qed.
Lemma existsb_in A (f : A -> bool) l x : In x l -> f x = true -> existsb f l = true.
Proof. intros J F. apply existsb_exists. now exists x. Qed.
Lemma in_firstn A k (l : list A) x : In x (firstn k l) -> In x l.
Proof. intros J. rewrite <- (firstn_skipn k l). apply in_or_app. now left. Qed.
Lemma in_skipn A k (l : list A) x : In x (skipn k l) -> In x l.
Proof. intros J. rewrite <- (firstn_skipn k l). apply in_or_app. now right. Qed.
Lemma expanded_in sc items v n : In sc (expanded items v n) -> In sc items.
Proof.
  unfold expanded. destruct v as [k|]; [|auto]. intros J. apply in_app_or in J. destruct J as [J|J]; [now apply in_firstn in J|].
  apply in_app_or in J. destruct J as [J|J]; [|now apply in_skipn in J]. destruct (nth_error items k) eqn:N; [|contradiction]. apply repeat_spec in J. subst. now apply nth_error_In in N.
Qed.
Lemma F2_impl_in A B (R S : A -> B -> Prop) l m : (forall a b, In a l -> R a b -> S a b) -> Forall2 R l m -> Forall2 S l m.
Proof. intros H. induction 1; constructor; [apply H; [now left|assumption]|]. apply IHForall2. intros; apply H; [now right|assumption]. Qed.

Lemma eval_firm ref : (forall k, cvne (ref k)) -> (forall k, good E defs false (ref k) (SRef k)) -> (forall k, named k -> firm (ref k) (SRef k)) ->
  forall sc, everywhere proper sc -> stable E defs named sc -> firm (eval E ref sc) sc.
Proof.
  intros RN RG R. apply (schema_children_ind (fun sc => everywhere proper sc -> stable E defs named sc -> firm (eval E ref sc) sc)).
  intros sc IH W S. pose proof (eval_ok E defs false ref RN RG sc W) as [GV _]. pose proof (eval_ne E ref RN) as CN. destruct W as [sc PR W].
  assert (C : forall c, In c (children sc) -> stable E defs named c -> firm (eval E ref c) c) by auto.
  assert (GC : forall c, In c (children sc) -> good E defs false (eval E ref c) c) by (intros; apply eval_ok; auto).
  assert (CN' : forall c, In c (children sc) -> cvne (eval E ref c)) by auto. clear IH W CN.
  destruct S as [| | st | st c | st c | c L U | c | l T NO | cls | c | c sc S | fz c sc S | c items S VR MX | c k v S1 S2 | sc S | t sc S HR | k o vd sc S OR DV | c sc RV CI PI SR | c sc RV PI SR NZ | c fields ex S ND SE SEL | k NK].
  - apply firm_nd; [|intros i s w s' A U [= <- _]; now apply object_undefined]. eapply vok_more; [exact GV|]. intros i s w s' A _ _ fuel depth _ _. apply any_stays.
  - apply firm_nd; [|eapply nu_conf; [exact GV|]; intros x X; inversion X; discriminate]. eapply vok_more; [exact GV|]. intros i s w s' A H _ fuel depth _ _. eapply none_stays, H.
  - apply firm_nd; [|eapply nu_conf; [exact GV|]; intros x X; inversion X; discriminate]. eapply vok_more; [exact GV|]. intros i s w s' A H _ fuel depth _ _. eapply bool_stays, H.
  - apply firm_nd; [|eapply nu_conf; [exact GV|]; intros x X; inversion X; discriminate]. eapply vok_more; [exact GV|]. intros i s w s' A H _ fuel depth _ _. eapply int_stays, H.
  - apply firm_nd; [|eapply nu_conf; [exact GV|]; intros x X; inversion X; discriminate]. eapply vok_more; [exact GV|]. intros i s w s' A H _ fuel depth _ _. eapply float_stays, H.
  - apply firm_nd; [|eapply nu_conf; [exact GV|]; intros x X; inversion X; discriminate]. eapply vok_more; [exact GV|]. intros i s w s' A H _ fuel depth _ _. eapply str_stays; [exact L|exact U|exact H].
  - apply firm_nd; [|eapply nu_conf; [exact GV|]; intros x X; inversion X; subst; intros ->; discriminate]. eapply vok_more; [exact GV|]. intros i s w s' A H _ fuel depth _ _. eapply bytes_stays, H.
  - apply firm_nd; [|eapply nu_conf; [exact GV|]; intros x X; inversion X; subst; intros ->; now apply (T py_undefined)]. eapply vok_more; [exact GV|]. intros i s w s' A H X fuel depth _ _. inversion X; subst. now apply literal_stays.
  - apply firm_nd.
    + eapply vok_more; [exact GV|]. intros i s w s' A H _ fuel depth _ _. eapply is_instance_stays, H.
    + intros i s w s' A U H. cbn in H. unfold is_instance_validate in H. destruct i as [x| | |]; try discriminate. destruct (is_instance _ _ _); [|discriminate]. injection H as <- _. now apply undefined_py.
  - apply firm_nd; [|eapply nu_conf; [exact GV|]; intros x X; inversion X; discriminate]. eapply vok_more; [exact GV|]. intros i s w s' A H X fuel depth _ _. inversion X; subst. apply list_stays; [assumption|discriminate].
  - (* list *)
    apply firm_nd; [|eapply nu_conf; [exact GV|]; intros x X; inversion X; discriminate].
    eapply vok_mono; [| |apply (list_ok false c (Some (cv_validate (eval E ref sc))) validate_list (stays sc) (omit sc))]; [|easy| |apply list_allowed|].
    + intros v (l & -> & H & K) fuel depth B1 B2. specialize (K ltac:(discriminate)). rewrite Forall_forall in K. apply list_stays; [exact H|]. intros v x [= <-] X. exact (K x X fuel depth B1 B2).
    + intros v [= <-]. apply C; [now left|exact S].
    + intros b i. unfold validate_list, lax_sequence. nob.
  - (* set *)
    apply firm_nd; [|eapply nu_conf; [exact GV|]; intros x X; inversion X; destruct fz; discriminate].
    eapply vok_mono; [| |apply (set_ok false fz c _ _ (stays sc) (omit sc))]; [|easy|apply C; [now left|exact S]| |].
    + intros v (l & -> & H & K & DI) fuel depth B1 B2. apply set_stays; [exact H| |exact DI]. intros x X. destruct (K x X) as [K1 K2]. split; [exact K1|]. now apply K2.
    + destruct fz; [apply frozenset_allowed|apply set_allowed].
    + intros b i. destruct fz; unfold validate_frozenset, validate_set, lax_sequence; nob.
  - (* tuple *)
    apply firm_nd; [|eapply nu_conf; [exact GV|]; intros x X; inversion X; discriminate].
    eapply vok_mono; [| |apply (tuple_ok false (eval E ref) stays omit dflt items)]; [| | | |exact CN'|reflexivity|apply tuple_allowed|].
    + intros v (slots & n & A & B & O & F & G & ->) fuel depth B1 B2. cbn [eval no_default cv_validate]. cbn [mk_tuple tu_variadic tu_min tu_max] in A, F, G.
      assert (IN : forall sc o, In (sc, o) slots -> In sc items). { intros sc o J. apply (expanded_in sc items (tn_variadic c) n). rewrite <- A. apply in_map_iff. now exists (sc, o). }
      apply tuple_stays with (ev := eval E (refs E defs fuel depth)) (xs := items) (n := n).
      * reflexivity.
      * exact VR.
      * cbn [mk_tuple tu_variadic]. rewrite <- A. eapply F2_impl_in; [|apply slots_values; [intros sc J; apply (S sc); [exact (IN _ _ J)|exact (O _ J)]|exact B]].
        intros sc x J H. eapply fixes_mono; [|apply H; assumption]. intros HR. cbn [has_ref]. apply (existsb_in _ _ _ sc); [|exact HR]. rewrite A in J. now apply expanded_in in J.
      * intros m M. exact (F m M).
      * intros m M. cbn in M. destruct MX as [MX|MX]; [congruence|]. apply (G m M). exact MX.
    + intros (x & X & O). exact (OmThrough _ (STuple c items) x X O).
    + intros x X. apply C; [exact X|]. now apply S.
    + intros x X. apply C; [exact X|]. now apply S.
    + intros b i. unfold validate_tuple, lax_sequence. nob.
  - (* dict *)
    apply firm_nd; [|eapply nu_conf; [exact GV|]; intros x X; inversion X; discriminate].
    eapply vok_mono; [| |apply (dict_ok false c _ _ _ (stays k) (stays v) (omit k) (omit v))]; [|easy|apply C; [now left|exact S1]|apply C; [right; now left|exact S2]|].
    + intros x (d & -> & H & K & DI) fuel depth B1 B2. apply dict_stays; [exact H| |exact DI]. intros a b J. destruct (K a b J) as (K1 & K2 & K3). split; [exact K1|].
      split; (eapply fixes_mono; [|first [apply K2 | apply K3]; assumption]); cbn [has_ref]; intros ->; [reflexivity|apply orb_true_r].
    + intros b i A. now apply dict_entries_ok.
  - (* nullable *)
    destruct (C sc (or_introl eq_refl) S) as (V1 & _ & V2). apply firm_nd.
    + eapply vok_mono; [| |apply (nullable_ok false (stays sc) (omit sc)); exact V1]; [|intros O; exact (OmThrough _ (SNullable sc) sc (or_introl eq_refl) O)].
      intros x X fuel depth B1 B2. apply nullable_stays. destruct X as [X|X]; [now left|right]. now apply X.
    + intros i s w s' A U H. unfold nullable in H. destruct (is_none_input i); [injection H as <- _; discriminate|]. exact (V2 _ _ _ _ A U H).
  - (* custom error *)
    destruct (C sc (or_introl eq_refl) S) as (V1 & _ & V2). apply firm_nd.
    + apply custom_error_ok with (O := omit sc). eapply vok_mono; [|intros O; exact O|exact V1]. intros x X fuel depth B1 B2. apply custom_stays. rewrite <- HR. now apply X.
    + intros i s w s' A U H. unfold custom_error in H. destruct (cv_validate _ i s) as [[x|[]] s1] eqn:Q; try discriminate. injection H as <- _. exact (V2 _ _ _ _ A U Q).
  - (* default *)
    destruct (C sc (or_introl eq_refl) S) as (V1 & _ & V2). cbn [eval]. set (inner := cv_validate (eval E ref sc)) in *.
    pose proof (wd_ok false (e_wd_fuel E) {| wd_default_kind := k; wd_on_error := o; wd_inner := shield inner; wd_validate_default := vd |} (fun x => stays (SDefault k o vd sc) x /\ x <> py_undefined) (omit (SDefault k o vd sc))) as H.
    cbn [wd_inner wd_on_error wd_validate_default wd_default_kind] in H.
    assert (ST : forall x, stays sc x -> x <> py_undefined -> stays (SDefault k o vd sc) x).
    { intros x X NU fuel depth B1 B2. cbn [eval has_ref]. destruct (e_wd_fuel E) as [|n] eqn:EW; [now destruct WF|]. apply wd_stays; [exact NU|now apply X|exact OR]. }
    destruct H as [H1 H2].
    + intros i s A. unfold shield. destruct (is_undefined i) eqn:U; [exact I|]. specialize (V1 i s A). destruct (inner i s) as [[x|e] s1] eqn:Q; cbn in V1 |- *.
      * pose proof (V2 _ _ _ _ A U Q) as NU. split; [now apply ST|exact NU].
      * destruct e; try exact I. intros _. exact (OmThrough _ (SDefault k o vd sc) sc (or_introl eq_refl) V1).
    + intros ->. now apply OmItself.
    + intros -> x X. destruct (DV eq_refl x X) as [RS NU]. split; [|exact NU]. apply ST; [|exact NU]. intros fuel depth _ _. apply fixes_ok. intros s Cs. exact (RS _ s Cs).
    + assert (W1 : forall i s, cv_validate (wd_cv (e_wd_fuel E) {| wd_default_kind := k; wd_on_error := o; wd_inner := shield inner; wd_validate_default := vd |}) i s = cv_validate (wd_cv (e_wd_fuel E) {| wd_default_kind := k; wd_on_error := o; wd_inner := inner; wd_validate_default := vd |}) i s) by (intros; cbn [wd_cv cv_validate]; now rewrite shield_wd).
      assert (W2 : forall l s, cv_default (wd_cv (e_wd_fuel E) {| wd_default_kind := k; wd_on_error := o; wd_inner := shield inner; wd_validate_default := vd |}) l s = cv_default (wd_cv (e_wd_fuel E) {| wd_default_kind := k; wd_on_error := o; wd_inner := inner; wd_validate_default := vd |}) l s) by (intros; cbn [wd_cv cv_default]; now rewrite shield_default).
      split; [|split].
      * intros i s A. specialize (H1 i s A). rewrite W1 in H1. destruct (fst _) as [x|[]]; cbn in *; try exact I; [apply H1|exact H1].
      * intros l s. specialize (H2 l s). rewrite W2 in H2. destruct (fst _) as [[x|]|[]]; cbn in *; try exact I; [|exact H2]. destruct H2 as [[H2 _] H3]. split; [exact H2|now constructor].
      * intros i s w s' A U Q. specialize (H1 i s A). rewrite W1, Q in H1. apply H1.
  - (* model *)
    assert (MV : forall x, conforms E defs false (SModel c sc) x -> is_instance (e_subclass E) x (mo_cls c) = true).
    { intros x X. inversion X; subst; try congruence.
      - match goal with J : class_of x = _ |- _ => unfold is_instance; rewrite J; assumption end.
      - match goal with J : after_init _ _ x |- _ => rewrite PI in J; cbn in J; subst x end. exact SR.
      - match goal with J : after_init _ _ x |- _ => rewrite PI in J; cbn in J; subst x end. exact SR. }
    apply firm_nd.
    + eapply vok_more; [exact GV|]. intros i s w s' A _ X fuel depth _ _. apply instance_model_stays; [exact RV|now apply MV].
    + now apply model_nu.
  - (* dataclass *)
    assert (MV : forall x, conforms E defs false (SDataclass c sc) x -> is_instance (e_subclass E) x (da_cls c) = true).
    { intros x X. inversion X; subst; try congruence.
      - match goal with J : class_of x = _ |- _ => unfold is_instance; rewrite J; assumption end.
      - match goal with J : context [da_post_init c] |- _ => rewrite PI in J; cbn in J; subst x end. exact SR. }
    apply firm_nd.
    + eapply vok_more; [exact GV|]. intros i s w s' A _ X fuel depth _ _. apply instance_dataclass_stays; [exact RV|now apply MV].
    + now apply dataclass_nu.
  - (* typed dict *)
    apply firm_nd; [|eapply nu_conf; [exact GV|]; intros x X; inversion X; discriminate].
    set (fld := fun fi : finfo * schema => mk_field (fst fi) (eval E ref (snd fi))).
    assert (NM : forall ref', map f_name (map (fun fi : finfo * schema => mk_field (fst fi) (eval E ref' (snd fi))) fields) = map (fun f => fi_name (fst f)) fields) by (intros; rewrite map_map; reflexivity).
    pose proof (typed_dict_ok false (finfo * schema) fld (fun fi => stays (snd fi)) (fun fi => omit (snd fi)) (mk_fields c (map fld fields) (option_map (fun sc => cv_validate (eval E ref sc)) ex) None)
      (fun v => forall sc, ex = Some sc -> stays sc v) (forall sc, ex = Some sc -> omit sc) fields) as TD.
    match type of TD with ?a -> _ => assert (TD1 : a); [|specialize (TD TD1 (validate_dict (e_repr E))); clear TD1] end.
    { cbn. intros v. destruct ex as [sc|]; [|discriminate]. intros [= <-]. eapply vok_mono; [| |apply (C sc); [apply in_or_app; right; now left|now apply SE]]; [intros x X s [= <-]; exact X|intros X s [= <-]; exact X]. }
    match type of TD with ?a -> _ => assert (TD1 : a); [|specialize (TD TD1 eq_refl); clear TD1] end.
    { intros [f sc] X. cbn. assert (J : In sc (map snd fields ++ opt_list ex)) by (apply in_or_app; left; apply in_map_iff; now exists (f, sc)).
      destruct (S f sc X) as (S1 & _). destruct (C sc J S1) as (V1 & V2 & _). split; [exact V1|]. split; [exists (dflt sc); exact V2|exact (CN' _ J)]. }
    match type of TD with ?a -> _ => assert (TD1 : a); [|specialize (TD TD1); clear TD1] end.
    { intros b i md A V. exact (validate_dict_ok false _ _ _ _ A V). }
    specialize (TD (fun b i => validate_dict_no _ _ _)). match type of TD with ?a -> _ => assert (TD1 : a) by (intros; eapply validate_dict_md; eassumption); specialize (TD TD1); clear TD1 end.
    eapply vok_mono with (O := omit (STypedDict c fields ex)); [intros x X; exact X|intros O; exact O|].
    eapply vok_more; [eapply vok_mono; [intros x X; exact X| |exact TD]|].
    + cbn. intros [NS O]. apply opt_some in NS; destruct NS as [sc NS]; subst. apply (OmThrough _ _ sc); [cbn; now left|auto].
    + intros i s w s' A H (d & -> & DI & EN & RQ) fuel depth B1 B2.
      assert (UN : forall f sc, In (f, sc) fields -> unaliased (fi_name f) (fi_keys f)) by (intros f sc J; now apply (S f sc J)).
      assert (SAME : forall f1 sc1 f2 sc2, In (f1, sc1) fields -> In (f2, sc2) fields -> fi_name f1 = fi_name f2 -> (f1, sc1) = (f2, sc2)).
      { clear - ND. induction fields as [|[f0 sc0] fs IH]; [easy|]. cbn in ND. inversion ND as [|? ? N1 N2]; subst. intros f1 sc1 f2 sc2 [J|J] [K|K] Q.
        - congruence.
        - injection J as -> ->. destruct N1. apply in_map_iff. exists (f2, sc2). now split.
        - injection K as -> ->. destruct N1. apply in_map_iff. exists (f1, sc1). now split.
        - now apply IH. }
      assert (H' : typed_dict_validate (mk_fields c (map fld fields) (option_map (fun sc => cv_validate (eval E ref sc)) ex) None) (validate_dict (e_repr E)) i s = (VOk (PDict d), s')) by exact H. clear H.
      apply typed_dict_order in H'; [|intros f J; cbn in J; apply in_map_iff in J; destruct J as ([f0 sc0] & <- & J); exact (UN _ _ J)|change (NoDup (map f_name (map fld fields))); unfold fld; rewrite (NM ref); exact ND|exact A].
      destruct H' as (fp & ep & ks & Q & MF & SB & OUT). injection Q as ->. change (sub ks (map f_name (map fld fields))) in SB. change (Forall (outside (map f_name (map fld fields))) ep) in OUT. unfold fld in SB, OUT. rewrite (NM ref) in SB, OUT.
      assert (EPX : forall a b, In (a, b) ep -> fo_extra c = ExtraAllow /\ forall sc, ex = Some sc -> stays sc b).
      { intros a b J. destruct (EN a b) as [([f sc] & I1 & -> & I2)|(I1 & I2 & I3 & I4)]; [apply in_or_app; now right| |].
        - rewrite Forall_forall in OUT. destruct (OUT _ J) as (n & Q & NI). cbn in Q. injection Q as <-. destruct NI. apply in_map_iff. now exists (f, sc).
        - split; [exact I1|]. intros sc Q. apply I3; [cbn; now rewrite Q|exact Q]. }
      cbn [eval no_default cv_validate]. eapply (typed_stays (has_ref (STypedDict c fields ex))).
      * cbn [mk_fields fc_fields]. rewrite (NM (refs E defs fuel depth)). exact ND.
      * exact DI.
      * exact MF.
      * cbn [mk_fields fc_fields]. rewrite (NM (refs E defs fuel depth)). exact SB.
      * cbn [mk_fields fc_fields]. rewrite (NM (refs E defs fuel depth)). exact OUT.
      * destruct ep as [|[a b] ep']; [easy|]. intros _. apply (EPX a b). now left.
      * cbn [mk_fields fc_extras]. intros a b v J. destruct ex as [sc|]; [|discriminate]. intros [= <-]. eapply fixes_mono; [|apply (EPX a b J); [reflexivity|assumption|assumption]]. cbn [has_ref]. intros ->. apply orb_true_r.
      * cbn [mk_fields fc_fields]. apply Forall_forall. intros f' J. apply in_map_iff in J. destruct J as ([f sc] & <- & J). destruct (S f sc J) as (S1 & S2 & S3 & S4). split; [exact S3|]. split.
        -- intros v G. cbn [mk_field f_name fst] in G. apply get_some_first in G.
           ++ destruct (EN _ _ G) as [([f2 sc2] & I1 & [= I2] & I3)|(I1 & I2 & I3 & I4)].
              ** assert (Q : (f, sc) = (f2, sc2)) by (apply SAME; assumption). injection Q as -> ->. eapply fixes_mono; [|apply I3; assumption]. cbn [has_ref snd]. intros HR. rewrite (existsb_in _ _ _ _ J HR). reflexivity.
              ** destruct (I4 eq_refl (f, sc) J eq_refl). exact S3.
           ++ intros a Ia. apply in_map_iff in Ia. destruct Ia as ([a' b'] & <- & Ia). destruct (EN _ _ Ia) as [([f2 sc2] & I1 & I2 & I3)|(I1 & (n & I2) & I3)]; cbn [fst]; eauto.
        -- cbn [mk_field f_name f_required f_cv fst snd]. intros G. assert (NR : fi_required f = false).
           { destruct (fi_required f) eqn:FR; [|reflexivity]. destruct (RQ eq_refl (f, sc) J FR) as [K|K]; [|contradiction]. cbn [fld mk_field f_name fst] in K. apply in_map_iff in K. destruct K as ([a b] & K1 & K2). cbn in K1. subst a.
             rewrite (get_in _ _ _ DI K2) in G. discriminate. }
           split; [exact NR|]. intros l s0. apply field_default. destruct S4 as [S4|S4]; [congruence|exact S4].
      * exact SEL.
  - now apply R.
Qed.

Hypothesis SD : stable_definitions E defs named.
Lemma stays_ref k d x : defs k = Some d -> stays d x -> stays (SRef k) x.
Proof.
  intros K X fuel depth B1 B2 s Cs. cbn [eval has_ref]. destruct fuel as [|fuel]; [lia|]. cbn [refs]. rewrite K. cbn [cv_validate]. cbv zeta.
  destruct (Nat.leb_spec guard_limit depth) as [L|L].
  - split; [now apply calm_partial|]. right. split; [reflexivity|]. eexists. split; [reflexivity|]. eexists. split; [reflexivity|]. constructor. reflexivity.
  - eapply back_mono; [|apply X; [lia|lia|now apply calm_partial]]. auto.
Qed.
Lemma refs_firm : forall fuel depth k, named k -> firm (refs E defs fuel depth k) (SRef k).
Proof.
  induction fuel as [|fuel IH]; intros depth k NK; cbn [refs]; [split; [|split]; intros ? ?; intros; try exact I; discriminate|].
  destruct (defs k) as [sc|] eqn:K; [|split; [|split]; intros ? ?; intros; try exact I; discriminate].
  assert (V : forall d, firm (eval E (refs E defs fuel d) sc) sc).
  { intros d. apply eval_firm; [intros; now apply refs_ne|intros; now apply refs_ok|intros; now apply IH|exact (D _ _ K)|exact (SD _ _ NK K)]. }
  assert (V' : forall d i s, allowed false i -> vk (stays (SRef k)) (omit (SRef k)) (fst (cv_validate (eval E (refs E defs fuel d) sc) i s))).
  { intros d i s A. eapply vok_mono; [| |apply (V d)|exact A]; [intros v X; exact (stays_ref _ _ _ K X)|intros X; exact (OmRef _ _ _ K X)]. }
  split; [|split].
  - intros i s A. cbn [cv_validate]. destruct i; try (destruct (_ <=? _); [exact I|]); now apply V'.
  - intros l s. cbn [cv_default]. destruct (V depth) as (_ & V2 & _). specialize (V2 l s). destruct (fst _) as [[v|]|[]]; cbn in *; auto.
    + destruct V2 as [A B]. split; [exact (stays_ref _ _ _ K A)|exact (DfRef _ _ _ K B)].
    + exact (OmRef _ _ _ K V2).
  - intros i s w s' A U H. cbn [cv_validate] in H. cbv zeta in H. destruct i; try (destruct (_ <=? _); [discriminate|]); eapply (V _); eassumption.
Qed.
Lemma run_stays fuel sc i s v s' : everywhere proper sc -> stable E defs named sc -> allowed false i -> run E defs fuel sc i s = (VOk v, s') -> stays sc v.
Proof.
  intros W S A R. unfold run in R. pose proof (eval_firm (refs E defs fuel 0)) as H. destruct (H) with (sc := sc) as (V & _); auto.
  - intros; now apply refs_ne.
  - intros; now apply refs_ok.
  - intros; now apply refs_firm.
  - specialize (V i s A). now rewrite R in V.
Qed.
End EvalStays.

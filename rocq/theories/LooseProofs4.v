From Coq Require Import List NArith ZArith Bool Lia.
From Verif Require Import Base Float64 IntParse Numbers BytesCodec Values VState LookupKey Collections Child Inputs Scalars Literal Wrappers Union TaggedUnion Tuple ModelFields TypedDict Assign Arguments Classes Interp InterpSpec InterpProofs StrictSpec StrictProofs StrictProofs3 StrictProofs5 LooseSpec LooseQuiet LooseOff LooseProofs LooseProofs2 LooseProofs3.
Import ListNotations.
Open Scope nat_scope.

(** ** Scalars *)
Lemma accept_ease A (m m' : matched A) s k k' a t : (forall q, m = VOk q -> m' = VOk q) -> (forall x s, k x s = (VOk a, t) -> k' x s = (VOk a, t)) -> accept m s k = (VOk a, t) -> accept m' s k' = (VOk a, t).
Proof. intros M K. unfold accept. destruct m as [[x e]|]; [|discriminate]. rewrite (M _ eq_refl). apply K. Qed.
Lemma bool_ease st st' : laxer st st' -> eases (bool_validate st) (bool_validate st').
Proof. intros L i s a t O. apply accept_ease; [|auto]. intros q. now apply laxer_reads; [exact bool_reads|]. Qed.
Lemma cmp_z a b : int_cmp a b = (int_z a ?= int_z b)%Z. Proof. now destruct a, b. Qed.
Lemma upper_ok A (le : A -> A -> Prop) (a b : option A) (bad : A -> bool) : upper le a b -> (forall x y, le x y -> bad x = false -> bad y = false) -> opt_violates a bad = false -> opt_violates b bad = false.
Proof. unfold upper. destruct b as [n|]; [|reflexivity]. intros (m & -> & LE) M. cbn. now apply M. Qed.
Lemma lower_ok A (le : A -> A -> Prop) (a b : option A) (bad : A -> bool) : lower le a b -> (forall x y, le y x -> bad x = false -> bad y = false) -> opt_violates a bad = false -> opt_violates b bad = false.
Proof. unfold lower. destruct b as [n|]; [|reflexivity]. intros (m & -> & LE) M. cbn. now apply M. Qed.
Lemma kept_ok A (a b : option A) (bad : A -> bool) : kept_or_dropped a b -> opt_violates a bad = false -> opt_violates b bad = false.
Proof. intros [->| ->]; easy. Qed.
Lemma bounds_ease c c' v : int_looser c c' -> check_int_bounds c v = None -> check_int_bounds c' v = None.
Proof.
  intros (_ & L1 & L2 & G1 & G2). unfold check_int_bounds.
  destruct (opt_violates (ic_le c) _) eqn:B1; [discriminate|]. destruct (opt_violates (ic_lt c) _) eqn:B2; [discriminate|].
  destruct (opt_violates (ic_ge c) _) eqn:B3; [discriminate|]. destruct (opt_violates (ic_gt c) _) eqn:B4; [discriminate|]. intros _.
  rewrite (fun M => upper_ok _ _ _ _ _ L1 M B1), (fun M => upper_ok _ _ _ _ _ L2 M B2), (fun M => lower_ok _ _ _ _ _ G1 M B3), (fun M => lower_ok _ _ _ _ _ G2 M B4); [reflexivity| | | |];
    unfold int_le; intros x y LE; rewrite !cmp_z; destruct (Z.compare_spec (int_z v) (int_z x)), (Z.compare_spec (int_z v) (int_z y)); cbn; try easy; lia.
Qed.
Lemma int_ease md st st' c c' : laxer st st' -> opt_rel int_looser c c' \/ c' = None -> eases (int_validate md st c) (int_validate md st' c').
Proof.
  intros L C i s a t O. apply accept_ease; [intros q; now apply laxer_reads; [apply int_reads|]|]. intros n s1.
  destruct C as [C| ->].
  - destruct C as [|c c' LC]; [easy|]. unfold validate_constrained_int. cbv zeta. destruct LC as (KM & LB).
    assert (B : forall e, match check_int_bounds c (as_int n) with Some err => NErr err | None => NOk n end = NOk e -> match check_int_bounds c' (as_int n) with Some err => NErr err | None => NOk n end = NOk e).
    { intros e. destruct (check_int_bounds c _) eqn:X; [discriminate|]. rewrite (bounds_ease c c' _ (conj KM LB) X). easy. }
    destruct KM as [->| ->].
    + destruct (ic_multiple_of c) as [m|]; [destruct (int_rem _ m) as [r|]; [destruct (is_eq _)|]|]; try discriminate;
        destruct (match check_int_bounds c (as_int n) with Some err => NErr err | None => NOk n end) eqn:X; try discriminate; rewrite (B _ eq_refl); easy.
    + intros H.
      assert (X : exists e, match check_int_bounds c (as_int n) with Some err => NErr err | None => NOk n end = NOk e /\ (VOk (PInt (int_value e)), s1) = (VOk a, t)).
      { destruct (ic_multiple_of c) as [m|]; [destruct (int_rem _ m) as [r|]; [destruct (is_eq _)|]|]; try discriminate;
          destruct (match check_int_bounds c (as_int n) with Some err => NErr err | None => NOk n end) eqn:X; try discriminate; eexists; split; try reflexivity; exact H. }
      destruct X as (e & X & Y). now rewrite (B _ X).
  - destruct c as [c|]; [|easy]. destruct (validate_constrained_int c n) as [n'| |] eqn:V; [|discriminate|discriminate].
    assert (n' = n) as ->; [|easy]. unfold validate_constrained_int in V. cbv zeta in V.
    destruct (ic_multiple_of c) as [m|]; [destruct (int_rem _ m) as [r|]; [destruct (is_eq _)|]|]; try discriminate; destruct (check_int_bounds _ _); congruence.
Qed.
Lemma float_ease pf st st' c c' : laxer st st' -> float_looser c c' -> eases (float_validate pf st c) (float_validate pf st' c').
Proof.
  intros L (LI & KM & K1 & K2 & K3 & K4) i s a t O. apply accept_ease; [intros q; now apply laxer_reads; [apply float_reads|]|]. intros f s1.
  unfold validate_constrained_float.
  destruct (negb (fc_allow_inf_nan c) && _) eqn:B0; [discriminate|].
  destruct (opt_violates (fc_multiple_of c) _) eqn:BM; [discriminate|]. destruct (opt_violates (fc_le c) _) eqn:B1; [discriminate|]. destruct (opt_violates (fc_lt c) _) eqn:B2; [discriminate|].
  destruct (opt_violates (fc_ge c) _) eqn:B3; [discriminate|]. destruct (opt_violates (fc_gt c) _) eqn:B4; [discriminate|].
  rewrite (kept_ok _ _ _ _ KM BM), (kept_ok _ _ _ _ K1 B1), (kept_ok _ _ _ _ K2 B2), (kept_ok _ _ _ _ K3 B3), (kept_ok _ _ _ _ K4 B4).
  assert (negb (fc_allow_inf_nan c') && negb (f_is_finite f) = false) as ->; [|easy].
  destruct (fc_allow_inf_nan c) eqn:AI; [now rewrite (LI eq_refl)|]. cbn in B0. rewrite B0. apply andb_false_r.
Qed.
Lemma short_ok a b n : lower le a b -> too_short a n = None -> too_short b n = None.
Proof. destruct b as [m'|]; [|reflexivity]. intros (m & -> & LE). unfold too_short. destruct (Nat.ltb_spec n m); [discriminate|]. destruct (Nat.ltb_spec n m'); [lia|reflexivity]. Qed.
Lemma long_ok a b n : upper le a b -> too_long a n = None -> too_long b n = None.
Proof. destruct b as [m'|]; [|reflexivity]. intros (m & -> & LE). unfold too_long. destruct (Nat.ltb_spec m n); [discriminate|]. destruct (Nat.ltb_spec m' n); [lia|reflexivity]. Qed.
Lemma coerce_ok ps fs st b b' i q : laxer b' b -> validate_str ps fs st b i = VOk q -> validate_str ps fs st b' i = VOk q.
Proof.
  intros L. destruct b; [now rewrite (L eq_refl)|]. destruct b'; [|easy]. clear L. unfold validate_str, val_err.
  destruct i as [v|j|x|v]; try easy.
  - destruct v; try easy; cbn; destruct st; try easy. destruct (strip v); easy.
  - destruct j; try easy; rewrite andb_false_r; discriminate.
Qed.
Lemma str_ease ps fs tl tu c c' : str_looser c c' -> eases (str_validate ps fs tl tu c) (str_validate ps fs tl tu c').
Proof.
  intros (LS & LC & ES & LMn & LMx & KP & EL & EU) i s a t O. apply accept_ease.
  - intros q H. apply (coerce_ok _ _ _ _ _ _ _ LC). refine (laxer_reads _ (fun st => validate_str ps fs st (sc_coerce_numbers c)) _ _ _ _ _ _ LS H). apply str_reads.
  - intros x s1. rewrite ES, EL, EU. cbv zeta. set (y := if sc_strip c then _ else _).
    destruct (too_short (sc_min c) _) eqn:T1; [discriminate|]. rewrite (short_ok _ _ _ LMn T1). destruct (too_long (sc_max c) _) eqn:T2; [discriminate|]. rewrite (long_ok _ _ _ LMx T2).
    destruct KP as [->| ->]; [easy|]. destruct (sc_pattern c) as [p|]; [|easy]. destruct (p y) as [[]|]; easy.
Qed.
Lemma bytes_ease c c' : bytes_looser c c' -> eases (bytes_validate c) (bytes_validate c').
Proof.
  intros (LS & EM & LMn & LMx) i s a t O. apply accept_ease.
  - intros q H. rewrite EM. refine (laxer_reads _ (fun st => validate_bytes st (bc_mode c)) _ _ _ _ _ _ LS H). apply bytes_reads.
  - intros x s1. destruct (too_short (bc_min c) _) eqn:T1; [discriminate|]. rewrite (short_ok _ _ _ LMn T1). destruct (too_long (bc_max c) _) eqn:T2; [discriminate|]. now rewrite (long_ok _ _ _ LMx T2).
Qed.

(** ** Wrappers *)
Lemma same_ease v : eases v v. Proof. intros i s a t _ H. exact H. Qed.
Lemma nullable_ease v v' : eases v v' -> eases (nullable v) (nullable v').
Proof. intros E i s a t O. unfold nullable. destruct (is_none_input i); [easy|]. now apply E. Qed.
Definition refuses (v : validator) : Prop := forall i s a t, is_none_input i = true \/ is_undefined i = true -> v i s = (VOk a, t) -> False.
Lemma add_nullable_ease v v' : refuses v -> eases v v' -> eases v (nullable v').
Proof. intros R E i s a t O H. unfold nullable. destruct (is_none_input i) eqn:N; [now destruct (R _ _ _ _ (or_introl N) H)|]. now apply E. Qed.
Lemma default_ease (V V' : input -> state -> option (vres pyval * state)) w w' l s o t :
  wd_default_kind w' = wd_default_kind w -> wd_validate_default w' = wd_validate_default w ->
  (forall i a t, V i s = Some (VOk a, t) -> V' i s = Some (VOk a, t)) ->
  default_value V w l s = Some (VOk o, t) -> default_value V' w' l s = Some (VOk o, t).
Proof.
  intros EK EV E. unfold default_value. rewrite EK, EV. destruct (stored_default _ _) as [[d|]|]; [|easy|easy]. destruct (wd_validate_default w); [|easy].
  destruct (V (IPy d) s) as [[[v|] s1]|] eqn:X; [|discriminate|discriminate]. now rewrite (E _ _ _ X).
Qed.
Lemma wd_ease n w w' : kid (wd_inner w) (wd_inner w') -> wd_on_error w = OnRaise -> wd_default_kind w' = wd_default_kind w -> wd_validate_default w' = wd_validate_default w ->
  forall i s a t, off s -> wd_validate n w i s = Some (VOk a, t) -> wd_validate n w' i s = Some (VOk a, t).
Proof.
  intros K OE EK EV. induction n as [|n IH]; intros i s a t O; cbn [wd_validate]; [easy|]. rewrite OE.
  assert (U : forall e e' s1, off s1 -> match default_value (wd_validate n w) w None s1 with None => None | Some (VErr e', s') => Some (VErr e', s') | Some (VOk (Some v), s') => Some (VOk v, s') | Some (VOk None, s') => Some (VErr e, s') end = Some (VOk a, t) ->
     match default_value (wd_validate n w') w' None s1 with None => None | Some (VErr e', s') => Some (VErr e', s') | Some (VOk (Some v), s') => Some (VOk v, s') | Some (VOk None, s') => Some (VErr e', s') end = Some (VOk a, t)).
  { intros e e' s1 O1. destruct (default_value (wd_validate n w) w None s1) as [[[o|] s2]|] eqn:D; [|discriminate|discriminate].
    rewrite (default_ease _ (wd_validate n w') w w' None s1 o s2 EK EV (fun i a t H => IH i s1 a t O1 H) D). now destruct o. }
  destruct (is_undefined i); [now apply U|].
  destruct (wd_inner w i s) as [[v|[]] s1] eqn:I; try discriminate.
  - now rewrite (k_ease _ _ K _ _ _ _ O I).
  - now destruct (vne_err _ _ _ _ _ (k_ne _ _ K) I).
Qed.
Lemma wd_cv_ease n k o' vd v v' : kid v v' ->
  eases (cv_validate (wd_cv n {| wd_default_kind := k; wd_on_error := OnRaise; wd_inner := v; wd_validate_default := vd |}))
        (cv_validate (wd_cv n {| wd_default_kind := k; wd_on_error := o'; wd_inner := v'; wd_validate_default := vd |})) /\
  deases false (cv_default (wd_cv n {| wd_default_kind := k; wd_on_error := OnRaise; wd_inner := v; wd_validate_default := vd |}))
        (cv_default (wd_cv n {| wd_default_kind := k; wd_on_error := o'; wd_inner := v'; wd_validate_default := vd |})).
Proof.
  intros K. set (w := {| wd_default_kind := k; wd_on_error := OnRaise; wd_inner := v; wd_validate_default := vd |}). set (w' := {| wd_default_kind := k; wd_on_error := o'; wd_inner := v'; wd_validate_default := vd |}).
  pose proof (wd_ease n w w' K eq_refl eq_refl eq_refl) as W. split.
  - intros i s a t O. cbn. destruct (wd_validate n w i s) as [[r s1]|] eqn:X; [|discriminate]. intros [= -> ->]. now rewrite (W _ _ _ _ O X).
  - intros l s a t O H. right. revert H. cbn. destruct (default_value _ w l s) as [[r s1]|] eqn:X; [|discriminate]. intros [= -> ->].
    now rewrite (default_ease _ (wd_validate n w') w w' l s a t eq_refl eq_refl (fun i a t H => W i s a t O H) X).
Qed.
Lemma add_default_ease n k o' vd v v' : n <> 0 -> refuses v -> eases v v' -> eases v (cv_validate (wd_cv n {| wd_default_kind := k; wd_on_error := o'; wd_inner := v'; wd_validate_default := vd |})).
Proof.
  intros N R E i s a t O H. destruct n as [|n]; [easy|]. cbn [wd_cv cv_validate wd_validate]. destruct (is_undefined i) eqn:U; [now destruct (R _ _ _ _ (or_intror U) H)|].
  cbn [wd_inner]. now rewrite (E _ _ _ _ O H).
Qed.
Lemma chain_ease l l' : Forall2 kid l l' -> eases (chain_validate l) (chain_validate l').
Proof.
  assert (R : forall l l', Forall2 kid l l' -> forall v s a t, off s -> chain_rest l v s = (VOk a, t) -> chain_rest l' v s = (VOk a, t)).
  { induction 1 as [|x x' m m' K F IH]; intros v s a t O; cbn [chain_rest]; [easy|]. destruct (x (IPy v) s) as [[w|] s1] eqn:X; [|discriminate].
    rewrite (k_ease _ _ K _ _ _ _ O X). apply IH. exact (keeps_use _ _ _ _ _ (k_off _ _ K) X O). }
  intros F i s a t O. destruct F as [|x x' m m' K F]; cbn; [easy|]. destruct (x i s) as [[w|] s1] eqn:X; [|discriminate].
  rewrite (k_ease _ _ K _ _ _ _ O X). apply (R _ _ F). exact (keeps_use _ _ _ _ _ (k_off _ _ K) X O).
Qed.
Lemma jop_ease j j' p p' : eases j j' -> eases p p' -> eases (json_or_python j p) (json_or_python j' p').
Proof. intros A B i s a t O. unfold json_or_python. destruct (x_input_type _); auto. Qed.
Lemma los_ease b l l' t : eases l l' -> keeps t -> eases (lax_or_strict b l t) (lax_or_strict b l' t).
Proof.
  intros E K i s a t' O. unfold lax_or_strict. destruct (strict_or s b); [easy|]. destruct (st_exactness s); [|now apply E].
  destruct (t i s) as [[v|err] s1] eqn:T; [easy|]. assert (O1 : off (floor_exactness Lax s1)) by (apply off_floor; exact (keeps_use _ _ _ _ _ K T O)).
  destruct err; try discriminate; now apply E.
Qed.
Lemma custom_ease t t' v v' : eases v v' -> eases (custom_error t v) (custom_error t' v').
Proof. intros E i s a r O. unfold custom_error. destruct (v i s) as [[w|err] s1] eqn:X; [now rewrite (E _ _ _ _ O X)|]. destruct err; discriminate. Qed.
Lemma before_ease f own v v' : eases v v' -> eases (function_before f own v) (function_before f own v').
Proof. intros E i s a r O. unfold function_before. destruct (call_fun _ _ _ _ _); [now apply E|easy]. Qed.
Lemma after_ease f own v v' : eases v v' -> eases (function_after f own v) (function_after f own v').
Proof. intros E i s a r O. unfold function_after. destruct (v i s) as [[w|] s1] eqn:X; [|discriminate]. now rewrite (E _ _ _ _ O X). Qed.

(** ** Unions *)
Lemma ltr_ease t t' cs v v' l l' more : Forall (fun c => keeps (ch_validator c)) cs -> kid v v' ->
  eases (validate_left_to_right t (cs ++ [{| ch_validator := v; ch_label := l |}])) (validate_left_to_right t' (cs ++ {| ch_validator := v'; ch_label := l' |} :: more)).
Proof.
  intros F K i s a r. unfold validate_left_to_right.
  cut (forall b b' s, off s -> ltr_loop t (cs ++ [{| ch_validator := v; ch_label := l |}]) i b s = (VOk a, r) -> ltr_loop t' (cs ++ {| ch_validator := v'; ch_label := l' |} :: more) i b' s = (VOk a, r)); [intros G; apply G|]. clear s.
  induction F as [|c cs Kc F IH]; intros b b' s O; cbn [app ltr_loop ch_validator].
  - destruct (v i s) as [[w|[]] s1] eqn:X; try discriminate. now rewrite (k_ease _ _ K _ _ _ _ O X).
  - destruct (ch_validator c i s) as [[w|[]] s1] eqn:X; try easy. apply IH. exact (keeps_use _ _ _ _ _ Kc X O).
Qed.
Lemma tagged_ease repr ga ps fs md d fa t t' cs cs' : Forall2 (fun a b => fst b = fst a /\ eases (snd a) (snd b)) cs cs' ->
  eases (tagged_union_validate repr ga ps fs md d fa t cs) (tagged_union_validate repr ga ps fs md d fa t' cs').
Proof.
  intros F.
  assert (FM : map fst cs' = map fst cs). { clear -F. induction F as [|a b l l' [E _] F IH]; cbn; [reflexivity|]. now rewrite E, IH. }
  assert (FN : forall id g v, nth_error cs id = Some (g, v) -> exists g' v', nth_error cs' id = Some (g', v') /\ eases v v').
  { clear -F. induction F as [|a b l l' [E K] F IH]; intros [|id] g v; cbn; try discriminate; [|apply IH]. intros [= ->]. destruct b as [g' v']. eexists _, _. split; [reflexivity|exact K]. }
  assert (FC : forall tag, eases (find_call_validator repr ps fs md t cs tag) (find_call_validator repr ps fs md t' cs' tag)).
  { intros tag i s a r O. unfold find_call_validator. rewrite FM. destruct (lk_validate _ _ _ _ _) as [[id|]|]; [|now destruct t|now destruct t].
    destruct (nth_error cs id) as [[g v]|] eqn:X; [|discriminate]. destruct (FN _ _ _ X) as (g' & v' & -> & E). destruct (v i s) as [[w|] s1] eqn:Y; [|discriminate]. now rewrite (E _ _ _ _ O Y). }
  intros i s a r O. unfold tagged_union_validate. destruct d as [k|f].
  - cbv zeta. destruct (validate_model_fields _ _ _ _ _) as [m|]; [|easy]. destruct (md_get m k) as [[[p tag]|]|]; [now apply FC|now destruct t|easy].
  - destruct (f _) as [[]|]; try easy; try (now apply FC). now destruct t.
Qed.

(** ** Classes *)
Lemma construct_ease c v v' i ex : eases v v' -> forall s a t, off s -> model_construct c v i ex s = (VOk a, t) -> model_construct c v' i ex s = (VOk a, t).
Proof.
  intros E s a t O. unfold model_construct. destruct (match mo_custom_init c with Some f => _ | None => None end) as [[w|e]|]; [easy|easy|].
  destruct (mo_root c).
  - unfold rebind. destruct (v i _) as [[w|] s1] eqn:X; [|discriminate]. rewrite (fun O => E _ _ _ _ O X); [easy|exact O].
  - destruct (v i s) as [[w|] s1] eqn:X; [|discriminate]. now rewrite (E _ _ _ _ O X).
Qed.
Lemma model_ease sub c v v' : eases v v' -> eases (model_validate sub c v) (model_validate sub c v').
Proof.
  intros E i s a t O. unfold model_validate. destruct (instance_input _ _ _ _) as [[x force]|]; [|apply (construct_ease _ _ _ _ _ E), off_floor, O].
  destruct (_ || _); [|easy]. destruct (inst_attr _ _) as [fs|]; [|easy]. destruct (model_data _ _) as [d|]; [|easy]. now apply construct_ease.
Qed.
Lemma dataclass_ease sub c c' v v' : dataclass_looser c c' -> eases v v' -> eases (dataclass_validate sub c v) (dataclass_validate sub c' v').
Proof.
  intros (E1 & E2 & E3 & LS & E5 & E6 & E7) E i s a t O. unfold dataclass_validate, set_dict_call. rewrite E1, E2, E3, E5, E7.
  destruct (instance_input _ _ _ _) as [[x force]|].
  - destruct (_ || _); [|easy]. destruct (inst_to_dict _ _ _) as [d|]; [|easy]. destruct (v _ s) as [[w|] s1] eqn:X; [|discriminate]. now rewrite (E _ _ _ _ O X).
  - destruct (strict_or s (da_strict c) && _) eqn:Q; [discriminate|].
    assert (strict_or s (da_strict c') && match x_input_type (st_extra s) with ITPython => true | _ => false end = false) as ->.
    { destruct (x_input_type (st_extra s)); rewrite ?andb_false_r; try reflexivity. rewrite andb_true_r in *. unfold strict_or in *. destruct (x_strict _) as [b|]; cbn in *; [exact Q|]. destruct (da_strict c'); [|reflexivity]. now rewrite (LS eq_refl) in Q. }
    destruct (v i s) as [[w|] s1] eqn:X; [|discriminate]. now rewrite (E _ _ _ _ O X).
Qed.

From Coq Require Import List NArith ZArith Bool Lia.
From Verif Require Import Base Float64 Float64Proofs Numbers NumbersSpec.
Open Scope Z_scope.

Lemma two63_lo : f_of_Z (- 2 ^ 63) = S754_finite true 4503599627370496 11. Proof. vm_compute. reflexivity. Qed.
Lemma two63_hi : f_of_Z (2 ^ 63 - 1) = S754_finite false 4503599627370496 11. Proof. vm_compute. reflexivity. Qed.

Lemma scaled_denotes s m e z : -1074 <= e -> float_is (S754_finite s m e) z -> scaled (S754_finite s m e) = z * 2 ^ 1074.
Proof.
  intros He. unfold float_is, scaled. destruct (Z.leb_spec 0 e) as [H|H]; intros Hz.
  - rewrite Z.pow_add_r by lia. destruct s; [assert (z = - (Z.pos m * 2 ^ e)) by lia|]; subst z; lia.
  - rewrite <- Hz. replace 1074 with ((e + 1074) + (- e)) at 2 by lia. rewrite (Z.pow_add_r 2 (e + 1074) (- e)) by lia.
    destruct s; lia.
Qed.

Lemma fraction_denotes s m e : has_fraction m e = false ->
  float_is (S754_finite s m e) (if s then - integral_part m e else integral_part m e).
Proof.
  unfold has_fraction, integral_part, float_is. destruct (Z.leb_spec 0 e) as [H|H]; intros Hf.
  - destruct s; lia.
  - apply negb_false_iff, Z.eqb_eq in Hf. pose proof (Z.div_mod (Z.pos m) (2 ^ (- e))) as D.
    assert (0 < 2 ^ (- e)) by (apply Z.pow_pos_nonneg; lia). specialize (D ltac:(lia)). rewrite Hf in D.
    destruct s; nia.
Qed.

Lemma denotes_fraction s m e z : float_is (S754_finite s m e) z -> has_fraction m e = false.
Proof.
  unfold has_fraction, float_is. destruct (Z.leb_spec 0 e) as [H|H]; [reflexivity|]. intros Hz.
  apply negb_false_iff, Z.eqb_eq. rewrite <- Hz. apply Z.mod_mul. apply Z.pow_nonzero; lia.
Qed.

Lemma denotes_unique s m e z1 z2 : -1074 <= e -> float_is (S754_finite s m e) z1 -> float_is (S754_finite s m e) z2 -> z1 = z2.
Proof.
  intros He H1 H2. apply scaled_denotes in H1, H2; try assumption. rewrite H1 in H2.
  apply Z.mul_cancel_r in H2; [assumption|]. apply Z.pow_nonzero; lia.
Qed.

Lemma float_as_int_iff f z : valid64 f = true ->
  (float_as_int f = NOk z <-> float_is f z /\ - 2 ^ 63 < z < 2 ^ 63).
Proof.
  intros V. unfold float_as_int. rewrite two63_lo, two63_hi.
  destruct f as [s|s| |s m e]; cbn [f_is_infinite f_is_nan orb f_fract_nonzero].
  - destruct s; cbn; (split; [intros H; injection H as <-; split; [reflexivity|lia] | intros [-> _]; reflexivity]).
  - simpl. split; [discriminate | tauto].
  - simpl. split; [discriminate | tauto].
  - pose proof (valid_finite _ _ _ V) as (He & _).
    destruct (has_fraction m e) eqn:Hf.
    { split; [discriminate|]. intros [H _]. apply denotes_fraction in H. congruence. }
    pose proof (fraction_denotes s m e Hf) as Hd.
    rewrite !f_lt_scaled by (reflexivity || assumption).
    rewrite (scaled_denotes s m e _ He Hd).
    cbn [f_as_i64]. set (z0 := if s then - integral_part m e else integral_part m e) in *.
    assert (L : scaled (S754_finite true 4503599627370496 11) = - 2 ^ 63 * 2 ^ 1074) by (vm_compute; reflexivity).
    assert (R : scaled (S754_finite false 4503599627370496 11) = 2 ^ 63 * 2 ^ 1074) by (vm_compute; reflexivity).
    rewrite L, R.
    assert (P : 0 < 2 ^ 1074) by reflexivity. set (P0 := 2 ^ 1074) in *. clearbody P0.
    destruct ((- 2 ^ 63 * P0 <? z0 * P0) && (z0 * P0 <? 2 ^ 63 * P0)) eqn:B.
    + apply andb_true_iff in B as [B1 B2]. apply Z.ltb_lt in B1, B2.
      apply Z.mul_lt_mono_pos_r in B1, B2; try assumption.
      assert (Es : sat_i64 z0 = z0) by (unfold sat_i64; lia). rewrite Es. split.
      * intros H. injection H as <-. split; [assumption|lia].
      * intros [H _]. f_equal. eapply denotes_unique; eauto.
    + split; [discriminate|]. intros [H Hr]. exfalso.
      assert (z = z0) by (eapply denotes_unique; eauto). subst z.
      apply andb_false_iff in B as [B|B]; apply Z.ltb_ge in B; apply Z.mul_le_mono_pos_r in B; lia.
Qed.

Lemma float_as_int_total f : valid64 f = true ->
  (float_as_int f = NErr EFiniteNumber <-> f_is_finite f = false) /\ float_as_int f <> NPanic /\
  (float_as_int f = NErr EIntFromFloat <-> f_is_finite f = true /\ forall z, ~ float_is f z).
Proof.
  intros V. unfold float_as_int.
  destruct f as [s|s| |s m e]; cbn [f_is_infinite f_is_nan orb f_fract_nonzero f_is_finite].
  - set (b := _ && _). destruct b; (split; [split; discriminate|]; split; [discriminate|]; split; [discriminate|];
      intros [_ H]; exfalso; apply (H 0); reflexivity).
  - split; [split; reflexivity|]. split; [discriminate|]. split; [discriminate|intros [H _]; discriminate].
  - split; [split; reflexivity|]. split; [discriminate|]. split; [discriminate|intros [H _]; discriminate].
  - destruct (has_fraction m e) eqn:Hf.
    + split; [split; discriminate|]. split; [discriminate|]. split; [|reflexivity]. intros _. split; [reflexivity|].
      intros z Hz. apply denotes_fraction in Hz. congruence.
    + pose proof (fraction_denotes s m e Hf) as Hd.
      set (b := _ && _). destruct b; (split; [split; discriminate|]; split; [discriminate|]; split; [discriminate|];
      intros [_ H]; exfalso; eapply H; exact Hd).
Qed.

(** Decimals. *)
Lemma decimal_as_int_iff neg coef exp z :
  decimal_as_int (DFin neg coef exp) = NOk z <-> decimal_is neg coef exp z.
Proof.
  unfold decimal_as_int, as_integer_ratio, decimal_is.
  set (c := if neg then - Z.of_N coef else Z.of_N coef).
  assert (Hc : forall v, (if neg then - z else z) = v <-> z = (if neg then - v else v)) by (destruct neg; lia).
  destruct (Z.leb_spec 0 exp) as [H|H].
  - rewrite (Z.max_r 0 exp) by lia. rewrite (Z.max_l 0 (- exp)) by lia. rewrite Z.pow_0_r, Z.gcd_1_r, !Z.div_1_r. change ((- 2 ^ 63 <=? 1) && (1 <? 2 ^ 63)) with true. cbn [negb Z.eqb Pos.eqb].
    rewrite Hc. split.
    + intros E. injection E as <-. unfold c. destruct neg; ring.
    + intros ->. unfold c. destruct neg; (f_equal; ring).
  - rewrite (Z.max_l 0 exp) by lia. rewrite (Z.max_r 0 (- exp)) by lia. rewrite Z.pow_0_r, Z.mul_1_r.
    set (d := 10 ^ (- exp)). assert (Hd : 0 < d) by (apply Z.pow_pos_nonneg; lia).
    set (g := Z.gcd c d). assert (Hg : 0 < g).
    { assert (0 <= g) by apply Z.gcd_nonneg. assert (g <> 0); [|lia]. intros E. apply Z.gcd_eq_0_r in E. lia. }
    assert (Gc : (g | c)) by apply Z.gcd_divide_l. assert (Gd : (g | d)) by apply Z.gcd_divide_r.
    destruct Gc as [a Ha], Gd as [b Hb].
    assert (Ea : c / g = a) by (rewrite Ha; apply Z.div_mul; lia).
    assert (Eb : d / g = b) by (rewrite Hb; apply Z.div_mul; lia).
    rewrite Ea, Eb. assert (Hbpos : 0 < b) by nia.
    assert (Hz : ((if neg then - z else z) * d = Z.of_N coef) <-> z * d = c).
    { unfold c. destruct neg; lia. }
    rewrite Hz.
    destruct ((- 2 ^ 63 <=? b) && (b <? 2 ^ 63)) eqn:R; [destruct (Z.eqb_spec b 1) as [E1|E1]|]; cbn [negb].
    + split; [intros E; injection E as <-; nia|]. intros E. f_equal. nia.
    + split; [discriminate|]. intros E. exfalso. apply E1.
      assert (Hgd : g = d).
      { unfold g. apply Z.gcd_unique; [lia| |exists 1; lia|].
        - exists z. lia.
        - intros q _ Hq. assumption. }
      nia.
    + split; [discriminate|]. intros E. exfalso.
      assert (Hgd : g = d).
      { unfold g. apply Z.gcd_unique; [lia| |exists 1; lia|].
        - exists z. lia.
        - intros q _ Hq. assumption. }
      assert (Hb1 : b = 1) by nia. rewrite Hb1 in R. apply andb_false_iff in R as [R|R]; [apply Z.leb_gt in R|apply Z.ltb_ge in R]; lia.
Qed.

(** Constrained ints. *)
Lemma int_cmp_value a b : int_cmp a b = (int_value a ?= int_value b).
Proof. destruct a, b; reflexivity. Qed.

Lemma as_int_value e : int_value (as_int e) = either_int_value e.
Proof. destruct e; simpl; unfold extract_int; try destruct (fits_i64 _); reflexivity. Qed.

Lemma int_rem_value a b r : int_rem a b = Some r -> int_value b <> 0 /\ int_value r = Z.rem (int_value a) (int_value b).
Proof.
  destruct a, b; simpl; repeat match goal with |- context [if ?c then _ else _] => destruct c eqn:? end; try discriminate;
    intros H; injection H as <-; simpl; (split; [|reflexivity]);
    match goal with E : (_ =? 0) = false |- _ => apply Z.eqb_neq in E; exact E end.
Qed.

Lemma int_rem_panic a b : int_rem a b = None <->
  int_value b = 0 \/ (a = I64 (- 2 ^ 63) /\ b = I64 (-1)).
Proof.
  destruct a as [x|x], b as [y|y]; cbn [int_rem int_value];
    destruct (Z.eqb_spec y 0) as [E|E]; try (split; [auto|reflexivity]).
  - destruct (Z.eqb_spec x (- 2 ^ 63)) as [E1|E1], (Z.eqb_spec y (-1)) as [E2|E2]; cbn [andb];
      try (split; [discriminate|]; intros [H|[H1 H2]]; [contradiction|]; injection H1 as H1; injection H2 as H2; contradiction).
    subst. split; auto.
  - split; [discriminate|]. intros [H|[H1 H2]]; [contradiction|discriminate].
  - split; [discriminate|]. intros [H|[H1 H2]]; [contradiction|discriminate].
  - split; [discriminate|]. intros [H|[H1 H2]]; [contradiction|discriminate].
Qed.

Lemma rem_multiple v m : m <> 0 -> (Z.rem v m = 0 <-> exists k, v = k * m).
Proof.
  intros Hm. rewrite Z.rem_divide by assumption. reflexivity.
Qed.

Lemma violates_iff {A} (o : option A) (bad : A -> bool) (ok : A -> Prop) :
  (forall b, o = Some b -> (bad b = false <-> ok b)) -> (opt_violates o bad = false <-> bound o ok).
Proof. destruct o as [x|]; simpl; intros H; [apply H; reflexivity | tauto]. Qed.

Lemma chain4 {E} b1 b2 b3 b4 (e1 e2 e3 e4 : E) :
  (if b1 : bool then Some e1 else if b2 : bool then Some e2 else if b3 : bool then Some e3 else if b4 : bool then Some e4 else None) = None <->
  b1 = false /\ b2 = false /\ b3 = false /\ b4 = false.
Proof. destruct b1, b2, b3, b4; split; intros H; try discriminate; try reflexivity; try tauto; destruct H as (H1 & H2 & H3 & H4); discriminate. Qed.

Lemma check_bounds_iff c v :
  check_int_bounds c v = None <->
  bound (ic_le c) (fun b => int_value v <= int_value b) /\ bound (ic_lt c) (fun b => int_value v < int_value b) /\
  bound (ic_ge c) (fun b => int_value v >= int_value b) /\ bound (ic_gt c) (fun b => int_value v > int_value b).
Proof.
  unfold check_int_bounds. rewrite chain4.
  rewrite (violates_iff (ic_le c) _ (fun b => int_value v <= int_value b)),
    (violates_iff (ic_lt c) _ (fun b => int_value v < int_value b)),
    (violates_iff (ic_ge c) _ (fun b => int_value v >= int_value b)),
    (violates_iff (ic_gt c) _ (fun b => int_value v > int_value b)); [reflexivity| | | | ];
    intros b _; rewrite int_cmp_value; destruct (Z.compare_spec (int_value v) (int_value b)); cbn; split; try discriminate; try reflexivity; lia.
Qed.

Lemma constrained_int_iff c e :
  (forall m, ic_multiple_of c = Some m -> int_value m <> 0 /\ ~ (as_int e = I64 (- 2 ^ 63) /\ m = I64 (-1))) ->
  (validate_constrained_int c e = NOk e <-> int_constraints_hold c (either_int_value e)) /\
  validate_constrained_int c e <> NPanic /\
  (forall e', validate_constrained_int c e = NOk e' -> e' = e).
Proof.
  intros Hm. unfold validate_constrained_int, int_constraints_hold. rewrite <- (as_int_value e).
  pose proof (check_bounds_iff c (as_int e)) as Hb.
  assert (Hbr : forall r, r = match check_int_bounds c (as_int e) with Some err => NErr err | None => NOk e end ->
            (r = NOk e <-> check_int_bounds c (as_int e) = None) /\ r <> NPanic /\ (forall e', r = NOk e' -> e' = e)).
  { intros r ->. destruct (check_int_bounds c (as_int e)); repeat split; try discriminate; intros; congruence. }
  set (bd := match check_int_bounds c (as_int e) with Some err => NErr err | None => NOk e end) in *.
  destruct (Hbr bd eq_refl) as (B1 & B2 & B3).
  destruct (ic_multiple_of c) as [m|]; cbn [bound].
  - destruct (Hm m eq_refl) as [M1 M2]. destruct (int_rem (as_int e) m) as [r|] eqn:Er.
    + apply int_rem_value in Er as [_ Er]. rewrite int_cmp_value, Er. cbn [int_value].
      pose proof (rem_multiple (int_value (as_int e)) (int_value m) M1) as Rm.
      destruct (Z.compare_spec (Z.rem (int_value (as_int e)) (int_value m)) 0) as [E|E|E]; cbn [is_eq].
      * rewrite B1, Hb. split; [tauto|]. split; assumption.
      * split; [split; [discriminate|]; intros [H _]; apply Rm in H; lia|]. split; discriminate.
      * split; [split; [discriminate|]; intros [H _]; apply Rm in H; lia|]. split; discriminate.
    + apply int_rem_panic in Er as [Er|Er]; contradiction.
  - rewrite B1, Hb. split; [tauto|]. split; assumption.
Qed.

(** Each error is about a constraint that is indeed violated. *)
Lemma constrained_int_error c e err : validate_constrained_int c e = NErr err ->
  let v := either_int_value e in
  match err with
  | EMultipleOf => exists m, ic_multiple_of c = Some m /\ ~ exists k, v = k * int_value m
  | ELessThanEqual => exists b, ic_le c = Some b /\ ~ v <= int_value b
  | ELessThan => exists b, ic_lt c = Some b /\ ~ v < int_value b
  | EGreaterThanEqual => exists b, ic_ge c = Some b /\ ~ v >= int_value b
  | EGreaterThan => exists b, ic_gt c = Some b /\ ~ v > int_value b
  | _ => False
  end.
Proof.
  intros H v. unfold v. rewrite <- (as_int_value e). clear v. unfold validate_constrained_int in H.
  assert (Hb : forall err, check_int_bounds c (as_int e) = Some err ->
    match err with
    | ELessThanEqual => exists b, ic_le c = Some b /\ ~ int_value (as_int e) <= int_value b
    | ELessThan => exists b, ic_lt c = Some b /\ ~ int_value (as_int e) < int_value b
    | EGreaterThanEqual => exists b, ic_ge c = Some b /\ ~ int_value (as_int e) >= int_value b
    | EGreaterThan => exists b, ic_gt c = Some b /\ ~ int_value (as_int e) > int_value b
    | _ => False
    end).
  { intros er. unfold check_int_bounds.
    assert (V : forall (o : option int) bad, opt_violates o bad = true -> exists b, o = Some b /\ bad b = true).
    { intros [b|] bad Hv; [exists b; auto|discriminate]. }
    repeat match goal with |- context [if opt_violates ?o ?bad then _ else _] =>
      destruct (opt_violates o bad) eqn:?E;
        [intros Hi; injection Hi as <-; destruct (V _ _ E) as (b & Hb1 & Hb2); exists b; split; [assumption|];
         rewrite int_cmp_value in Hb2; destruct (Z.compare_spec (int_value (as_int e)) (int_value b)); try discriminate; lia
        | clear E] end.
    discriminate. }
  destruct (ic_multiple_of c) as [m|].
  - destruct (int_rem (as_int e) m) as [r|] eqn:Er; [|discriminate].
    apply int_rem_value in Er as [Hm Er]. rewrite int_cmp_value, Er in H. cbn [int_value] in H.
    destruct (Z.compare_spec (Z.rem (int_value (as_int e)) (int_value m)) 0) as [E|E|E]; cbn [is_eq] in H.
    + destruct (check_int_bounds c (as_int e)) as [er|]; [|discriminate]. injection H as ->. specialize (Hb _ eq_refl).
      destruct err; auto; contradiction.
    + injection H as <-. exists m. split; [reflexivity|]. rewrite <- rem_multiple by assumption. lia.
    + injection H as <-. exists m. split; [reflexivity|]. rewrite <- rem_multiple by assumption. lia.
  - destruct (check_int_bounds c (as_int e)) as [er|]; [|discriminate]. injection H as ->. specialize (Hb _ eq_refl).
    destruct err; auto; contradiction.
Qed.

(** Constrained floats. *)
Lemma real_le_fin a b : f_is_finite a = true -> f_is_finite b = true -> (real_le a b <-> scaled a <= scaled b).
Proof.
  intros Ha Hb. split.
  - intros H. inversion H; subst; try assumption; discriminate.
  - intros H. apply RL_finite; assumption.
Qed.

Lemma cmp_real a b : valid64 a = true -> valid64 b = true ->
  match f_cmp a b with
  | Some Lt => real_le a b /\ ~ real_le b a
  | Some Eq => real_le a b /\ real_le b a
  | Some Gt => ~ real_le a b /\ real_le b a
  | None => ~ real_le a b /\ ~ real_le b a
  end.
Proof.
  intros Va Vb. destruct (f_is_finite a) eqn:Fa, (f_is_finite b) eqn:Fb.
  - rewrite f_cmp_scaled by assumption. pose proof (real_le_fin a b Fa Fb); pose proof (real_le_fin b a Fb Fa).
    destruct (Z.compare_spec (scaled a) (scaled b)); (split; [apply H || (intros X; apply H in X) | apply H0 || (intros X; apply H0 in X)]); lia.
  - destruct a as [sa|[|]| |sa ma ea], b as [sb|[|]| |sb mb eb]; try discriminate; cbn;
      split; try (intros H; inversion H; subst; try discriminate; congruence); try (constructor; discriminate).
  - destruct a as [sa|[|]| |sa ma ea], b as [sb|[|]| |sb mb eb]; try discriminate; cbn;
      split; try (intros H; inversion H; subst; try discriminate; congruence); try (constructor; discriminate).
  - destruct a as [sa|[|]| |sa ma ea], b as [sb|[|]| |sb mb eb]; try discriminate; cbn;
      split; try (intros H; inversion H; subst; try discriminate; congruence); try (constructor; discriminate).
Qed.

Lemma constrained_float_iff c f : valid64 f = true ->
  (forall b, fc_le c = Some b \/ fc_lt c = Some b \/ fc_ge c = Some b \/ fc_gt c = Some b -> valid64 b = true) ->
  (validate_constrained_float c f = None <-> float_bounds_hold c f).
Proof.
  intros Vf Hv. unfold validate_constrained_float, float_bounds_hold.
  destruct (negb (fc_allow_inf_nan c) && negb (f_is_finite f)) eqn:E0.
  { apply andb_true_iff in E0 as [E1 E2]. apply negb_true_iff in E1, E2. rewrite E1, E2. split; [discriminate|]. intros [[H|H] _]; discriminate. }
  assert (H0 : fc_allow_inf_nan c = true \/ f_is_finite f = true).
  { destruct (fc_allow_inf_nan c), (f_is_finite f); auto; discriminate. }
  assert (Hm := violates_iff (fc_multiple_of c) (fun m => negb (multiple_of_ok m f)) (fun m => multiple_of_ok m f = true)).
  destruct (opt_violates (fc_multiple_of c) _).
  { split; [discriminate|]. intros (_ & H & _). apply Hm in H; [discriminate|]. intros b _. apply negb_false_iff. }
  assert (Hm' : bound (fc_multiple_of c) (fun m => multiple_of_ok m f = true)).
  { apply Hm; [|reflexivity]. intros b _. apply negb_false_iff. }
  clear Hm. rewrite chain4. unfold cmp_in, real_lt.
  rewrite (violates_iff (fc_le c) _ (fun b => real_le f b)),
    (violates_iff (fc_lt c) _ (fun b => real_le f b /\ ~ real_le b f)),
    (violates_iff (fc_ge c) _ (fun b => real_le b f)),
    (violates_iff (fc_gt c) _ (fun b => real_le b f /\ ~ real_le f b)); [tauto| | | | ];
    intros b Hb; assert (Vb : valid64 b = true) by (apply Hv; tauto);
    pose proof (cmp_real f b Vf Vb) as C; destruct (f_cmp f b) as [[| |]|]; cbn;
    (split; [intros H; try discriminate H; tauto | intros H; try reflexivity; exfalso; tauto]).
Qed.

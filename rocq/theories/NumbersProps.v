(** C06, C08, C09: floats and decimals as ints, numeric constraints. *)
From Coq Require Import List NArith ZArith Bool Lia.
From Verif Require Import Base Float64 Float64Proofs Numbers NumbersSpec NumbersProofs.
Import ListNotations.
Open Scope Z_scope.

(** C06: a double is accepted as the int [z] iff it is exactly [z] and [z] lies
    strictly between -2^63 and 2^63. *)
Theorem C06_float_as_int_exact : forall f z, valid64 f = true ->
  (float_as_int f = NOk z <-> float_is f z /\ - 2 ^ 63 < z < 2 ^ 63).
Proof. exact float_as_int_iff. Qed.
Print Assumptions C06_float_as_int_exact.

(** C06: which error is reported otherwise; there is no panic. *)
Theorem C06_float_as_int_errors : forall f, valid64 f = true ->
  float_as_int f <> NPanic /\
  (float_as_int f = NErr EFiniteNumber <-> f_is_finite f = false) /\
  (float_as_int f = NErr EIntFromFloat <-> f_is_finite f = true /\ forall z, ~ float_is f z) /\
  (float_as_int f = NErr EIntParsingSize <-> exists z, float_is f z /\ (z <= - 2 ^ 63 \/ 2 ^ 63 <= z)).
Proof.
  intros f V. destruct (float_as_int_total f V) as (H1 & H2 & H3). pose proof (fun z => float_as_int_iff f z V) as H4.
  split; [assumption|]. split; [assumption|]. split; [assumption|].
  assert (U : forall z1 z2, float_is f z1 -> float_is f z2 -> z1 = z2).
  { intros z1 z2 A B. destruct f as [s|s| |s m e]; try contradiction; [simpl in *; congruence|].
    apply (denotes_unique s m e); try assumption. apply (valid_finite s m e V). }
  split.
  - intros E. destruct f as [s|s| |s m e].
    + exists 0. exfalso. assert (X : float_as_int (S754_zero s) = NOk 0) by (destruct s; vm_compute; reflexivity). rewrite X in E. discriminate E.
    + discriminate E.
    + discriminate E.
    + unfold float_as_int in E. cbn [f_is_infinite f_is_nan orb f_fract_nonzero] in E. destruct (has_fraction m e) eqn:Hf; [discriminate E|]. pose proof (fraction_denotes s m e Hf) as Hd.
      eexists. split; [exact Hd|]. set (z := if s then _ else _) in *.
      destruct (Z_le_gt_dec z (- 2 ^ 63)); [left; assumption|]. destruct (Z_le_gt_dec (2 ^ 63) z); [right; assumption|].
      exfalso. assert (X : float_as_int (S754_finite s m e) = NOk z) by (apply H4; split; [assumption|lia]).
      unfold float_as_int in X. cbn [f_is_infinite f_is_nan orb f_fract_nonzero] in X. rewrite Hf in X. rewrite X in E. discriminate E.
  - intros (z & Hz & Hr). destruct (float_as_int f) as [z'|er|] eqn:E; [|destruct er|contradiction]; try reflexivity.
    + destruct (proj1 (H4 z') eq_refl) as [E1 E2]. pose proof (U _ _ Hz E1). lia.
    + exfalso. assert (f_is_finite f = false) by (apply H1; reflexivity). destruct f; try discriminate; contradiction.
    + exfalso. destruct H3 as [H3 _]. destruct (H3 eq_refl) as [_ H]. eapply H; exact Hz.
    + exfalso; unfold float_as_int in E; repeat match type of E with context [if ?c then _ else _] => destruct c end; discriminate E.
    + exfalso; unfold float_as_int in E; repeat match type of E with context [if ?c then _ else _] => destruct c end; discriminate E.
    + exfalso; unfold float_as_int in E; repeat match type of E with context [if ?c then _ else _] => destruct c end; discriminate E.
    + exfalso; unfold float_as_int in E; repeat match type of E with context [if ?c then _ else _] => destruct c end; discriminate E.
    + exfalso; unfold float_as_int in E; repeat match type of E with context [if ?c then _ else _] => destruct c end; discriminate E.
Qed.
Print Assumptions C06_float_as_int_errors.

(** C06, finding: -2^63 is an [i64] and exactly a double, yet it is refused. *)
Theorem C06_all_i64_floats_refuted : exists f z, valid64 f = true /\ float_is f z /\ - 2 ^ 63 <= z < 2 ^ 63 /\
  float_as_int f = NErr EIntParsingSize.
Proof.
  exists (S754_finite true 4503599627370496 11), (- 2 ^ 63). repeat split; try (vm_compute; congruence).
Qed.
Print Assumptions C06_all_i64_floats_refuted.

(** C06 for decimals: accepted iff integral, exactly, with no bound on the size. *)
Theorem C06_decimal_as_int_exact : forall neg coef exp z,
  decimal_as_int (DFin neg coef exp) = NOk z <-> decimal_is neg coef exp z.
Proof. exact decimal_as_int_iff. Qed.
Print Assumptions C06_decimal_as_int_exact.

Example C06_ex : (* 1e18, 0.5, 2^63, 1.50E+1, 1.5 *)
  float_as_int (f_of_Z (10 ^ 18)) = NOk (10 ^ 18) /\
  valid64 (S754_finite false 4503599627370496 (-53)) = true /\
  float_as_int (S754_finite false 4503599627370496 (-53)) = NErr EIntFromFloat /\
  float_as_int (f_of_Z (2 ^ 63)) = NErr EIntParsingSize /\
  decimal_as_int (DFin false 150 (-1)) = NOk 15 /\ decimal_as_int (DFin true 15 (-1)) = NErr EIntFromFloat.
Proof. vm_compute. repeat split. Qed.

(** C08: accepted (unchanged) iff all constraints hold mathematically, however the
    int and the bounds are stored; no panic for a non-zero divisor, except the one
    machine overflow. *)
Theorem C08_int_constraints_exact : forall c e,
  (forall m, ic_multiple_of c = Some m -> int_value m <> 0 /\ ~ (as_int e = I64 (- 2 ^ 63) /\ m = I64 (-1))) ->
  (validate_constrained_int c e = NOk e <-> int_constraints_hold c (either_int_value e)) /\
  validate_constrained_int c e <> NPanic /\
  (forall e', validate_constrained_int c e = NOk e' -> e' = e).
Proof. exact constrained_int_iff. Qed.
Print Assumptions C08_int_constraints_exact.

(** C08: the error reported names a constraint that does not hold. *)
Theorem C08_int_error_is_true : forall c e err, validate_constrained_int c e = NErr err ->
  let v := either_int_value e in
  match err with
  | EMultipleOf => exists m, ic_multiple_of c = Some m /\ ~ exists k, v = k * int_value m
  | ELessThanEqual => exists b, ic_le c = Some b /\ ~ v <= int_value b
  | ELessThan => exists b, ic_lt c = Some b /\ ~ v < int_value b
  | EGreaterThanEqual => exists b, ic_ge c = Some b /\ ~ v >= int_value b
  | EGreaterThan => exists b, ic_gt c = Some b /\ ~ v > int_value b
  | _ => False
  end.
Proof. exact constrained_int_error. Qed.
Print Assumptions C08_int_error_is_true.

(** C08: the representation chosen for an int does not change the verdict. *)
Theorem C08_representation_independent : forall c e1 e2,
  (forall m, ic_multiple_of c = Some m -> int_value m <> 0 /\ m <> I64 (-1)) ->
  either_int_value e1 = either_int_value e2 ->
  (validate_constrained_int c e1 = NOk e1 <-> validate_constrained_int c e2 = NOk e2).
Proof.
  intros c e1 e2 Hm E.
  assert (H : forall e, forall m, ic_multiple_of c = Some m -> int_value m <> 0 /\ ~ (as_int e = I64 (- 2 ^ 63) /\ m = I64 (-1))).
  { intros e m H. destruct (Hm m H) as [A B]. split; [assumption|]. intros [_ C]. contradiction. }
  rewrite (proj1 (constrained_int_iff c e1 (H e1))), (proj1 (constrained_int_iff c e2 (H e2))), E. reflexivity.
Qed.
Print Assumptions C08_representation_independent.

(** C08, finding: the two inputs on which the code panics. *)
Theorem C08_never_panics_refuted :
  (exists c e, either_int_wf e /\ validate_constrained_int c e = NPanic /\ int_constraints_hold c (either_int_value e)) /\
  (exists c e, either_int_wf e /\ ic_multiple_of c = Some (I64 0) /\ validate_constrained_int c e = NPanic).
Proof.
  split.
  - exists {| ic_multiple_of := Some (I64 (-1)); ic_le := None; ic_lt := None; ic_ge := None; ic_gt := None |}, (EI64 (- 2 ^ 63)).
    split; [vm_compute; split; congruence|]. split; [reflexivity|]. split; [exists (2 ^ 63); reflexivity|]. repeat split.
  - exists {| ic_multiple_of := Some (I64 0); ic_le := None; ic_lt := None; ic_ge := None; ic_gt := None |}, (EI64 3).
    split; [vm_compute; split; congruence|]. split; reflexivity.
Qed.
Print Assumptions C08_never_panics_refuted.

Example C08_ex :
  let c := {| ic_multiple_of := Some (I64 7); ic_le := Some (Big (7 * 2 ^ 70)); ic_lt := None; ic_ge := Some (I64 (-14)); ic_gt := None |} in
  int_value (I64 7) <> 0 /\ validate_constrained_int c (EPy (7 * 2 ^ 70)) = NOk (EPy (7 * 2 ^ 70)) /\
  validate_constrained_int c (EI64 (-14)) = NOk (EI64 (-14)) /\ validate_constrained_int c (EI64 (-21)) = NErr EGreaterThanEqual /\
  validate_constrained_int c (EBig (7 * 2 ^ 70 + 7)) = NErr ELessThanEqual /\ validate_constrained_int c (EU64 15) = NErr EMultipleOf.
Proof. vm_compute. repeat split. discriminate. Qed.

(** C09: accepted iff the finiteness rule, the multiple_of computation and all
    bounds hold; bounds are read in the real ordering, where NaN is related to
    nothing. *)
Theorem C09_float_constraints : forall c f, valid64 f = true ->
  (forall b, fc_le c = Some b \/ fc_lt c = Some b \/ fc_ge c = Some b \/ fc_gt c = Some b -> valid64 b = true) ->
  (validate_constrained_float c f = None <-> float_bounds_hold c f).
Proof. exact constrained_float_iff. Qed.
Print Assumptions C09_float_constraints.

(** C09: a NaN input fails as soon as one bound is configured, and infinities and
    NaN fail when not allowed. *)
Theorem C09_nan_fails_bounds : forall c b,
  fc_le c = Some b \/ fc_lt c = Some b \/ fc_ge c = Some b \/ fc_gt c = Some b ->
  validate_constrained_float c S754_nan <> None.
Proof.
  intros c b H E. unfold validate_constrained_float, opt_violates, cmp_in in E. cbn [f_is_finite negb] in E.
  repeat match type of E with context [if ?x then _ else _] => let X := fresh in destruct x eqn:X; [discriminate|] end.
  assert (N : forall x, f_cmp S754_nan x = None) by reflexivity.
  destruct H as [H|[H|[H|H]]]; rewrite H in *;
    repeat match goal with X : negb (match f_cmp S754_nan ?y with Some _ => _ | None => _ end) = false |- _ => rewrite N in X; discriminate end.
Qed.
Print Assumptions C09_nan_fails_bounds.

Theorem C09_finite_rule : forall c f, fc_allow_inf_nan c = false ->
  (validate_constrained_float c f = Some EFiniteNumber <-> f_is_finite f = false).
Proof.
  intros c f H. unfold validate_constrained_float. rewrite H. cbn [negb andb]. destruct (f_is_finite f); cbn [negb].
  - split; [|discriminate]. intros E.
    repeat match type of E with context [if ?x then _ else _] => destruct x; [discriminate|] end. discriminate.
  - split; reflexivity.
Qed.
Print Assumptions C09_finite_rule.

(** C09, finding: infinities and NaN pass every multiple_of constraint. *)
Theorem C09_multiple_of_refuted : forall m,
  multiple_of_ok m (S754_infinity false) = true /\ multiple_of_ok m S754_nan = true.
Proof.
  intros m. split.
  - destruct m as [[|]|[|]| |[|] m e]; reflexivity.
  - destruct m as [[|]|[|]| |[|] m e]; reflexivity.
Qed.
Print Assumptions C09_multiple_of_refuted.

Example C09_ex :
  let half := S754_finite false 4503599627370496 (-53) in
  let c := {| fc_allow_inf_nan := true; fc_multiple_of := Some half; fc_le := None; fc_lt := Some (S754_infinity false); fc_ge := Some (f_of_Z (-3)); fc_gt := None |} in
  valid64 half = true /\ valid64 (f_of_Z (-3)) = true /\
  validate_constrained_float c (f_of_Z (-3)) = None /\ validate_constrained_float c half = None /\
  validate_constrained_float c (S754_infinity false) = Some ELessThan /\
  validate_constrained_float c (S754_finite false 4503599627370496 (-54)) = Some EMultipleOf /\
  validate_constrained_float c (f_of_Z (-4)) = Some EGreaterThanEqual /\ validate_constrained_float c S754_nan = Some ELessThan.
Proof. vm_compute. repeat split. Qed.

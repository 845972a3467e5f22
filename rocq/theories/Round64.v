(** A rounding of rationals to binary64 (to the nearest, ties away from zero; overflow is
    left out): it has the properties that TimeDeltaSpec and DeltaTextSpec ask of IEEE
    rounding, so that the theorems that suppose them are not about nothing. *)
From Coq Require Import ZArith QArith Qabs Lia Lqa.
From Verif Require Import TimeDelta TimeDeltaSpec DeltaTextSpec.
Open Scope Z_scope.

(** The least positive double is 1 / 2^1074. *)
Definition units : Z := 2 ^ 1074.
(** The grid (in units) for the magnitude a/b (in units). *)
Definition grid (a b : Z) : Z := 2 ^ Z.max 0 (Z.log2 (a / b) - 52).
Definition round_units (a b : Z) : Z := let g := grid a b in ((2 * a + b * g) / (2 * b * g)) * g.
Definition round64 (q : Q) : Q :=
  let r := round_units (Z.abs (Qnum q) * units) (Zpos (Qden q)) in
  ((if Qnum q <? 0 then - r else r) # Z.to_pos units).

Lemma units_pos : 0 < units. Proof. reflexivity. Qed.
Lemma units_den : Zpos (Z.to_pos units) = units. Proof. apply Z2Pos.id, units_pos. Qed.
Lemma grid_pos : forall a b, 0 < grid a b.
Proof. intros. apply Z.pow_pos_nonneg; lia. Qed.

(** What is known of the grid. *)
Lemma grid_upper : forall a b, 0 <= a -> 0 < b -> a < b * (grid a b * 2 ^ 53).
Proof.
  intros a b Ha Hb. unfold grid. set (n := a / b). assert (0 <= n) by (apply Z.div_pos; lia).
  assert (A : n < 2 ^ Z.max 0 (Z.log2 n - 52) * 2 ^ 53).
  { rewrite <- Z.pow_add_r by lia. destruct (Z.eq_dec n 0) as [->|N]; [apply Z.pow_pos_nonneg; lia|].
    pose proof (Z.log2_spec n ltac:(lia)) as [_ U]. eapply Z.lt_le_trans; [exact U|]. apply Z.pow_le_mono_r; lia. }
  pose proof (Z.div_mod a b ltac:(lia)) as D. pose proof (Z.mod_pos_bound a b Hb). fold n in D. nia.
Qed.
Lemma grid_lower : forall a b, 0 <= a -> 0 < b -> 1 < grid a b -> b * (grid a b * 2 ^ 52) <= a.
Proof.
  intros a b Ha Hb G. unfold grid in *. set (n := a / b) in *. assert (0 <= n) by (apply Z.div_pos; lia).
  destruct (Z.max_spec 0 (Z.log2 n - 52)) as [[L E]|[L E]]; rewrite E in *; [|change (2 ^ 0) with 1 in G; lia].
  assert (A : 2 ^ (Z.log2 n - 52) * 2 ^ 52 <= n).
  { rewrite <- Z.pow_add_r by lia. replace (Z.log2 n - 52 + 52) with (Z.log2 n) by lia. apply Z.log2_spec. destruct (Z.eq_dec n 0) as [E0|N]; [rewrite E0 in L; cbn in L; lia|lia]. }
  pose proof (Z.div_mod a b ltac:(lia)) as D. pose proof (Z.mod_pos_bound a b Hb). fold n in D. nia.
Qed.
Lemma grid_mono : forall a b a' b', 0 <= a -> 0 < b -> 0 < b' -> a * b' <= a' * b -> grid a b <= grid a' b'.
Proof.
  intros a b a' b' Ha Hb Hb' H. apply Z.pow_le_mono_r; [lia|]. assert (Z.log2 (a / b) <= Z.log2 (a' / b')); [|lia]. apply Z.log2_le_mono.
  apply Z.div_le_lower_bound; [lia|]. pose proof (Z.mul_div_le a b Hb). nia.
Qed.
Lemma round_bounds : forall a b, 0 <= a -> 0 < b -> let r := round_units a b in let g := grid a b in
  0 <= r /\ 2 * b * r <= 2 * a + b * g /\ 2 * a < 2 * b * r + b * g.
Proof.
  intros a b Ha Hb r g. pose proof (grid_pos a b) as G. fold g in G. unfold r, round_units. fold g. set (k := (2 * a + b * g) / (2 * b * g)).
  assert (0 < b * g) by nia. pose proof (Z.div_mod (2 * a + b * g) (2 * b * g) ltac:(nia)) as D. pose proof (Z.mod_pos_bound (2 * a + b * g) (2 * b * g) ltac:(nia)) as M. fold k in D.
  assert (0 <= k) by (apply Z.div_pos; nia). split; [nia|]. split; nia.
Qed.
Lemma round_mono : forall a b a' b', 0 <= a -> 0 < b -> 0 <= a' -> 0 < b' -> a * b' <= a' * b -> round_units a b <= round_units a' b'.
Proof.
  intros a b a' b' Ha Hb Ha' Hb' H. pose proof (grid_mono a b a' b' Ha Hb Hb' H) as G. pose proof (grid_pos a b) as P. pose proof (grid_pos a' b') as P'.
  unfold round_units. set (g := grid a b) in *. set (g' := grid a' b') in *.
  destruct (Z.eq_dec g g') as [E|N].
  - rewrite <- E. apply Z.mul_le_mono_nonneg_r; [lia|]. set (k := (2 * a + b * g) / (2 * b * g)).
    apply Z.div_le_lower_bound; [nia|]. assert (K : 2 * b * g * k <= 2 * a + b * g) by (apply Z.mul_div_le; nia).
    assert (b * (2 * b' * g * k) <= b * (2 * a' + b' * g)) by nia. nia.
  - assert (T : exists j j', g = 2 ^ j /\ g' = 2 ^ j' /\ 0 <= j < j').
    { unfold g, g', grid in *. eexists _, _. split; [reflexivity|]. split; [reflexivity|]. split; [lia|].
      set (x := Z.max 0 (Z.log2 (a / b) - 52)) in *. set (y := Z.max 0 (Z.log2 (a' / b') - 52)) in *.
      destruct (Z_lt_ge_dec x y) as [L|L]; [exact L|]. exfalso. assert (2 ^ y <= 2 ^ x) by (apply Z.pow_le_mono_r; lia). lia. }
    destruct T as (j & j' & Ej & Ej' & Hj).
    assert (G2 : 2 * g <= g').
    { rewrite Ej, Ej'. change 2 with (2 ^ 1) at 1. rewrite <- Z.pow_add_r by lia. apply Z.pow_le_mono_r; lia. }
    pose proof (grid_upper a b Ha Hb) as U. pose proof (grid_lower a' b' Ha' Hb') as L. fold g in U. fold g' in L. specialize (L ltac:(lia)).
    assert (K : (2 * a + b * g) / (2 * b * g) <= 2 ^ 53).
    { assert ((2 * a + b * g) / (2 * b * g) < 2 ^ 53 + 1); [|lia]. apply Z.div_lt_upper_bound; [nia|]. nia. }
    assert (K' : 2 ^ 52 <= (2 * a' + b' * g') / (2 * b' * g')) by (apply Z.div_le_lower_bound; nia).
    apply Z.le_trans with (2 ^ 53 * g); [apply Z.mul_le_mono_nonneg_r; lia|]. apply Z.le_trans with (2 ^ 52 * g'); [change (2 ^ 53) with (2 ^ 52 * 2); lia|].
    apply Z.mul_le_mono_nonneg_r; lia.
Qed.
Lemma round_exact : forall a c g, g = grid a 1 -> a = c * g -> round_units a 1 = a.
Proof.
  intros a c g E A. unfold round_units. rewrite <- E. pose proof (grid_pos a 1) as P. rewrite <- E in P. rewrite !Z.mul_1_l, !Z.mul_1_r. rewrite A at 2. f_equal.
  symmetry. apply Z.div_unique with g; lia.
Qed.

Definition signed_round (q : Q) : Z :=
  let r := round_units (Z.abs (Qnum q) * units) (Zpos (Qden q)) in if Qnum q <? 0 then - r else r.
Lemma round64_eq : forall q, round64 q = (signed_round q # Z.to_pos units).
Proof. reflexivity. Qed.
Lemma tiny_units : (tiny == 1 # (2 * Z.to_pos units))%Q.
Proof. reflexivity. Qed.
Lemma units_eq : units = 2 ^ 1074.
Proof. reflexivity. Qed.
Global Opaque units.

Lemma round64_mono : forall x y, (x <= y)%Q -> (round64 x <= round64 y)%Q.
Proof.
  intros [a d] [a' d'] H. rewrite !round64_eq. unfold Qle in *. cbn [Qnum Qden] in *. rewrite units_den. pose proof units_pos as U.
  apply Z.mul_le_mono_nonneg_r; [lia|]. unfold signed_round. cbn [Qnum Qden].
  destruct (Z.ltb_spec a 0) as [A|A], (Z.ltb_spec a' 0) as [B|B].
  - assert (round_units (Z.abs a' * units) (Z.pos d') <= round_units (Z.abs a * units) (Z.pos d)); [|lia].
    apply round_mono; try nia. 
  - pose proof (round_bounds (Z.abs a * units) (Z.pos d) ltac:(nia) ltac:(lia)) as [P _]. pose proof (round_bounds (Z.abs a' * units) (Z.pos d') ltac:(nia) ltac:(lia)) as [P' _]. lia.
  - nia.
  - apply round_mono; try nia.
Qed.
Lemma round64_int : forall z, Z.abs z <= 2 ^ 53 -> (round64 (inject_Z z) == inject_Z z)%Q.
Proof.
  intros z H. rewrite round64_eq. unfold Qeq. cbn [Qnum Qden inject_Z]. rewrite units_den, Z.mul_1_r.
  unfold signed_round. cbn [Qnum Qden inject_Z].
  assert (E : round_units (Z.abs z * units) 1 = Z.abs z * units); [|rewrite E; destruct (Z.ltb_spec z 0); lia].
  pose proof units_pos as U.
  destruct (Z.eq_dec z 0) as [->|N]; [apply (round_exact _ 0 (grid (Z.abs 0 * units) 1)); reflexivity|].
  pose proof units_eq as Hu.
  assert (G : exists j, grid (Z.abs z * units) 1 = 2 ^ j /\ 0 <= j /\ (j <= 1074 \/ (j = 1075 /\ Z.abs z = 2 ^ 53))).
  { unfold grid. rewrite Z.div_1_r, Hu, Z.log2_mul_pow2 by lia. eexists. split; [reflexivity|]. split; [lia|].
    assert (Z.log2 (Z.abs z) <= 53) by (change 53 with (Z.log2 (2 ^ 53)); apply Z.log2_le_mono, H).
    destruct (Z.eq_dec (Z.log2 (Z.abs z)) 53) as [L|L]; [right|left; lia]. split; [lia|].
    pose proof (Z.log2_spec (Z.abs z) ltac:(lia)) as [S _]. rewrite L in S. lia. }
  destruct G as (j & Ej & J & [L|[-> L]]).
  - apply (round_exact _ (Z.abs z * 2 ^ (1074 - j)) (2 ^ j)); [symmetry; exact Ej|]. rewrite <- Z.mul_assoc, <- Z.pow_add_r by lia. rewrite Hu. do 2 f_equal. lia.
  - apply (round_exact _ (2 ^ 52) (2 ^ 1075)); [symmetry; exact Ej|]. rewrite L, Hu, <- !Z.pow_add_r by lia. f_equal.
Qed.
Lemma round64_err : forall x, (Qabs (round64 x - x) <= Qabs x * (1 # 9007199254740992) + tiny)%Q.
Proof.
  intros [a d]. rewrite round64_eq, tiny_units. pose proof units_pos as U.
  pose proof (round_bounds (Z.abs a * units) (Z.pos d) ltac:(nia) ltac:(lia)) as (R0 & R1 & R2). set (r := round_units _ _) in *. set (g := grid _ _) in *.
  assert (G : g = 1 \/ Z.pos d * (g * 2 ^ 52) <= Z.abs a * units).
  { destruct (Z.eq_dec g 1) as [E|E]; [left; exact E|right]. apply grid_lower; [nia|lia|]. fold g. pose proof (grid_pos (Z.abs a * units) (Z.pos d)). fold g in H. lia. }
  (* everything over the denominator 2^54 * units * d *)
  assert (E : (Qabs ((signed_round (a # d) # Z.to_pos units) - (a # d)) == Z.abs (r * Z.pos d - Z.abs a * units) # (Z.to_pos units * d))%Q).
  { unfold Qminus, Qplus, Qopp, Qabs, Qeq. cbn [Qnum Qden]. rewrite !Pos2Z.inj_mul, !units_den. f_equal. unfold signed_round. cbn [Qnum Qden]. fold r. destruct (Z.ltb_spec a 0); nia. }
  rewrite E. unfold Qabs, Qmult, Qplus, Qle. cbn [Qnum Qden]. rewrite !Pos2Z.inj_mul, !units_den.
  set (D := Z.pos d) in *. assert (0 < D) by (unfold D; lia). clearbody D r g. set (A := Z.abs a) in *. assert (0 <= A) by (unfold A; lia). clearbody A.
  assert (K : 2 * Z.abs (r * D - A * units) <= D * g) by nia.
  assert (M : 2 ^ 54 * Z.abs (r * D - A * units) <= 2 * A * units + 2 ^ 53 * D).
  { destruct G as [->|G]; [nia|]. change (2 ^ 54) with (2 ^ 53 * 2). nia. }
  set (V := Z.abs (r * D - A * units)) in *. clearbody V.
  change (Z.pos 9007199254740992) with (2 ^ 53) in *. change (Z.pos 2) with 2.
  assert (V * (D * 2 ^ 53 * (2 * units)) <= (A * (2 * units) + D * 2 ^ 53) * (units * D) <-> V * (2 ^ 54) * (D * units) <= (2 * A * units + 2 ^ 53 * D) * (D * units)).
  { change (2 ^ 54) with (2 ^ 53 * 2). split; intros; nia. }
  assert (0 < D * units) by nia. nia.
Qed.
Lemma round64_doubles : rounds_to_doubles round64.
Proof.
  intros [a d] H. rewrite round64_eq. pose proof units_pos as U.
  set (r := round_units (Z.abs a * units) (Z.pos d)). pose proof (round_bounds (Z.abs a * units) (Z.pos d) ltac:(nia) ltac:(lia)) as (R0 & _ & _). fold r in R0.
  assert (B : Z.abs a < 2 ^ 52 * Z.pos d) by (unfold Qlt in H; cbn [Qabs Qnum Qden inject_Z] in H; lia).
  assert (J : exists j, grid (Z.abs a * units) (Z.pos d) = 2 ^ j /\ 0 <= j <= 1073).
  { unfold grid. eexists. split; [reflexivity|]. split; [lia|]. set (n := Z.abs a * units / Z.pos d).
    assert (n < 2 ^ 1126). { apply Z.div_lt_upper_bound; [lia|]. rewrite units_eq. change 1126 with (52 + 1074). rewrite Z.pow_add_r by lia. assert (0 < 2 ^ 1074) by (apply Z.pow_pos_nonneg; lia). nia. }
    assert (Z.log2 n < 1126); [|lia]. destruct (Z_lt_ge_dec 0 n) as [P|P]; [apply Z.log2_lt_pow2; assumption|rewrite Z.log2_nonpos by lia; lia]. }
  destruct J as (j & Ej & Hj).
  pose proof (grid_upper (Z.abs a * units) (Z.pos d) ltac:(nia) ltac:(lia)) as Up.
  assert (K : exists k, r = k * 2 ^ j /\ 0 <= k <= 2 ^ 53).
  { unfold r, round_units. rewrite Ej in *. eexists. split; [reflexivity|]. assert (0 < 2 ^ j) by (apply Z.pow_pos_nonneg; lia). split; [apply Z.div_pos; nia|].
    assert ((2 * (Z.abs a * units) + Z.pos d * 2 ^ j) / (2 * Z.pos d * 2 ^ j) < 2 ^ 53 + 1); [|lia]. apply Z.div_lt_upper_bound; nia. }
  destruct K as (k & Ek & Hk).
  assert (Q : (Qabs (signed_round (a # d) # Z.to_pos units) == (k * 2 ^ j) # Z.to_pos units)%Q).
  { unfold Qabs, Qeq. cbn [Qnum Qden]. f_equal. unfold signed_round. cbn [Qnum Qden]. fold r. rewrite <- Ek. destruct (Z.ltb_spec a 0); lia. }
  assert (W : forall m i, 0 <= i -> m * 2 ^ 1074 = k * 2 ^ j * 2 ^ i -> ((k * 2 ^ j) # Z.to_pos units == inject_Z m / inject_Z (2 ^ Z.of_nat (Z.to_nat i)))%Q).
  { intros m i Hi E. rewrite Z2Nat.id by exact Hi. assert (P : 0 < 2 ^ i) by (apply Z.pow_pos_nonneg; lia).
    assert (X : ((k * 2 ^ j) # Z.to_pos units == inject_Z (k * 2 ^ j) / inject_Z units)%Q).
    { rewrite Qmake_Qdiv, units_den. reflexivity. }
    rewrite X. rewrite units_eq.
    assert (N1 : ~ (inject_Z (2 ^ 1074) == 0)%Q) by (intros Z0; change 0%Q with (inject_Z 0) in Z0; apply (proj1 (inject_Z_injective _ _)) in Z0; rewrite <- units_eq in Z0; lia).
    assert (N2 : ~ (inject_Z (2 ^ i) == 0)%Q) by (intros Z0; change 0%Q with (inject_Z 0) in Z0; apply (proj1 (inject_Z_injective _ _)) in Z0; lia).
    apply (Qmult_inj_r _ _ (inject_Z (2 ^ 1074) * inject_Z (2 ^ i))); [intros Z0; apply Qmult_integral in Z0 as [Z0|Z0]; contradiction|].
    transitivity (inject_Z (k * 2 ^ j) * inject_Z (2 ^ i))%Q; [field; exact N1|]. transitivity (inject_Z m * inject_Z (2 ^ 1074))%Q; [|field; exact N2].
    rewrite <- !inject_Z_mult, E. reflexivity. }
  destruct (Z.eq_dec k (2 ^ 53)) as [E|E].
  - exists (2 ^ 52), (Z.to_nat (1073 - j)). split; [lia|]. rewrite Q. apply W; [lia|]. rewrite E, <- !Z.pow_add_r by lia. f_equal. lia.
  - exists k, (Z.to_nat (1074 - j)). split; [lia|]. rewrite Q. apply W; [lia|]. rewrite <- Z.mul_assoc, <- Z.pow_add_r by lia. do 2 f_equal. lia.
Qed.
Lemma round64_ieee : ieee_rounding round64.
Proof. constructor; [exact round64_mono|exact round64_int|exact round64_err]. Qed.

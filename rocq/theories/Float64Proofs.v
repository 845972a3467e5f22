From Coq Require Import ZArith Bool Lia.
From Verif Require Import Base Float64.
Open Scope Z_scope.

Lemma digits2_pos_bounds m : 2 ^ (Z.pos (digits2_pos m) - 1) <= Z.pos m < 2 ^ Z.pos (digits2_pos m).
Proof.
  induction m as [m IH|m IH|]; cbn [digits2_pos]; rewrite ?Pos2Z.inj_succ.
  - replace (Z.succ (Z.pos (digits2_pos m)) - 1) with (Z.succ (Z.pos (digits2_pos m) - 1)) by lia.
    rewrite !Z.pow_succ_r by lia. lia.
  - replace (Z.succ (Z.pos (digits2_pos m)) - 1) with (Z.succ (Z.pos (digits2_pos m) - 1)) by lia.
    rewrite !Z.pow_succ_r by lia. lia.
  - split; reflexivity.
Qed.

Lemma valid_finite s m e : valid64 (S754_finite s m e) = true ->
  -1074 <= e /\ Z.pos m < 2 ^ 53 /\ (-1074 < e -> 2 ^ 52 <= Z.pos m) /\ e <= 971.
Proof.
  unfold valid64, valid_binary, bounded, canonical_mantissa, fexp, emin, prec64, emax64.
  intros H. apply andb_true_iff in H as [H1 H2]. apply Zeq_bool_eq in H1. apply Zle_bool_imp_le in H2.
  pose proof (digits2_pos_bounds m) as [B1 B2].
  set (d := Z.pos (digits2_pos m)) in *.
  assert (Hd : d <= 53) by lia.
  split; [lia|]. split; [|split; [|lia]].
  - eapply Z.lt_le_trans; [exact B2|]. apply Z.pow_le_mono_r; lia.
  - intros He. assert (d = 53) by lia. replace (d - 1) with 52 in B1 by lia. exact B1.
Qed.

Lemma scaled_pos m e : -1074 <= e -> 0 < Z.pos m * 2 ^ (e + 1074).
Proof. intros H. apply Z.mul_pos_pos; [lia|]. apply Z.pow_pos_nonneg; lia. Qed.

(** Comparing magnitudes of canonical numbers. *)
Lemma cmp_magnitude s1 m1 e1 s2 m2 e2 :
  valid64 (S754_finite s1 m1 e1) = true -> valid64 (S754_finite s2 m2 e2) = true ->
  (e1 < e2 -> Z.pos m1 * 2 ^ (e1 + 1074) < Z.pos m2 * 2 ^ (e2 + 1074)) /\
  (e1 = e2 -> (Z.pos m1 * 2 ^ (e1 + 1074) ?= Z.pos m2 * 2 ^ (e2 + 1074)) = (Z.pos m1 ?= Z.pos m2)).
Proof.
  intros H1 H2. apply valid_finite in H1 as (A1 & A2 & A3 & _). apply valid_finite in H2 as (B1 & B2 & B3 & _). split.
  - intros He. assert (2 ^ 52 <= Z.pos m2) by (apply B3; lia).
    apply Z.lt_le_trans with (2 ^ 53 * 2 ^ (e1 + 1074)).
    + apply Z.mul_lt_mono_pos_r; [apply Z.pow_pos_nonneg; lia | assumption].
    + apply Z.le_trans with (2 ^ 52 * 2 ^ (e2 + 1074)).
      * rewrite <- !Z.pow_add_r by lia. apply Z.pow_le_mono_r; lia.
      * apply Z.mul_le_mono_nonneg_r; [apply Z.pow_nonneg; lia | assumption].
  - intros ->. rewrite !(Z.mul_comm _ (2 ^ (e2 + 1074))). symmetry. apply Zmult_compare_compat_l.
    apply Z.lt_gt, Z.pow_pos_nonneg; lia.
Qed.

Lemma f_cmp_scaled a b : valid64 a = true -> valid64 b = true -> f_is_finite a = true -> f_is_finite b = true ->
  f_cmp a b = Some (scaled a ?= scaled b).
Proof.
  intros Va Vb Fa Fb.
  destruct a as [sa|sa| |sa ma ea]; try discriminate; destruct b as [sb|sb| |sb mb eb]; try discriminate; cbn [f_cmp SFcompare scaled].
  - reflexivity.
  - assert (H : 0 < Z.pos mb * 2 ^ (eb + 1074)) by (apply scaled_pos; apply valid_finite in Vb; lia).
    destruct sb; f_equal; symmetry; [apply Z.compare_gt_iff | apply Z.compare_lt_iff]; lia.
  - assert (H : 0 < Z.pos ma * 2 ^ (ea + 1074)) by (apply scaled_pos; apply valid_finite in Va; lia).
    destruct sa; f_equal; symmetry; [apply Z.compare_lt_iff | apply Z.compare_gt_iff]; lia.
  - assert (Ha : 0 < Z.pos ma * 2 ^ (ea + 1074)) by (apply scaled_pos; apply valid_finite in Va; lia).
    assert (Hb : 0 < Z.pos mb * 2 ^ (eb + 1074)) by (apply scaled_pos; apply valid_finite in Vb; lia).
    destruct (cmp_magnitude _ _ _ _ _ _ Va Vb) as [L1 E1]. destruct (cmp_magnitude _ _ _ _ _ _ Vb Va) as [L2 _].
    assert (Hm : (Z.pos ma * 2 ^ (ea + 1074) ?= Z.pos mb * 2 ^ (eb + 1074)) =
                 match Z.compare ea eb with Lt => Lt | Gt => Gt | Eq => Pos.compare_cont Eq ma mb end).
    { destruct (Z.compare_spec ea eb) as [He|He|He].
      - rewrite (E1 He). reflexivity.
      - apply Z.compare_lt_iff. auto.
      - apply Z.compare_gt_iff. auto. }
    set (x := Z.pos ma * 2 ^ (ea + 1074)) in *. set (y := Z.pos mb * 2 ^ (eb + 1074)) in *.
    destruct sa, sb; f_equal; rewrite ?Z.mul_1_l.
    + assert (E : (-1 * x ?= -1 * y) = CompOpp (x ?= y)).
      { rewrite <- Z.compare_antisym. replace (-1 * x) with (- x) by lia. replace (-1 * y) with (- y) by lia. apply Z.compare_opp. }
      rewrite E, Hm. destruct (ea ?= eb); reflexivity.
    + symmetry. apply Z.compare_lt_iff. lia.
    + symmetry. apply Z.compare_gt_iff. lia.
    + rewrite Hm. reflexivity.
Qed.

Lemma f_lt_scaled a b : valid64 a = true -> valid64 b = true -> f_is_finite a = true -> f_is_finite b = true ->
  f_lt a b = (scaled a <? scaled b).
Proof.
  intros. unfold f_lt, SFltb, SFcompare. pose proof (f_cmp_scaled a b) as E. unfold f_cmp, SFcompare in E.
  rewrite E by assumption. unfold Z.ltb. destruct (scaled a ?= scaled b); reflexivity.
Qed.

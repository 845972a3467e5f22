From Coq Require Import List NArith ZArith Bool Lia.
From Verif Require Import Base Decimal DecDigits DecDigitsSpec.
Import ListNotations.
Open Scope Z_scope.
Ltac Zify.zify_post_hook ::= Z.to_euclidean_division_equations.

Lemma dec_value_lt s : Forall (fun c => is_digit c = true) s -> Z.of_N (dec_value s) < 10 ^ Z.of_nat (length s).
Proof.
  induction s as [|c s IH] using rev_ind; intros H.
  - reflexivity.
  - apply Forall_app in H as [H1 H2]. inversion H2; subst. apply is_digit_spec in H3.
    specialize (IH H1). rewrite dec_value_snoc, app_length. simpl length.
    replace (Z.of_nat (length s + 1)) with (Z.succ (Z.of_nat (length s))) by lia.
    rewrite Z.pow_succ_r by lia. lia.
Qed.

Lemma canonical_ge s : canonical s -> 10 ^ (Z.of_nat (length s) - 1) <= Z.of_N (dec_value s).
Proof.
  induction s as [|c s IH] using rev_ind; intros [H [c0 [r [E Hc]]]]; [discriminate|].
  rewrite dec_value_snoc, app_length. simpl length.
  destruct s as [|c1 s].
  - simpl in *. injection E as -> ->. apply is_digit19_spec in Hc. unfold dec_value; simpl. lia.
  - injection E as -> E. apply Forall_app in H as [H1 H2].
    assert (Hcan : canonical (c0 :: s)) by (split; eauto). specialize (IH Hcan).
    replace (Z.of_nat (length (c0 :: s) + 1) - 1) with (Z.succ (Z.of_nat (length (c0 :: s)) - 1)) by lia.
    rewrite Z.pow_succ_r by (simpl length; lia). lia.
Qed.

Lemma ndigits_lt c : Z.of_N c < 10 ^ ndigits c.
Proof. unfold ndigits. rewrite <- (dec_N_value c) at 1. apply dec_value_lt, dec_N_digits. Qed.

Lemma ndigits_ge c : c <> 0%N -> 10 ^ (ndigits c - 1) <= Z.of_N c.
Proof.
  intros H. unfold ndigits. rewrite <- (dec_N_value c) at 2. apply canonical_ge, dec_N_canonical, H.
Qed.

Lemma ndigits_pos c : 1 <= ndigits c.
Proof. unfold ndigits. destruct (dec_N_props c) as [_ [_ [x [r [E _]]]]]. rewrite E. simpl length. lia. Qed.

Lemma pow10_pos k : 0 <= k -> 0 < 10 ^ k.
Proof. intros. apply Z.pow_pos_nonneg; lia. Qed.

(** [ndigits] is the least number of digits. *)
Lemma ndigits_le_iff c n : 1 <= n -> ndigits c <= n <-> Z.of_N c < 10 ^ n.
Proof.
  intros Hn. split; intros H.
  - eapply Z.lt_le_trans; [apply ndigits_lt|]. apply Z.pow_le_mono_r; lia.
  - destruct (N.eq_dec c 0) as [->|Hc].
    + vm_compute ndigits. lia.
    + pose proof (ndigits_ge c Hc) as G. pose proof (ndigits_pos c) as P.
      destruct (Z.le_gt_cases (ndigits c) n) as [|L]; [assumption|].
      assert (10 ^ n <= 10 ^ (ndigits c - 1)) by (apply Z.pow_le_mono_r; lia). lia.
Qed.

Lemma strip_zeros_spec fuel : forall c e c' e',
  strip_zeros fuel c e = (c', e') -> c <> 0%N -> Z.of_N c < 10 ^ Z.of_nat fuel ->
  exists k, 0 <= k /\ e' = e + k /\ Z.of_N c = Z.of_N c' * 10 ^ k /\ (c' mod 10 <> 0)%N.
Proof.
  induction fuel as [|f IH]; intros c e c' e' E Hc Hb.
  - simpl in Hb. lia.
  - simpl strip_zeros in E. destruct (N.eqb_spec (c mod 10) 0) as [Hz|Hz].
    + assert (Hq : Z.of_N c = 10 * Z.of_N (c / 10)) by lia.
      rewrite Nat2Z.inj_succ, Z.pow_succ_r in Hb by lia.
      apply IH in E as [k [Hk [He [Hv Hm]]]]; [| lia | lia].
      exists (Z.succ k). rewrite Z.pow_succ_r by lia. repeat split; (assumption || lia).
    + injection E as <- <-. exists 0. repeat split; (assumption || lia).
Qed.

(** The normal form of a number within the precision. *)
Lemma normalize_spec prec d : ndigits (coef d) <= prec -> coef d <> 0%N ->
  exists k, 0 <= k /\ dexp (py_normalize prec d) = dexp d + k /\
    Z.of_N (coef d) = Z.of_N (coef (py_normalize prec d)) * 10 ^ k /\
    (coef (py_normalize prec d) mod 10 <> 0)%N.
Proof.
  intros Hp Hc. unfold py_normalize. apply Z.leb_le in Hp. rewrite Hp.
  apply N.eqb_neq in Hc as Hc'. rewrite Hc'.
  destruct (strip_zeros _ (coef d) (dexp d)) as [c' e'] eqn:E.
  apply strip_zeros_spec in E; [exact E | exact Hc | apply ndigits_lt].
Qed.

Lemma normalize_zero prec e : 1 <= prec -> py_normalize prec (mk_decimal 0 e) = mk_decimal 0 0.
Proof.
  intros H. unfold py_normalize. cbn [coef dexp]. change (ndigits 0) with 1.
  apply Z.leb_le in H. rewrite H. reflexivity.
Qed.

(** Digits and decimals of a decimal as written, as a function of (c, e). *)
Definition decimals_of (d : decimal) : Z := Z.max 0 (- dexp d).
Definition digits_of (d : decimal) : Z := Z.max (ndigits (coef d) + Z.max 0 (dexp d)) (decimals_of d).

Lemma extract_raw prec d : extract_digits_info prec d false = (decimals_of d, digits_of d).
Proof.
  unfold extract_digits_info, decimals_of, digits_of. pose proof (ndigits_pos (coef d)).
  unfold decimals_of. destruct (Z.leb_spec 0 (dexp d)); f_equal; lia.
Qed.
Lemma extract_norm prec d :
  extract_digits_info prec d true = (decimals_of (py_normalize prec d), digits_of (py_normalize prec d)).
Proof.
  rewrite <- (extract_raw prec). unfold extract_digits_info. reflexivity.
Qed.

Lemma times_pow10_0 d k N : Z.of_N (coef d) = 0 -> times_pow10 d k N <-> N = 0.
Proof.
  unfold times_pow10. intros ->. rewrite Z.mul_0_l.
  pose proof (pow10_pos (Z.max 0 (- (dexp d + k))) ltac:(lia)). split; intros H1; [|subst; lia]. nia.
Qed.

(** Same number, different exponent. *)
Lemma times_pow10_shift c e c' j : 0 <= j -> Z.of_N c = Z.of_N c' * 10 ^ j ->
  forall k N, times_pow10 (mk_decimal c e) k N <-> times_pow10 (mk_decimal c' (e + j)) k N.
Proof.
  intros Hj Hc k N. unfold times_pow10; cbn [coef dexp]. rewrite Hc.
  set (x := Z.of_N c').
  destruct (Z.le_gt_cases 0 (e + k)) as [H1|H1].
  - rewrite (Z.max_l 0 (- (e + k))), (Z.max_l 0 (- (e + j + k))) by lia.
    rewrite (Z.max_r 0 (e + k)), (Z.max_r 0 (e + j + k)) by lia.
    replace (e + j + k) with (j + (e + k)) by lia. rewrite (Z.pow_add_r 10 j (e + k)) by lia. rewrite Z.mul_assoc. reflexivity.
  - rewrite (Z.max_l 0 (e + k)) by lia. rewrite (Z.max_r 0 (- (e + k))) by lia.
    destruct (Z.le_gt_cases 0 (e + j + k)) as [H2|H2].
    + rewrite (Z.max_r 0 (e + j + k)), (Z.max_l 0 (- (e + j + k))) by lia.
      replace j with ((e + j + k) + (- (e + k))) at 1 by lia.
      rewrite (Z.pow_add_r 10 (e + j + k) (- (e + k))) by lia. change (10 ^ 0) with 1.
      set (A := 10 ^ (e + j + k)). set (B := 10 ^ (- (e + k))). assert (0 < B) by (apply pow10_pos; lia).
      replace (x * (A * B) * 1) with ((x * A) * B) by ring. rewrite Z.mul_1_r. apply Z.mul_cancel_r. lia.
    + rewrite (Z.max_l 0 (e + j + k)), (Z.max_r 0 (- (e + j + k))) by lia.
      replace (- (e + k)) with (j + (- (e + j + k))) by lia.
      rewrite (Z.pow_add_r 10 j (- (e + j + k))) by lia. change (10 ^ 0) with 1.
      set (A := 10 ^ j). set (B := 10 ^ (- (e + j + k))). assert (0 < A) by (apply pow10_pos; lia).
      replace (x * A * 1) with (x * 1 * A) by ring. replace (N * (A * B)) with (N * B * A) by ring. apply Z.mul_cancel_r. lia.
Qed.

Lemma below_shift c e c' j w : 0 <= j -> 0 <= w -> Z.of_N c = Z.of_N c' * 10 ^ j ->
  below_pow10 (mk_decimal c e) w <-> below_pow10 (mk_decimal c' (e + j)) w.
Proof.
  intros Hj Hw Hc. unfold below_pow10; cbn [coef dexp]. rewrite Hc.
  set (x := Z.of_N c'). set (W := 10 ^ w).
  destruct (Z.le_gt_cases 0 e) as [H1|H1].
  - rewrite (Z.max_l 0 (- e)), (Z.max_l 0 (- (e + j))), (Z.max_r 0 e), (Z.max_r 0 (e + j)) by lia.
    replace (e + j) with (j + e) by lia. rewrite (Z.pow_add_r 10 j e) by lia. rewrite Z.mul_assoc. reflexivity.
  - rewrite (Z.max_l 0 e), (Z.max_r 0 (- e)) by lia. change (10 ^ 0) with 1.
    destruct (Z.le_gt_cases 0 (e + j)) as [H2|H2].
    + rewrite (Z.max_r 0 (e + j)), (Z.max_l 0 (- (e + j))) by lia. change (10 ^ 0) with 1.
      replace j with ((e + j) + (- e)) at 1 by lia. rewrite (Z.pow_add_r 10 (e + j) (- e)) by lia.
      set (A := 10 ^ (e + j)). set (B := 10 ^ (- e)). assert (0 < B) by (apply pow10_pos; lia).
      replace (x * (A * B) * 1) with ((x * A) * B) by ring. rewrite Z.mul_1_r.
      symmetry; apply Z.mul_lt_mono_pos_r; assumption.
    + rewrite (Z.max_l 0 (e + j)), (Z.max_r 0 (- (e + j))) by lia. change (10 ^ 0) with 1.
      replace (- e) with (j + (- (e + j))) by lia. rewrite (Z.pow_add_r 10 j (- (e + j))) by lia.
      set (A := 10 ^ j). set (B := 10 ^ (- (e + j))). assert (0 < A) by (apply pow10_pos; lia).
      replace (x * A * 1) with (x * 1 * A) by ring. replace (W * (A * B)) with (W * B * A) by ring.
      symmetry; apply Z.mul_lt_mono_pos_r; assumption.
Qed.

Lemma ndigits_scale c j : c <> 0%N -> 0 <= j -> forall n, 0 <= n ->
  Z.of_N c * 10 ^ j < 10 ^ n <-> ndigits c + j <= n.
Proof.
  intros Hc Hj n Hn. pose proof (ndigits_lt c). pose proof (ndigits_ge c Hc). pose proof (ndigits_pos c).
  pose proof (pow10_pos j Hj). split; intros H3.
  - destruct (Z.le_gt_cases (ndigits c + j) n) as [|L]; [assumption|]. exfalso.
    assert (10 ^ n <= 10 ^ (ndigits c - 1 + j)) by (apply Z.pow_le_mono_r; lia).
    rewrite Z.pow_add_r in H4 by lia. nia.
  - assert (10 ^ (ndigits c + j) <= 10 ^ n) by (apply Z.pow_le_mono_r; lia).
    rewrite Z.pow_add_r in H4 by lia. nia.
Qed.

(** Facts about a stripped, non-zero number. *)
Section Stripped.
Variable d : decimal.
Hypothesis Hs : (coef d mod 10 <> 0)%N.

Lemma stripped_nz : coef d <> 0%N.
Proof. intros E. rewrite E in Hs. apply Hs. reflexivity. Qed.

Lemma stripped_int k : 0 <= k -> (exists N, times_pow10 d k N) <-> decimals_of d <= k.
Proof.
  intros Hk. unfold times_pow10, decimals_of. split.
  - intros [N E]. destruct (Z.le_gt_cases (- dexp d) k); [lia|]. exfalso.
    rewrite (Z.max_l 0 (dexp d + k)), (Z.max_r 0 (- (dexp d + k))) in E by lia.
    replace (- (dexp d + k)) with (Z.succ (- (dexp d + k) - 1)) in E by lia.
    rewrite Z.pow_succ_r in E by lia. change (10 ^ 0) with 1 in E.
    set (y := 10 ^ (- (dexp d + k) - 1)) in E. assert (exists z, Z.of_N (coef d) = 10 * z) as [z Hz] by (exists (N * y); lia).
    apply Hs. lia.
  - intros H. exists (Z.of_N (coef d) * 10 ^ (dexp d + k)).
    rewrite (Z.max_r 0 (dexp d + k)), (Z.max_l 0 (- (dexp d + k))) by lia. lia.
Qed.

Lemma stripped_writable m : (exists n k, n <= m /\ writable d n k) <-> digits_of d <= m.
Proof.
  pose proof stripped_nz as Hnz. unfold digits_of. pose proof (ndigits_pos (coef d)) as Hpos. split.
  - intros [n [k [Hm [Hn [Hk [N [E HN]]]]]]].
    assert (Hd : decimals_of d <= k) by (apply stripped_int; [lia | eauto]).
    unfold decimals_of in *. unfold times_pow10 in E.
    rewrite (Z.max_r 0 (dexp d + k)), (Z.max_l 0 (- (dexp d + k))) in E by lia.
    change (10 ^ 0) with 1 in E. rewrite Z.mul_1_r in E. rewrite <- E in HN.
    destruct HN as [_ HN]. apply ndigits_scale in HN; [lia | exact Hnz | lia | lia].
  - intros H. exists (Z.max (ndigits (coef d) + Z.max 0 (dexp d)) (decimals_of d)), (decimals_of d).
    split; [exact H|]. unfold writable. unfold decimals_of in *. split; [lia|]. split; [lia|].
    exists (Z.of_N (coef d) * 10 ^ Z.max 0 (dexp d)). split.
    + unfold times_pow10. rewrite (Z.max_l 0 (- (dexp d + _))) by lia.
      rewrite Z.mul_1_r. do 2 f_equal. lia.
    + split; [pose proof (pow10_pos (Z.max 0 (dexp d))); nia|].
      apply ndigits_scale; [exact Hnz | lia | lia | lia].
Qed.

Lemma below_iff w : 0 <= w -> below_pow10 d w <-> sat_sub (digits_of d) (decimals_of d) <= w.
Proof.
  pose proof stripped_nz as Hnz. intros Hw. unfold below_pow10, sat_sub, digits_of, decimals_of.
  pose proof (ndigits_pos (coef d)) as Hpos. rewrite <- Z.pow_add_r by lia.
  rewrite ndigits_scale; [lia | exact Hnz | lia | lia].
Qed.
End Stripped.

(** As-written counts dominate the normalised ones. *)
Lemma norm_le prec d : ndigits (coef d) <= prec -> coef d <> 0%N ->
  let n := py_normalize prec d in
  decimals_of n <= decimals_of d /\ digits_of n <= digits_of d /\
  sat_sub (digits_of n) (decimals_of n) = sat_sub (digits_of d) (decimals_of d).
Proof.
  intros Hp Hc n. destruct (normalize_spec prec d Hp Hc) as [k [Hk [He [Hv Hm]]]]. fold n in He, Hv, Hm.
  assert (Hn : ndigits (coef d) = ndigits (coef n) + k).
  { assert (Hnz : coef n <> 0%N) by (intros E; rewrite E in Hm; apply Hm; reflexivity).
    pose proof (ndigits_pos (coef n)) as P1. pose proof (ndigits_pos (coef d)) as P2.
    assert (A : ndigits (coef n) + k <= ndigits (coef d)).
    { apply ndigits_scale; [exact Hnz | lia | lia |]. rewrite <- Hv. apply ndigits_lt. }
    assert (B : ndigits (coef d) <= ndigits (coef n) + k).
    { apply ndigits_le_iff; [lia|]. rewrite Hv. apply ndigits_scale; [exact Hnz | lia | lia | lia]. }
    lia. }
  pose proof (ndigits_pos (coef n)). unfold digits_of, decimals_of, sat_sub. rewrite Hn, He. lia.
Qed.

Lemma norm_same prec d : ndigits (coef d) <= prec -> coef d <> 0%N ->
  let n := py_normalize prec d in
  (forall k N, times_pow10 d k N <-> times_pow10 n k N) /\
  (forall w, 0 <= w -> below_pow10 d w <-> below_pow10 n w) /\ (coef n mod 10 <> 0)%N.
Proof.
  intros Hp Hc n. destruct (normalize_spec prec d Hp Hc) as [k [Hk [He [Hv Hm]]]]. fold n in He, Hv, Hm.
  assert (En : n = mk_decimal (coef n) (dexp d + k)) by (rewrite <- He; destruct n; reflexivity).
  assert (Ed : d = mk_decimal (coef d) (dexp d)) by (destruct d; reflexivity).
  split; [|split; [|exact Hm]].
  - intros j N. rewrite En, Ed at 1. cbn [coef dexp]. apply times_pow10_shift; [assumption|].
    exact Hv.
  - intros w Hw. rewrite En, Ed at 1. apply below_shift; assumption.
Qed.

Lemma writable_same d d' n k :
  (forall k N, times_pow10 d k N <-> times_pow10 d' k N) -> writable d n k <-> writable d' n k.
Proof.
  intros H. unfold writable. split; intros [A [B [N [C D]]]]; (split; [exact A|]); (split; [exact B|]);
    exists N; (split; [apply H; exact C | exact D]).
Qed.

(** Both-limits rule in arithmetic form. *)
Lemma check_nz prec d m p : ndigits (coef d) <= prec -> coef d <> 0%N ->
  let n := py_normalize prec d in
  check_digits prec m p d =
    if match m with Some m => m <? digits_of n | None => false end then Some DecimalMaxDigits
    else match p with
         | None => None
         | Some p =>
             if p <? decimals_of n then Some DecimalMaxPlaces
             else match m with
                  | None => None
                  | Some m => if sat_sub m p <? sat_sub (digits_of n) (decimals_of n)
                              then Some DecimalWholeDigits else None
                  end
         end.
Proof.
  intros Hp Hc n. unfold check_digits. rewrite extract_raw, extract_norm. fold n.
  destruct (norm_le prec d Hp Hc) as [L1 [L2 L3]]. fold n in L1, L2, L3. rewrite <- L3.
  assert (HH : forall a x y, x <= y -> (a <? y) && (a <? x) = (a <? x)).
  { intros a x y Hxy. destruct (Z.ltb_spec a x), (Z.ltb_spec a y); try reflexivity; lia. }
  assert (E1 : match m with Some m0 => (m0 <? digits_of d) && (m0 <? digits_of n) | None => false end =
               match m with Some m0 => m0 <? digits_of n | None => false end).
  { destruct m; [apply HH; exact L2 | reflexivity]. }
  rewrite E1. destruct (match m with Some m0 => m0 <? digits_of n | None => false end); [reflexivity|].
  destruct p as [p|]; [|reflexivity]. rewrite HH by exact L1.
  destruct (p <? decimals_of n); [reflexivity|]. destruct m; [|reflexivity].
  rewrite HH by lia. reflexivity.
Qed.

Lemma zero_case d : coef d = 0%N -> d = mk_decimal 0 (dexp d).
Proof. destruct d; simpl; intros ->; reflexivity. Qed.

Lemma max_digits_iff prec d m : ndigits (coef d) <= prec ->
  check_digits prec (Some m) None d = None <-> exists n k, n <= m /\ writable d n k.
Proof.
  intros Hp. destruct (N.eq_dec (coef d) 0) as [Hz|Hc].
  - pose proof (zero_case d Hz) as E. pose proof (ndigits_pos (coef d)) as P.
    unfold check_digits. rewrite extract_raw, extract_norm. rewrite E, normalize_zero by lia.
    unfold digits_of, decimals_of; cbn [coef dexp]. change (ndigits 0) with 1. split.
    + destruct (Z.ltb_spec m (Z.max (1 + Z.max 0 0) (Z.max 0 (- 0)))) as [L|L];
        destruct (Z.ltb_spec m (Z.max (1 + Z.max 0 (dexp d)) (Z.max 0 (- dexp d)))) as [L'|L'];
        cbn [andb]; try discriminate; intros _; (exists 1, 0; split; [lia|]; split; [lia|]; split; [lia|]; exists 0; split;
        [apply times_pow10_0; reflexivity | lia]).
    + intros [n [k [H1 [H2 _]]]].
      replace (m <? Z.max (1 + Z.max 0 0) (Z.max 0 (- 0))) with false by (symmetry; apply Z.ltb_ge; lia).
      rewrite andb_false_r. reflexivity.
  - rewrite check_nz by assumption. destruct (norm_same prec d Hp Hc) as [S1 [S2 S3]].
    transitivity (exists n k, n <= m /\ writable (py_normalize prec d) n k).
    + rewrite stripped_writable by assumption.
      destruct (Z.ltb_spec m (digits_of (py_normalize prec d))); split; intros; try discriminate; try reflexivity; lia.
    + split; intros [n [k [A B]]]; exists n, k; (split; [exact A|]);
        [apply (writable_same _ _ _ _ S1) | apply (writable_same _ _ _ _ S1)]; exact B.
Qed.

Lemma decimal_places_iff prec d p : ndigits (coef d) <= prec -> 0 <= p ->
  check_digits prec None (Some p) d = None <-> exists N, times_pow10 d p N.
Proof.
  intros Hp Hp0. destruct (N.eq_dec (coef d) 0) as [Hz|Hc].
  - pose proof (zero_case d Hz) as E. pose proof (ndigits_pos (coef d)) as P.
    unfold check_digits. rewrite extract_raw, extract_norm. rewrite E, normalize_zero by lia.
    unfold decimals_of; cbn [coef dexp].
    replace (p <? Z.max 0 (- 0)) with false by (symmetry; apply Z.ltb_ge; lia). rewrite andb_false_r.
    split; [|reflexivity]. intros _. exists 0. apply times_pow10_0; reflexivity.
  - rewrite check_nz by assumption. destruct (norm_same prec d Hp Hc) as [S1 [S2 S3]].
    transitivity (exists N, times_pow10 (py_normalize prec d) p N).
    + rewrite stripped_int by assumption.
      destruct (Z.ltb_spec p (decimals_of (py_normalize prec d))); split; intros; try discriminate; try reflexivity; lia.
    + split; intros [N A]; exists N; apply S1; exact A.
Qed.

Lemma both_rule prec d m p :
  ndigits (coef d) <= prec -> coef d <> 0%N -> 0 <= m -> 0 <= p ->
  let w := exists n k, n <= m /\ writable d n k in
  let i := exists N, times_pow10 d p N in
  let b := below_pow10 d (Z.max 0 (m - p)) in
  match check_digits prec (Some m) (Some p) d with
  | None => w /\ i /\ b
  | Some DecimalMaxDigits => ~ w
  | Some DecimalMaxPlaces => w /\ ~ i
  | Some DecimalWholeDigits => w /\ i /\ ~ b
  end.
Proof.
  intros Hp Hc Hm Hp0 w i b. rewrite check_nz by assumption.
  destruct (norm_same prec d Hp Hc) as [S1 [S2 S3]]. set (n := py_normalize prec d) in *.
  assert (Hw : w <-> digits_of n <= m).
  { rewrite <- stripped_writable by assumption. unfold w.
    split; intros [x [k [A B]]]; exists x, k; (split; [exact A|]); apply (writable_same _ _ _ _ S1); exact B. }
  assert (Hi : i <-> decimals_of n <= p).
  { rewrite <- stripped_int by assumption. unfold i. split; intros [N A]; exists N; apply S1; exact A. }
  assert (Hb : b <-> sat_sub (digits_of n) (decimals_of n) <= sat_sub m p).
  { unfold b, sat_sub at 2. rewrite <- below_iff by (assumption || lia). apply S2. lia. }
  clearbody w i b.
  destruct (Z.ltb_spec m (digits_of n)); [rewrite Hw; lia|].
  destruct (Z.ltb_spec p (decimals_of n)); [rewrite Hw, Hi; lia|].
  destruct (Z.ltb_spec (sat_sub m p) (sat_sub (digits_of n) (decimals_of n))); rewrite Hw, Hi, Hb; lia.
Qed.

Lemma representation_independent prec d1 d2 m p :
  ndigits (coef d1) <= prec -> ndigits (coef d2) <= prec -> coef d1 <> 0%N ->
  (forall k N, times_pow10 d1 k N <-> times_pow10 d2 k N) ->
  check_digits prec m p d1 = check_digits prec m p d2.
Proof.
  intros H1 H2 Hc Hs.
  assert (Hc2 : coef d2 <> 0%N).
  { intros E. assert (Ht : times_pow10 d2 (- dexp d1) 0) by (apply times_pow10_0; [lia | reflexivity]).
    apply Hs in Ht. unfold times_pow10 in Ht. replace (dexp d1 + - dexp d1) with 0 in Ht by lia. simpl in Ht. lia. }
  rewrite !check_nz by assumption.
  destruct (norm_same prec d1 H1 Hc) as [A1 [_ A3]]. destruct (norm_same prec d2 H2 Hc2) as [B1 [_ B3]].
  set (n1 := py_normalize prec d1) in *. set (n2 := py_normalize prec d2) in *.
  assert (Hn : forall k N, times_pow10 n1 k N <-> times_pow10 n2 k N).
  { intros k N. rewrite <- A1, <- B1. apply Hs. }
  assert (E : n1 = n2).
  { pose proof (stripped_nz n1 A3) as Z1. pose proof (stripped_nz n2 B3) as Z2.
    assert (D : forall a b, (coef a mod 10 <> 0)%N -> (coef b mod 10 <> 0)%N ->
               (forall k N, times_pow10 a k N <-> times_pow10 b k N) -> dexp b <= dexp a).
    { intros a b Ha Hb Hab. destruct (Z.le_gt_cases (dexp b) (dexp a)) as [|L]; [assumption|]. exfalso.
      assert (T : times_pow10 b (- dexp b) (Z.of_N (coef b))).
      { unfold times_pow10. replace (dexp b + - dexp b) with 0 by lia. reflexivity. }
      apply Hab in T. unfold times_pow10 in T.
      rewrite (Z.max_l 0 (dexp a + - dexp b)), (Z.max_r 0 (- (dexp a + - dexp b))) in T by lia.
      replace (- (dexp a + - dexp b)) with (Z.succ (dexp b - dexp a - 1)) in T by lia.
      rewrite Z.pow_succ_r in T by lia. change (10 ^ 0) with 1 in T.
      set (y := 10 ^ (dexp b - dexp a - 1)) in T.
      assert (exists z, Z.of_N (coef a) = 10 * z) as [z Hz] by (exists (Z.of_N (coef b) * y); lia).
      apply Ha. lia. }
    assert (Ed : dexp n1 = dexp n2).
    { apply Z.le_antisymm; apply D; try assumption. intros; symmetry; apply Hn. }
    assert (Ec : coef n1 = coef n2).
    { assert (T : times_pow10 n1 (- dexp n1) (Z.of_N (coef n1))).
      { unfold times_pow10. replace (dexp n1 + - dexp n1) with 0 by lia. reflexivity. }
      apply Hn in T. unfold times_pow10 in T. rewrite Ed in T. replace (dexp n2 + - dexp n2) with 0 in T by lia.
      change (10 ^ Z.max 0 0) with 1 in T. change (10 ^ Z.max 0 (- 0)) with 1 in T. lia. }
    destruct n1, n2; simpl in *; congruence. }
  rewrite E. reflexivity.
Qed.

Lemma zero_refuted :
  let z0 := mk_decimal 0 0 in let z2 := mk_decimal 0 (-2) in
  (forall k N, times_pow10 z0 k N <-> times_pow10 z2 k N) /\
  check_digits 28 (Some 2) (Some 2) z0 = Some DecimalWholeDigits /\
  check_digits 28 (Some 2) (Some 2) z2 = None.
Proof.
  split; [|split; vm_compute; reflexivity].
  intros k N. rewrite !times_pow10_0 by reflexivity. reflexivity.
Qed.

Lemma beyond_precision_refuted :
  let d := mk_decimal 1234567890123456789012345678901234567891 (-40) in
  check_digits 28 (Some 30) (Some 30) d = None /\
  ~ (exists n k, n <= 30 /\ writable d n k) /\ ~ (exists N, times_pow10 d 30 N).
Proof.
  intros d. split; [vm_compute; reflexivity|].
  assert (Hs : (coef d mod 10 <> 0)%N) by (vm_compute; discriminate). split.
  - rewrite stripped_writable by exact Hs. vm_compute. intros H; apply H; reflexivity.
  - rewrite stripped_int by (exact Hs || lia). vm_compute. intros H; apply H; reflexivity.
Qed.

(** Proofs about decimal schemas. *)
From Coq Require Import List NArith ZArith QArith Qpower Bool Lia PeanoNat.
From Verif Require Import Base Decimal DecDigits DecDigitsProofs VState DecVal DecValSpec.
Import ListNotations.
Open Scope Z_scope.

(** *** Reading what was written *)
Definition digits (t : str) : Prop := Forall (fun c => is_digit c = true) t.
Definition stops (t : str) : Prop := match t with [] => True | c :: _ => is_digit c = false end.
Lemma span_all : forall a b, digits a -> stops b -> span_digits (a ++ b) = (a, b).
Proof.
  intros a b H S'. induction H as [|c a Hc Ha IH]; cbn [app span_digits].
  - destruct b as [|c b]; [reflexivity|]. cbn in S' |- *. rewrite S'. reflexivity.
  - rewrite Hc, IH. reflexivity.
Qed.
Lemma zeros_digits : forall n, digits (zeros n).
Proof. intros n. unfold zeros. induction (Z.to_nat n); constructor; [reflexivity|assumption]. Qed.
Lemma value_zeros : forall n s, dec_value (zeros n ++ s) = dec_value s.
Proof. intros n s. unfold zeros, dec_value. induction (Z.to_nat n) as [|k IH]; [reflexivity|]. exact IH. Qed.
Lemma zeros_length : forall n, 0 <= n -> Z.of_nat (length (zeros n)) = n.
Proof. intros n H. unfold zeros. rewrite repeat_length. lia. Qed.
Lemma digit_not : forall c, is_digit c = true -> (c =? 45)%N = false /\ (c =? 43)%N = false /\ (73 =? c)%N = false /\ (78 =? c)%N = false /\ (115 =? c)%N = false.
Proof. intros c H. apply is_digit_spec in H. repeat split; apply N.eqb_neq; lia. Qed.
Lemma dec_N_cons : forall n, exists c r, dec_N n = c :: r /\ is_digit c = true /\ digits r.
Proof. intros n. destruct (dec_N_props n) as [_ [D [c [r [E _]]]]]. rewrite E in D. inversion D; subst. exists c, r. auto. Qed.
Lemma read_exp_text : forall x, read_exp (exp_text x) = Some x.
Proof.
  intros x. unfold exp_text. assert (V := dec_N_value (Z.abs_N x)). destruct (dec_N_cons (Z.abs_N x)) as (c & r & E & C & R). rewrite E in *.
  assert (Sp : span_digits (c :: r) = (c :: r, [])) by (rewrite <- (app_nil_r (c :: r)) at 1; apply span_all; [constructor; assumption|exact I]).
  destruct (Z.ltb_spec x 0) as [N|N]; cbn [read_exp app lit read_sign].
  - change (read_exp (69%N :: 45%N :: c :: r) = Some x). unfold read_exp. cbn [N.eqb Pos.eqb orb read_sign]. rewrite Sp, V. unfold signed. f_equal. lia.
  - change (read_exp (69%N :: 43%N :: c :: r) = Some x). unfold read_exp. cbn [N.eqb Pos.eqb orb read_sign]. rewrite Sp, V. unfold signed. f_equal. lia.
Qed.
Lemma exp_stops : forall x, stops (exp_text x).
Proof. intros x. reflexivity. Qed.
(** The digits with an exponent or nothing behind them. *)
Definition tail (left dot : Z) : str := if left =? dot then [] else exp_text (left - dot).
Lemma tail_stops : forall l d, stops (tail l d) /\ read_exp (tail l d) = Some (l - d) /\ match tail l d with c :: _ => (c =? 46)%N = false | [] => True end.
Proof.
  intros l d. unfold tail. destruct (Z.eqb_spec l d) as [->|N]; [cbn; rewrite Z.sub_diag; auto|]. split; [apply exp_stops|]. split; [apply read_exp_text|reflexivity].
Qed.
Lemma read_whole : forall neg i l d, digits i -> i <> [] -> read_number neg (i ++ tail l d) = Some (Fin neg (dec_value i) (l - d)).
Proof.
  intros neg i l d D N. destruct (tail_stops l d) as (T & R & P). unfold read_number. rewrite (span_all i _ D T).
  assert (E : (match tail l d with c :: r' => if (c =? 46)%N then span_digits r' else ([], tail l d) | [] => ([], []) end) = ([], tail l d)).
  { destruct (tail l d) as [|c t]; [reflexivity|]. rewrite P. reflexivity. }
  rewrite E, app_nil_r. destruct i as [|c i]; [contradiction|]. cbn [is_nil]. rewrite R. do 2 f_equal. cbn. lia.
Qed.
Lemma read_point : forall neg i f l d, digits i -> digits f -> i <> [] -> read_number neg (i ++ lit "." ++ f ++ tail l d) = Some (Fin neg (dec_value (i ++ f)) (l - d - Z.of_nat (length f))).
Proof.
  intros neg i f l d D F N. destruct (tail_stops l d) as (T & R & P). unfold read_number. rewrite (span_all i (lit "." ++ f ++ tail l d) D) by reflexivity.
  change (lit "." ++ f ++ tail l d) with (46%N :: f ++ tail l d). cbn [N.eqb Pos.eqb]. rewrite (span_all f _ F T).
  destruct i as [|c i]; [contradiction|]. cbn [app is_nil]. rewrite R. reflexivity.
Qed.
Definition body (c : N) (e : Z) : str :=
  let int := dec_N c in
  let n := Z.of_nat (length int) in
  let left := e + n in
  let dot := if (e <=? 0) && (-6 <? left) then left else 1 in
  (if dot <=? 0 then lit "0." ++ zeros (- dot) ++ int
   else if n <=? dot then int ++ zeros (dot - n)
   else firstn (Z.to_nat dot) int ++ lit "." ++ skipn (Z.to_nat dot) int) ++ tail left dot.
Lemma read_body : forall neg c e, read_number neg (body c e) = Some (Fin neg c e).
Proof.
  intros neg c e. unfold body. assert (V := dec_N_value c). assert (D := dec_N_digits c). destruct (dec_N_cons c) as (c0 & r & E & C & R).
  assert (L : 1 <= Z.of_nat (length (dec_N c))) by (rewrite E; cbn [length]; lia). set (int := dec_N c) in *. set (n := Z.of_nat (length int)) in *. cbv zeta.
  assert (NN : int <> []) by (rewrite E; discriminate).
  set (dot := if (e <=? 0) && (-6 <? e + n) then e + n else 1). assert (DD : dot = e + n /\ e <= 0 \/ dot = 1).
  { unfold dot. destruct (Z.leb_spec e 0), (Z.ltb_spec (-6) (e + n)); cbn [andb]; auto. }
  destruct (Z.leb_spec dot 0) as [Z0|Z0].
  - destruct DD as [[-> He]| ->]; [|lia]. change (lit "0." ++ zeros (- (e + n)) ++ int) with ([48%N] ++ lit "." ++ zeros (- (e + n)) ++ int).
    rewrite <- !app_assoc. rewrite (app_assoc (zeros _) int). rewrite read_point; [|repeat constructor|apply Forall_app; split; [apply zeros_digits|exact D]|discriminate].
    do 2 f_equal; [change (dec_value (zeros 1 ++ zeros (- (e + n)) ++ int) = c); rewrite !value_zeros; exact V|]. rewrite app_length, Nat2Z.inj_add, zeros_length by lia. fold n. lia.
  - destruct (Z.leb_spec n dot) as [Z1|Z1].
    + assert (dot = n) as -> by (destruct DD as [[-> He]| ->]; lia). rewrite Z.sub_diag. change (zeros 0) with (@nil N). rewrite app_nil_r, read_whole by assumption. do 2 f_equal; [exact V|lia].
    + rewrite <- !app_assoc. assert (FS : firstn (Z.to_nat dot) int ++ skipn (Z.to_nat dot) int = int) by apply firstn_skipn.
      assert (F1 : digits (firstn (Z.to_nat dot) int) /\ digits (skipn (Z.to_nat dot) int)) by (apply Forall_app; rewrite FS; exact D). destruct F1 as [F1 F2].
      rewrite read_point; [|exact F1|exact F2|].
      * rewrite FS. do 2 f_equal; [exact V|]. rewrite skipn_length. fold n. lia.
      * rewrite E. destruct (Z.to_nat dot) eqn:Dt; [lia|discriminate].
Qed.
Lemma body_starts : forall c e, exists a r, body c e = a :: r /\ is_digit a = true.
Proof.
  intros c e. unfold body. destruct (dec_N_cons c) as (c0 & r & E & C & R). rewrite E. cbv zeta. set (n := Z.of_nat (length (c0 :: r))).
  set (dot := if (e <=? 0) && (-6 <? e + n) then e + n else 1). destruct (Z.leb_spec dot 0); [do 2 eexists; split; [reflexivity|reflexivity]|].
  destruct (n <=? dot); [do 2 eexists; split; [reflexivity|exact C]|]. destruct (Z.to_nat dot) eqn:Dt; [lia|]. do 2 eexists; split; [reflexivity|exact C].
Qed.
Lemma nan_payload : forall sg neg p, read_nan sg neg (if (p =? 0)%N then [] else dec_N p) = Some (NaN sg neg p).
Proof.
  intros sg neg p. destruct (N.eqb_spec p 0) as [->|N]; [reflexivity|]. unfold read_nan. rewrite <- (app_nil_r (dec_N p)), (span_all (dec_N p) [] (dec_N_digits p) I), dec_N_value. reflexivity.
Qed.
Lemma dec_read_text : reads_dec dec_read.
Proof.
  intros [neg c e|neg|sg neg p].
  - change (dec_text (Fin neg c e)) with (sign_text neg ++ body c e). assert (B := read_body neg c e). destruct (body_starts c e) as (a & r & E & A). rewrite E in *.
    destruct (digit_not a A) as (A1 & A2 & A3 & A4 & A5). unfold dec_read.
    assert (Sg : read_sign (sign_text neg ++ a :: r) = (neg, a :: r)) by (destruct neg; [reflexivity|cbn [sign_text app read_sign]; rewrite A1, A2; reflexivity]).
    rewrite Sg. change (drop_prefix (lit "Infinity") (a :: r)) with (if (73 =? a)%N then drop_prefix (lit "nfinity") r else None).
    change (drop_prefix (lit "NaN") (a :: r)) with (if (78 =? a)%N then drop_prefix (lit "aN") r else None).
    change (drop_prefix (lit "sNaN") (a :: r)) with (if (115 =? a)%N then drop_prefix (lit "NaN") r else None). rewrite A3, A4, A5. exact B.
  - destruct neg; reflexivity.
  - assert (G : forall t, read_nan sg neg t = Some (NaN sg neg p) -> dec_read (sign_text neg ++ (if sg then lit "sNaN" else lit "NaN") ++ t) = Some (NaN sg neg p)) by (intros t P; destruct neg, sg; exact P).
    apply G, nan_payload.
Qed.
Lemma dec_text_inj : forall d d', dec_text d = dec_text d' -> d = d'.
Proof. intros d d' H. assert (A := dec_read_text d). rewrite H, dec_read_text in A. injection A as ->. reflexivity. Qed.

(** *** Comparisons *)
Lemma ten_nz : ~ (10 # 1 == 0)%Q.
Proof. discriminate. Qed.
Lemma pow10_add : forall a b, (pow10 (a + b) == pow10 a * pow10 b)%Q.
Proof. intros a b. unfold pow10. apply Qpower_plus, ten_nz. Qed.
Lemma pow10_Z : forall a, 0 <= a -> (pow10 a == inject_Z (10 ^ a))%Q.
Proof. intros a H. unfold pow10. rewrite Zpower_Qpower by exact H. reflexivity. Qed.
Lemma pow10_gt : forall a, (0 < pow10 a)%Q.
Proof.
  intros a. destruct (Z.le_gt_cases 0 a) as [H|H].
  - rewrite (pow10_Z a H). change 0%Q with (inject_Z 0). rewrite <- Zlt_Qlt. apply pow10_pos, H.
  - assert (E : (pow10 a * pow10 (- a) == 1)%Q) by (rewrite <- pow10_add, Z.add_opp_diag_r; reflexivity).
    assert (P : (0 < pow10 (- a))%Q) by (rewrite (pow10_Z (- a)) by lia; change 0%Q with (inject_Z 0); rewrite <- Zlt_Qlt; apply pow10_pos; lia).
    apply Qmult_lt_r with (z := pow10 (- a)); [exact P|]. rewrite E, Qmult_0_l. reflexivity.
Qed.
Lemma scaled : forall n c e m, m <= e -> (dec_q n c e == inject_Z (signed n c * 10 ^ (e - m)) * pow10 m)%Q.
Proof.
  intros n c e m H. unfold dec_q. fold (signed n c). rewrite inject_Z_mult, <- (pow10_Z (e - m)) by lia. rewrite <- Qmult_assoc, <- pow10_add. replace (e - m + m) with e by lia. reflexivity.
Qed.
Lemma compare_fin : forall n c e n' c' e',
  match compare (Fin n c e) (Fin n' c' e') with
  | Some Eq => (dec_q n c e == dec_q n' c' e')%Q | Some Lt => (dec_q n c e < dec_q n' c' e')%Q | Some Gt => (dec_q n' c' e' < dec_q n c e)%Q | None => False
  end.
Proof.
  intros n c e n' c' e'. cbn [compare]. cbv zeta. set (m := Z.min e e'). assert (E1 := scaled n c e m ltac:(lia)). assert (E2 := scaled n' c' e' m ltac:(lia)).
  destruct (Z.compare_spec (signed n c * 10 ^ (e - m)) (signed n' c' * 10 ^ (e' - m))) as [H|H|H]; rewrite E1, E2.
  - rewrite H. reflexivity.
  - apply Qmult_lt_r; [apply pow10_gt|]. rewrite <- Zlt_Qlt. exact H.
  - apply Qmult_lt_r; [apply pow10_gt|]. rewrite <- Zlt_Qlt. exact H.
Qed.
Lemma compare_spec : forall a b, not_nan a -> not_nan b ->
  match compare a b with
  | Some Eq => dec_le a b /\ dec_le b a | Some Lt => dec_le a b /\ ~ dec_le b a | Some Gt => dec_le b a /\ ~ dec_le a b | None => False
  end.
Proof.
  intros [n c e|n|sg n p] [n' c' e'|n'|sg' n' p'] A B; try contradiction A; try contradiction B.
  - assert (H := compare_fin n c e n' c' e'). destruct (compare (Fin n c e) (Fin n' c' e')) as [[| |]|]; cbn [dec_le]; [|split|split|exact H].
    + rewrite H. split; apply Qle_refl.
    + apply Qlt_le_weak, H.
    + apply Qlt_not_le, H.
    + apply Qlt_le_weak, H.
    + apply Qlt_not_le, H.
  - destruct n'; cbn; tauto.
  - destruct n; cbn; tauto.
  - destruct n, n'; cbn; tauto.
Qed.

(** *** Multiples *)
Lemma pow10_nz : forall a, ~ (pow10 a == 0)%Q.
Proof. intros a H. assert (P := pow10_gt a). rewrite H in P. discriminate P. Qed.
Lemma pow10_cancel : forall a b x y z, (a * pow10 x == b * pow10 y)%Q -> (a * pow10 (x + z) == b * pow10 (y + z))%Q.
Proof. intros a b x y z H. rewrite !pow10_add, !Qmult_assoc, H. reflexivity. Qed.
Lemma inject_eq : forall a b, (inject_Z a == inject_Z b)%Q -> a = b.
Proof. intros a b H. unfold Qeq, inject_Z in H. cbn [Qnum Qden] in H. lia. Qed.
Lemma dec_q_pos : forall c e, dec_q false c e = (inject_Z (Z.of_N c) * pow10 e)%Q.
Proof. reflexivity. Qed.
(** Two scaled integers, compared as integers. *)
Lemma scaled_eq : forall a x b y, (inject_Z a * pow10 x == inject_Z b * pow10 y)%Q <-> a * 10 ^ Z.max 0 (x - y) = b * 10 ^ Z.max 0 (y - x).
Proof.
  intros a x b y. split; intros H.
  - apply inject_eq. rewrite !inject_Z_mult, <- !pow10_Z by lia. apply (pow10_cancel _ _ _ _ (- Z.min x y)) in H.
    replace (Z.max 0 (x - y)) with (x + - Z.min x y) by lia. replace (Z.max 0 (y - x)) with (y + - Z.min x y) by lia. exact H.
  - assert (E : (inject_Z a * pow10 (Z.max 0 (x - y)) == inject_Z b * pow10 (Z.max 0 (y - x)))%Q) by (rewrite !pow10_Z, <- !inject_Z_mult, H by lia; reflexivity).
    apply (pow10_cancel _ _ _ _ (Z.min x y)) in E. replace (Z.max 0 (x - y) + Z.min x y) with x in E by lia. replace (Z.max 0 (y - x) + Z.min x y) with y in E by lia. exact E.
Qed.
Lemma fix_exact : forall prec q0 j e, 1 <= prec -> 0 <= q0 < 10 ^ prec -> 0 <= j ->
  exists q k, fix_digits prec (q0 * 10 ^ j) e = (q, e + k) /\ 0 <= k /\ q * 10 ^ k = q0 * 10 ^ j /\ 0 <= q < 10 ^ prec.
Proof.
  intros prec q0 j e Hp Hq Hj. unfold fix_digits. cbv zeta. assert (J := pow10_pos j Hj). set (c := q0 * 10 ^ j). assert (C0 : 0 <= c) by (unfold c; nia).
  destruct (Z.leb_spec (ndigits (Z.to_N c)) prec) as [H|H].
  - exists c, 0. rewrite Z.add_0_r, Z.pow_0_r. apply ndigits_le_iff in H; [|lia]. rewrite Z2N.id in H by exact C0. repeat split; lia.
  - set (n := ndigits (Z.to_N c)) in *. assert (NZ : Z.to_N c <> 0%N) by (intros Z; unfold n in H; rewrite Z in H; change (ndigits 0) with 1 in H; lia).
    assert (G := ndigits_ge _ NZ). fold n in G. rewrite Z2N.id in G by exact C0. assert (Lt := ndigits_lt (Z.to_N c)). fold n in Lt. rewrite Z2N.id in Lt by exact C0.
    assert (K : n - prec <= j).
    { assert (c < 10 ^ (prec + j)) by (rewrite Z.pow_add_r by lia; unfold c; nia). assert (10 ^ (n - 1) < 10 ^ (prec + j)) by lia. apply Z.pow_lt_mono_r_iff in H1; lia. }
    assert (P := pow10_pos (n - prec) ltac:(lia)). assert (D : c = q0 * 10 ^ (j - (n - prec)) * 10 ^ (n - prec)).
    { unfold c. rewrite <- Z.mul_assoc, <- Z.pow_add_r by lia. do 2 f_equal. lia. }
    assert (R : c mod 10 ^ (n - prec) = 0) by (rewrite D; apply Z.mod_mul; lia). assert (Qt : c / 10 ^ (n - prec) = q0 * 10 ^ (j - (n - prec))) by (rewrite D at 1; apply Z.div_mul; lia).
    rewrite R, Qt. replace (10 ^ (n - prec) <? 2 * 0) with false by (symmetry; apply Z.ltb_ge; lia). replace (10 ^ (n - prec) =? 2 * 0) with false by (symmetry; apply Z.eqb_neq; lia). cbn [orb andb].
    assert (P2 : 0 < 10 ^ (j - (n - prec))) by (apply pow10_pos; lia). exists (q0 * 10 ^ (j - (n - prec))), (n - prec).
    split; [reflexivity|]. split; [lia|]. split; [symmetry; exact D|]. split; [apply Z.mul_nonneg_nonneg; lia|].
    assert (E : 10 ^ n = 10 ^ prec * 10 ^ (n - prec)) by (rewrite <- Z.pow_add_r by lia; f_equal; lia). rewrite E, D in Lt. apply Z.mul_lt_mono_pos_r in Lt; assumption.
Qed.
Lemma divide_exact : forall prec c e c' e', 1 <= prec -> c' <> 0%N -> quotient_in prec c e c' e' ->
  exists q x, divide prec c e c' e' = (q, x) /\ 0 <= q < 10 ^ prec /\ (dec_q false c e == inject_Z q * pow10 x * dec_q false c' e')%Q.
Proof.
  intros prec c e c' e' Hp Hc' (q0 & x0 & Hq & HQ). unfold divide. destruct (N.eqb_spec c 0) as [->|Hc].
  - exists 0, (e - e'). split; [reflexivity|]. split; [assert (P := pow10_pos prec ltac:(lia)); lia|]. rewrite dec_q_pos. change (inject_Z (Z.of_N 0)) with 0%Q. change (inject_Z 0) with 0%Q. rewrite !Qmult_0_l. reflexivity.
  - cbv zeta. set (s := ndigits c' - ndigits c + prec + 1). set (x := e - e' - s). set (j := x0 - x).
    rewrite !dec_q_pos in *. 
    assert (Z1 : Z.of_N c * 10 ^ Z.max 0 (e - (x0 + e')) = q0 * Z.of_N c' * 10 ^ Z.max 0 (x0 + e' - e)).
    { apply scaled_eq. rewrite HQ, pow10_add, inject_Z_mult. ring. }
    set (num := Z.of_N c * 10 ^ Z.max 0 s). set (den := Z.of_N c' * 10 ^ Z.max 0 (- s)).
    assert (Z2 : num * 10 ^ Z.max 0 (- j) = q0 * den * 10 ^ Z.max 0 j).
    { unfold num, den. assert (E2 : (inject_Z (Z.of_N c) * pow10 e == inject_Z (q0 * Z.of_N c') * pow10 (x0 + e'))%Q) by (rewrite HQ, pow10_add, inject_Z_mult; ring).
      apply (pow10_cancel _ _ _ _ (Z.max 0 s + Z.max 0 (- j) - e)) in E2. replace (e + (Z.max 0 s + Z.max 0 (- j) - e)) with (Z.max 0 s + Z.max 0 (- j)) in E2 by lia.
      replace (x0 + e' + (Z.max 0 s + Z.max 0 (- j) - e)) with (Z.max 0 (- s) + Z.max 0 j) in E2 by (unfold j, x in *; lia).
      rewrite !pow10_Z, <- !inject_Z_mult in E2 by lia. apply inject_eq in E2. rewrite !Z.pow_add_r in E2 by lia. lia. }
    assert (Big : 10 ^ prec * den <= num).
    { clear Z1 Z2 HQ. unfold num, den. assert (G := ndigits_ge c Hc). assert (Lt := ndigits_lt c'). assert (P1 := ndigits_pos c). assert (P2 := ndigits_pos c').
      assert (A1 : 10 ^ (ndigits c - 1) * 10 ^ Z.max 0 s <= Z.of_N c * 10 ^ Z.max 0 s) by (apply Z.mul_le_mono_nonneg_r; [apply Z.lt_le_incl, pow10_pos; lia|exact G]).
      assert (A2 : Z.of_N c' * 10 ^ Z.max 0 (- s) <= 10 ^ ndigits c' * 10 ^ Z.max 0 (- s)) by (apply Z.mul_le_mono_nonneg_r; [apply Z.lt_le_incl, pow10_pos; lia|lia]).
      assert (A3 : 10 ^ prec * (10 ^ ndigits c' * 10 ^ Z.max 0 (- s)) = 10 ^ (ndigits c - 1) * 10 ^ Z.max 0 s) by (rewrite <- !Z.pow_add_r by lia; f_equal; unfold s; lia).
      assert (P := pow10_pos prec ltac:(lia)). eapply Z.le_trans; [apply Z.mul_le_mono_nonneg_l; [lia|exact A2]|]. rewrite A3. exact A1. }
    assert (Dp : 0 < den) by (unfold den; apply Z.mul_pos_pos; [lia|apply pow10_pos; lia]).
    assert (J : 0 <= j).
    { destruct (Z.le_gt_cases 0 j) as [H|H]; [exact H|]. exfalso. rewrite (Z.max_l 0 j) in Z2 by lia. rewrite Z.pow_0_r in Z2. assert (P := pow10_pos (Z.max 0 (- j)) ltac:(lia)).
      assert (L1 : q0 * den < 10 ^ prec * den) by (apply Z.mul_lt_mono_pos_r; [exact Dp|apply Hq]). assert (P2 := pow10_pos prec ltac:(lia)). assert (L0 : 0 < 10 ^ prec * den) by (apply Z.mul_pos_pos; assumption).
      assert (L2 : num * 1 <= num * 10 ^ Z.max 0 (- j)) by (apply Z.mul_le_mono_nonneg_l; lia). lia. }
    rewrite (Z.max_l 0 (- j)), (Z.max_r 0 j), Z.pow_0_r, Z.mul_1_r in Z2 by lia.
    assert (N : num = q0 * 10 ^ j * den) by (rewrite Z2; ring). rewrite N, Z.mod_mul, Z.div_mul by lia. cbn [Z.eqb orb].
    destruct (fix_exact prec q0 j x Hp Hq J) as (q & k & F & K0 & Eq & Bq). exists q, (x + k). split; [exact F|]. split; [exact Bq|].
    rewrite HQ. apply Qmult_comp; [|reflexivity]. apply scaled_eq. replace (x0 - (x + k)) with (j - k) by (unfold j; lia). replace (x + k - x0) with (k - j) by (unfold j; lia).
    destruct (Z.le_gt_cases k j) as [H|H].
    + rewrite (Z.max_r 0 (j - k)), (Z.max_l 0 (k - j)), Z.pow_0_r by lia. assert (P := pow10_pos k K0). apply (Z.mul_reg_r _ _ (10 ^ k)); [lia|]. rewrite Z.mul_1_r, Eq, <- Z.mul_assoc, <- Z.pow_add_r by lia. do 2 f_equal. lia.
    + rewrite (Z.max_l 0 (j - k)), (Z.max_r 0 (k - j)), Z.pow_0_r by lia. assert (P := pow10_pos j J). apply (Z.mul_reg_r _ _ (10 ^ j)); [lia|]. rewrite Z.mul_1_r, <- Eq, <- Z.mul_assoc, <- Z.pow_add_r by lia. do 2 f_equal. lia.
Qed.
Lemma whole_spec : forall prec q x, 1 <= prec -> 0 <= q < 10 ^ prec ->
  match whole prec (q, x) with
  | Some true => exists k, 0 <= k < 10 ^ prec /\ (inject_Z q * pow10 x == inject_Z k)%Q
  | Some false => (forall k, ~ (inject_Z q * pow10 x == inject_Z k)%Q) /\ (inject_Z q * pow10 x < inject_Z (10 ^ prec))%Q
  | None => (inject_Z (10 ^ prec) <= inject_Z q * pow10 x)%Q
  end.
Proof.
  intros prec q x Hp Hq. unfold whole. destruct (Z.leb_spec 0 x) as [X|X].
  - assert (P := pow10_pos x X). destruct (Z.ltb_spec (q * 10 ^ x) (10 ^ prec)) as [H|H].
    + exists (q * 10 ^ x). split; [split; [apply Z.mul_nonneg_nonneg; lia|exact H]|]. rewrite (pow10_Z x X), <- inject_Z_mult. reflexivity.
    + rewrite (pow10_Z x X), <- inject_Z_mult, <- Zle_Qle. exact H.
  - assert (P := pow10_pos (- x) ltac:(lia)). assert (D : q / 10 ^ (- x) < 10 ^ prec) by (apply Z.le_lt_trans with q; [apply Z.div_le_upper_bound; [exact P|]; assert (q * 1 <= q * 10 ^ (- x)) by (apply Z.mul_le_mono_nonneg_l; lia); lia|lia]).
    apply Z.ltb_lt in D. rewrite D. apply Z.ltb_lt in D.
    assert (Iff : forall k, (inject_Z q * pow10 x == inject_Z k)%Q <-> q = k * 10 ^ (- x)).
    { intros k. assert (Sc := scaled_eq q x k 0). replace (Z.max 0 (x - 0)) with 0 in Sc by lia. replace (Z.max 0 (0 - x)) with (- x) in Sc by lia. rewrite Z.pow_0_r, Z.mul_1_r in Sc.
      rewrite <- Sc. change (pow10 0) with 1%Q. rewrite Qmult_1_r. reflexivity. }
    destruct (Z.eqb_spec (q mod 10 ^ (- x)) 0) as [R|R].
    + exists (q / 10 ^ (- x)). split; [split; [apply Z.div_pos; lia|exact D]|]. apply Iff. rewrite (Z.div_mod q (10 ^ (- x))) at 1 by lia. lia.
    + split; [intros k E; apply Iff in E; apply R; rewrite E; apply Z.mod_mul; lia|].
      apply Qle_lt_trans with (inject_Z q); [|rewrite <- Zlt_Qlt; apply Hq]. 
      assert (E : (inject_Z q == inject_Z q * pow10 x * pow10 (- x))%Q) by (rewrite <- Qmult_assoc, <- pow10_add, Z.add_opp_diag_r; change (pow10 0) with 1%Q; ring).
      rewrite E at 2. rewrite (pow10_Z (- x)) by lia. rewrite <- (Qmult_1_r (inject_Z q * pow10 x)) at 1. 
      assert (A0 : (0 <= inject_Z q * pow10 x)%Q) by (apply Qmult_le_0_compat; [change 0%Q with (inject_Z 0); rewrite <- Zle_Qle; lia|apply Qlt_le_weak, pow10_gt]).
      apply Qmult_le_compat_nonneg; [split; [exact A0|apply Qle_refl]|]. split; [discriminate|]. change 1%Q with (inject_Z 1). rewrite <- Zle_Qle. lia.
Qed.
Lemma multiple_spec : forall prec n c e n' c' e', 1 <= prec -> c' <> 0%N -> quotient_in prec c e c' e' ->
  match multiple prec (Fin n c e) (Fin n' c' e') with
  | Some true => is_multiple c e c' e' /\ (dec_q false c e < inject_Z (10 ^ prec) * dec_q false c' e')%Q
  | Some false => ~ is_multiple c e c' e'
  | None => (inject_Z (10 ^ prec) * dec_q false c' e' <= dec_q false c e)%Q
  end.
Proof.
  intros prec n c e n' c' e' Hp Hc H. cbn [multiple]. replace (c' =? 0)%N with false by (symmetry; apply N.eqb_neq, Hc).
  destruct (divide_exact prec c e c' e' Hp Hc H) as (q & x & D & B & E). rewrite D. assert (W := whole_spec prec q x Hp B).
  assert (M : (0 < dec_q false c' e')%Q).
  { rewrite dec_q_pos. rewrite <- (Qmult_0_l (pow10 e')). apply Qmult_lt_r; [apply pow10_gt|]. change 0%Q with (inject_Z 0). rewrite <- Zlt_Qlt. lia. }
  destruct (whole prec (q, x)) as [[|]|].
  - destruct W as (k & K & Ek). rewrite Ek in E. split; [exists k; exact E|]. rewrite E. apply Qmult_lt_r; [exact M|]. rewrite <- Zlt_Qlt. apply K.
  - intros [k Hk]. apply (proj1 W k). rewrite Hk in E. apply Qmult_inj_r in E; [rewrite E; reflexivity|]. intros Z. rewrite Z in M. discriminate M.
  - rewrite E. apply Qmult_le_r; [exact M|exact W].
Qed.

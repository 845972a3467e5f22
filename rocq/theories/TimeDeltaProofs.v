From Coq Require Import List NArith ZArith Bool QArith Qround Qabs Lia Lqa.
From Verif Require Import Base Decimal TimeDelta TimeDeltaSpec.
Import ListNotations.
Open Scope Z_scope.
Ltac Zify.zify_post_hook ::= Z.to_euclidean_division_equations.

Lemma as_u32_id z : 0 <= z < 4294967296 -> as_u32 z = z.
Proof. intros H. unfold as_u32. apply Z.mod_small. exact H. Qed.

Lemma duration_new_norm p d s u :
  0 <= d -> 0 <= s < 86400 -> 0 <= u < 1000000 ->
  duration_new p d s u = if d <=? 999999999 then Some (mk_dur p d s u) else None.
Proof.
  intros Hd Hs Hu. unfold duration_new.
  assert (E1 : u / 1000000 = 0) by lia. assert (E2 : u mod 1000000 = u) by lia.
  rewrite E1, E2, Z.add_0_r.
  assert (E3 : s / 86400 = 0) by lia. assert (E4 : s mod 86400 = s) by lia.
  rewrite E3, E4, Z.add_0_r. reflexivity.
Qed.

Lemma py_delta_new_micros d s u t :
  py_delta_new d s u = Some t -> valid_delta t /\ delta_micros t = (d * 86400 + s) * 1000000 + u.
Proof.
  unfold py_delta_new.
  destruct ((-999999999 <=? d + (s + u / 1000000) / 86400) && (d + (s + u / 1000000) / 86400 <=? 999999999)) eqn:E; [|discriminate].
  apply andb_true_iff in E as [E1 E2]. apply Z.leb_le in E1, E2.
  intros H; injection H as <-. unfold valid_delta, delta_micros; simpl. split; [split; [lia|split; lia]|lia].
Qed.

Lemma valid_delta_inj t1 t2 : valid_delta t1 -> valid_delta t2 -> delta_micros t1 = delta_micros t2 -> t1 = t2.
Proof.
  destruct t1 as [d1 s1 u1], t2 as [d2 s2 u2]. unfold valid_delta, delta_micros; simpl. intros H1 H2 E.
  assert (u1 = u2 /\ s1 = s2 /\ d1 = d2) as [-> [-> ->]] by lia. reflexivity.
Qed.

Lemma py_delta_new_total t d s u :
  valid_delta t -> delta_micros t = (d * 86400 + s) * 1000000 + u -> py_delta_new d s u = Some t.
Proof.
  intros Hv E.
  assert (H : exists t', py_delta_new d s u = Some t').
  { unfold py_delta_new. destruct t as [d0 s0 u0]; unfold valid_delta, delta_micros in *; simpl in *.
    assert (E1 : -999999999 <= d + (s + u / 1000000) / 86400 <= 999999999) by lia.
    destruct E1 as [E1 E2]. apply Z.leb_le in E1, E2. rewrite E1, E2. simpl. eauto. }
  destruct H as [t' H]. rewrite H. f_equal. apply py_delta_new_micros in H as [Hv' E'].
  apply valid_delta_inj; auto. congruence.
Qed.

Lemma exact_as_duration_spec t : valid_delta t ->
  exists d, pytimedelta_exact_as_duration t = Some d /\ duration_micros d = delta_micros t /\
    0 <= du_day d <= 999999999 /\ 0 <= du_second d < 86400 /\ 0 <= du_micro d < 1000000 /\
    (du_positive d = true <-> 0 <= delta_micros t).
Proof.
  destruct t as [d s u]. unfold valid_delta, pytimedelta_exact_as_duration, delta_micros, duration_micros; simpl.
  intros [Hd [Hs Hu]]. destruct (Z.leb_spec 0 d) as [Hp|Hn].
  - rewrite !as_u32_id by lia. rewrite duration_new_norm by lia.
    replace (d <=? 999999999) with true by (symmetry; apply Z.leb_le; lia).
    eexists; split; [reflexivity|]. simpl. repeat split; try reflexivity; try lia; try (intros; discriminate).
  - destruct (Z.eqb_spec u 0) as [->|Hu0]; simpl.
    + destruct (Z.eqb_spec s 0) as [->|Hs0]; simpl.
      * rewrite !as_u32_id by lia. rewrite duration_new_norm by lia.
        replace (Z.abs d <=? 999999999) with true by (symmetry; apply Z.leb_le; lia).
        eexists; split; [reflexivity|]. simpl. repeat split; try reflexivity; try lia; try (intros; discriminate).
      * rewrite !as_u32_id by lia. rewrite duration_new_norm by lia.
        replace (Z.abs (d + 1) <=? 999999999) with true by (symmetry; apply Z.leb_le; lia).
        eexists; split; [reflexivity|]. simpl. repeat split; try reflexivity; try lia; try (intros; discriminate).
    + destruct (Z.eqb_spec (s + 1) 0) as [?|_]; [lia|]. simpl.
      rewrite !as_u32_id by lia. rewrite duration_new_norm by lia.
      replace (Z.abs (d + 1) <=? 999999999) with true by (symmetry; apply Z.leb_le; lia).
      eexists; split; [reflexivity|]. simpl. repeat split; try reflexivity; try lia; try (intros; discriminate).
Qed.

Lemma duration_back d t : valid_delta t -> duration_micros d = delta_micros t ->
  duration_as_pytimedelta d = Some t.
Proof.
  intros Hv E. unfold duration_as_pytimedelta. apply py_delta_new_total; [assumption|].
  rewrite <- E. unfold duration_micros. lia.
Qed.

(** ** Integer seconds *)
Lemma int_as_duration_spec z :
  int_as_duration z =
  let day := (Z.abs z / 86400) mod 4294967296 in
  if day <=? 999999999 then Some (mk_dur (0 <=? z) day (Z.abs z mod 86400) 0) else None.
Proof.
  unfold int_as_duration. assert (H := Z.mod_pos_bound (Z.abs z) 86400).
  rewrite (as_u32_id (Z.abs z mod 86400)) by lia. unfold as_u32.
  pose proof (Z.mod_pos_bound (Z.abs z / 86400) 4294967296 eq_refl).
  rewrite duration_new_norm by lia. reflexivity.
Qed.

(** ** Floats *)
Lemma fract_bounds x : (0 <= x)%Q -> (0 <= fract x < 1)%Q /\ (inject_Z (Qfloor x) + fract x == x)%Q.
Proof.
  intros H. unfold fract, trunc. apply Qle_bool_iff in H. rewrite H.
  pose proof (Qfloor_le x). pose proof (Qlt_floor x). rewrite inject_Z_plus in H1.
  change (inject_Z 1) with 1%Q in H1. repeat split; lra.
Qed.

Lemma round_away_close x : (0 <= x)%Q -> (Qabs (inject_Z (round_away x) - x) <= 1 # 2)%Q /\ 0 <= round_away x.
Proof.
  intros H. unfold round_away. apply Qle_bool_iff in H as Hb. rewrite Hb.
  pose proof (Qfloor_le (x + (1#2))). pose proof (Qlt_floor (x + (1#2))) as H1. rewrite inject_Z_plus in H1.
  change (inject_Z 1) with 1%Q in H1. split.
  - apply Qabs_Qle_condition. split; lra.
  - rewrite <- (Qfloor_Z 0). apply Qfloor_resp_le. change (inject_Z 0) with 0%Q. lra.
Qed.

Lemma tiny_small : (tiny <= 1 # 1606938044258990275541962092341162602522202993782792835301376)%Q.
Proof. vm_compute. discriminate. Qed.
Lemma tiny_pos : (0 <= tiny)%Q.
Proof. vm_compute. discriminate. Qed.
Global Opaque tiny.

Lemma micros_err rnd x : ieee_rounding rnd -> (0 <= x < 1000000)%Q -> (Qabs (rnd x - x) <= 1 # 8589934592)%Q.
Proof.
  intros [_ _ H] Hx. specialize (H x). eapply Qle_trans; [exact H|].
  rewrite (Qabs_pos x) by lra. pose proof tiny_small. lra.
Qed.

Lemma rounded_micros rnd f : ieee_rounding rnd -> (0 <= f < 1)%Q ->
  (Qabs (inject_Z (round_away (rnd (f * 1000000)%Q)) - f * 1000000) <= half_micro)%Q /\
  0 <= round_away (rnd (f * 1000000)%Q) <= 1000000.
Proof.
  intros Hir Hf. set (x := (f * 1000000)%Q). assert (Hx : (0 <= x < 1000000)%Q) by (unfold x; lra).
  pose proof (micros_err rnd x Hir Hx) as Hr. set (y := rnd x) in *. apply Qabs_Qle_condition in Hr as [Hr1 Hr2].
  assert (Hy : (0 <= y)%Q).
  { unfold y. rewrite <- (rnd_int rnd Hir 0) by lia. apply (rnd_mono rnd Hir). change (inject_Z 0) with 0%Q. lra. }
  pose proof (proj1 (round_away_close y Hy)) as H. apply Qabs_Qle_condition in H.
  unfold half_micro. split.
  - apply Qabs_Qle_condition. split; lra.
  - assert (A : (inject_Z (-1) < inject_Z (round_away y))%Q) by (change (inject_Z (-1)) with (-1)%Q; lra).
    assert (B : (inject_Z (round_away y) < inject_Z 1000001)%Q) by (change (inject_Z 1000001) with 1000001%Q; lra).
    rewrite <- Zlt_Qlt in A, B. lia.
Qed.

Lemma floor_nonneg x : (0 <= x)%Q -> 0 <= Qfloor x.
Proof. intros H. rewrite <- (Qfloor_Z 0). apply Qfloor_resp_le. exact H. Qed.

Lemma float_as_datetime_nonneg rnd x :
  ieee_rounding rnd -> (0 <= x < inject_Z (2 ^ 63))%Q ->
  let '(s, u) := float_as_datetime_parts rnd x in
  (Qabs (inject_Z (s * 1000000 + u) - x * 1000000) <= half_micro)%Q.
Proof.
  intros Hr Hx. unfold float_as_datetime_parts. destruct (fract_bounds x) as [Hf He]; [lra|].
  assert (Ea : (Qabs (fract x) == fract x)%Q) by (apply Qabs_pos; lra).
  assert (Hfl : 0 <= Qfloor x < 2 ^ 63).
  { split; [apply floor_nonneg; lra|].
    pose proof (Qfloor_le x). rewrite Zlt_Qlt. lra. }
  assert (Hs : sat_i64 (Qfloor x) = Qfloor x) by (unfold sat_i64, sat; lia).
  rewrite Hs. set (y := (Qabs (fract x) * 1000000)%Q).
  assert (Hr' : (Qabs (inject_Z (round_away (rnd y)) - y) <= half_micro)%Q /\ 0 <= round_away (rnd y) <= 1000000).
  { unfold y. apply (rounded_micros rnd (Qabs (fract x)) Hr). rewrite Ea. exact Hf. }
  destruct Hr' as [Hc Hb].
  assert (Hu : sat_u32 (round_away (rnd y)) = round_away (rnd y)) by (unfold sat_u32, sat; lia).
  rewrite Hu. apply Qabs_Qle_condition in Hc. apply Qabs_Qle_condition.
  assert (Ey : (y == fract x * 1000000)%Q) by (unfold y; rewrite Ea; reflexivity).
  rewrite inject_Z_plus, inject_Z_mult. change (inject_Z 1000000) with 1000000%Q. lra.
Qed.

(** The integer part of the rounded number of days is the exact one. *)
Lemma days_exact rnd a : ieee_rounding rnd -> small_double a ->
  trunc (rnd (a / 86400)%Q) = Qfloor (a / 86400)%Q.
Proof.
  intros Hir [m [n [Hm Ha]]]. set (q := (a / 86400)%Q).
  set (P := 2 ^ Z.of_nat n) in *. assert (HP : 0 < P) by (apply Z.pow_pos_nonneg; lia).
  assert (HPq : (0 < inject_Z P)%Q) by (change 0%Q with (inject_Z 0); rewrite <- Zlt_Qlt; lia).
  assert (HaP : (a * inject_Z P == inject_Z m)%Q) by (rewrite Ha; field; lra).
  assert (Ha0 : (0 <= a)%Q).
  { rewrite Ha. apply Qle_shift_div_l; [assumption|]. rewrite Qmult_0_l. change 0%Q with (inject_Z 0). rewrite <- Zle_Qle. lia. }
  assert (Hq : (q * 86400 == a)%Q) by (unfold q; field).
  set (K := Qfloor q).
  pose proof (Qfloor_le q) as HK1. pose proof (Qlt_floor q) as HK2. fold K in HK1, HK2.
  rewrite inject_Z_plus in HK2. change (inject_Z 1) with 1%Q in HK2.
  assert (HK0 : 0 <= K) by (apply floor_nonneg; lra).
  assert (HKm : K <= m).
  { assert (H : (inject_Z K * 86400 * inject_Z P <= inject_Z m)%Q).
    { rewrite <- HaP. apply Qmult_le_compat_r; lra. }
    change 86400%Q with (inject_Z 86400) in H. rewrite <- !inject_Z_mult, <- Zle_Qle in H.
    assert (K * 86400 * 1 <= K * 86400 * P) by (apply Z.mul_le_mono_nonneg_l; lia). lia. }
  assert (Hlo : (inject_Z K <= rnd q)%Q).
  { rewrite <- (rnd_int rnd Hir K) by lia. apply (rnd_mono rnd Hir). exact HK1. }
  assert (Hhi : (rnd q < inject_Z K + 1)%Q).
  { destruct (Qlt_le_dec (rnd q) (inject_Z K + 1)) as [H|H]; [assumption|exfalso].
    pose proof (rnd_err rnd Hir q) as He. apply Qabs_Qle_condition in He as [_ He].
    rewrite (Qabs_pos q) in He by lra.
    (* t = 86400 (K+1) - a, a multiple of 1/P *)
    set (t := ((inject_Z K + 1) * 86400 - a)%Q).
    assert (Ht0 : (0 < t)%Q) by (unfold t; lra).
    assert (HtP : (t * inject_Z P == inject_Z ((K + 1) * 86400 * P - m))%Q).
    { unfold Zminus. rewrite inject_Z_plus, inject_Z_opp, !inject_Z_mult, inject_Z_plus. rewrite <- HaP. unfold t.
      change (inject_Z 86400) with 86400%Q. change (inject_Z 1) with 1%Q. ring. }
    assert (Ht1 : (1 <= t * inject_Z P)%Q).
    { rewrite HtP. change 1%Q with (inject_Z 1). rewrite <- Zle_Qle.
      assert ((inject_Z 0 < inject_Z ((K + 1) * 86400 * P - m))%Q).
      { rewrite <- HtP. change (inject_Z 0) with 0%Q. apply Qmult_lt_0_compat; assumption. }
      rewrite <- Zlt_Qlt in H0. lia. }
    assert (Hte : (t <= a * (1 # 9007199254740992) + 86400 * tiny)%Q) by (unfold t; lra).
    assert (HteP : (t * inject_Z P <= inject_Z m * (1 # 9007199254740992) + 86400 * tiny * inject_Z P)%Q).
    { rewrite <- HaP. eapply Qle_trans; [apply Qmult_le_compat_r; [exact Hte | lra]|]. lra. }
    (* P is small because a is close to 86400 (K+1) >= 86400 *)
    assert (HK0q : (0 <= inject_Z K)%Q) by (change 0%Q with (inject_Z 0); rewrite <- Zle_Qle; lia).
    assert (Hmq : (inject_Z m <= inject_Z (2 ^ 53 - 1))%Q) by (rewrite <- Zle_Qle; lia).
    change (inject_Z (2 ^ 53 - 1)) with 9007199254740991%Q in Hmq.
    assert (Habig : (1 <= a)%Q).
    { pose proof tiny_small. unfold t in Hte. lra. }
    assert (HPsmall : (inject_Z P <= 9007199254740991)%Q).
    { eapply Qle_trans; [|exact Hmq]. rewrite <- HaP.
      assert (H1 : (1 * inject_Z P <= a * inject_Z P)%Q) by (apply Qmult_le_compat_r; lra). lra. }
    assert (Htp : (86400 * tiny * inject_Z P <= 86400 * (1 # 1606938044258990275541962092341162602522202993782792835301376) * 9007199254740991)%Q).
    { pose proof tiny_small. pose proof tiny_pos.
      eapply Qle_trans; [apply Qmult_le_compat_r with (y := (86400 * (1 # 1606938044258990275541962092341162602522202993782792835301376))%Q); lra|].
      rewrite !(Qmult_comm (86400 * (1 # 1606938044258990275541962092341162602522202993782792835301376))). apply Qmult_le_compat_r; lra. }
    lra. }
  unfold trunc. assert (Hb : Qle_bool 0 (rnd q) = true).
  { apply Qle_bool_iff. assert ((0 <= inject_Z K)%Q) by (change 0%Q with (inject_Z 0); rewrite <- Zle_Qle; lia). lra. }
  rewrite Hb. pose proof (Qfloor_le (rnd q)) as H1. pose proof (Qlt_floor (rnd q)) as H2.
  rewrite inject_Z_plus in H2. change (inject_Z 1) with 1%Q in H2.
  assert (A : (inject_Z (Qfloor (rnd q)) < inject_Z (K + 1))%Q) by (rewrite inject_Z_plus; change (inject_Z 1) with 1%Q; lra).
  assert (B : (inject_Z K < inject_Z (Qfloor (rnd q) + 1))%Q) by (rewrite inject_Z_plus; change (inject_Z 1) with 1%Q; lra).
  rewrite <- Zlt_Qlt in A, B. lia.
Qed.

Lemma duration_new_total p d s u r : duration_new p d s u = Some r ->
  du_positive r = p /\ (du_day r * 86400 + du_second r) * 1000000 + du_micro r = (d * 86400 + s) * 1000000 + u /\
  du_day r <= 999999999 /\ 0 <= du_second r < 86400 /\ 0 <= du_micro r < 1000000.
Proof.
  unfold duration_new. destruct (Z.leb_spec (d + (s + u / 1000000) / 86400) 999999999) as [H|H]; [|discriminate].
  intros E; injection E as <-. simpl. repeat split; lia.
Qed.

Lemma floor_div a : (0 <= a)%Q -> Qfloor (a / 86400)%Q = Qfloor a / 86400.
Proof.
  intros Ha. set (q := (a / 86400)%Q). assert (Hq : (q * 86400 == a)%Q) by (unfold q; field).
  pose proof (Qfloor_le q) as H1. pose proof (Qlt_floor q) as H2. pose proof (Qfloor_le a) as H3. pose proof (Qlt_floor a) as H4.
  rewrite inject_Z_plus in H2, H4. change (inject_Z 1) with 1%Q in H2, H4.
  assert (A : (inject_Z (Qfloor q * 86400) < inject_Z (Qfloor a + 1))%Q).
  { rewrite inject_Z_mult, inject_Z_plus. change (inject_Z 86400) with 86400%Q. change (inject_Z 1) with 1%Q. lra. }
  assert (B : (inject_Z (Qfloor a) < inject_Z ((Qfloor q + 1) * 86400))%Q).
  { rewrite inject_Z_mult, inject_Z_plus. change (inject_Z 86400) with 86400%Q. change (inject_Z 1) with 1%Q. lra. }
  rewrite <- Zlt_Qlt in A, B. lia.
Qed.

Lemma float_as_duration_close rnd x d :
  ieee_rounding rnd -> small_double (Qabs x) -> float_as_duration rnd x = Some d ->
  (Qabs (inject_Z (duration_micros d) - x * 1000000) <= half_micro)%Q.
Proof.
  intros Hir Hsd H. unfold float_as_duration in H. set (a := Qabs x) in *.
  assert (Ha : (0 <= a)%Q) by apply Qabs_nonneg.
  rewrite (days_exact rnd a Hir Hsd), (floor_div a Ha) in H.
  assert (Hta : trunc a = Qfloor a) by (unfold trunc; apply Qle_bool_iff in Ha; rewrite Ha; reflexivity).
  rewrite Hta in H. destruct (fract_bounds a Ha) as [Hf He].
  pose proof (floor_nonneg a Ha) as Hfl.
  assert (Hbig : Qfloor a < 2 ^ 53).
  { destruct Hsd as [m [n [Hm Hm']]]. assert ((a <= inject_Z m)%Q).
    { rewrite Hm'. assert (HP : 0 < 2 ^ Z.of_nat n) by (apply Z.pow_pos_nonneg; lia).
      apply Qle_shift_div_r.
      - change 0%Q with (inject_Z 0). rewrite <- Zlt_Qlt. lia.
      - rewrite <- inject_Z_mult, <- Zle_Qle. nia. }
    pose proof (Qfloor_le a). assert ((inject_Z (Qfloor a) <= inject_Z m)%Q) by lra. rewrite <- Zle_Qle in H2. lia. }
  assert (Hs64 : sat_u64 (Qfloor a) = Qfloor a) by (unfold sat_u64, sat; lia). rewrite Hs64 in H.
  rewrite as_u32_id in H by lia.
  destruct (rounded_micros rnd (fract a) Hir Hf) as [Hc Hu].
  assert (Hsu : sat_u32 (round_away (rnd (fract a * 1000000)%Q)) = round_away (rnd (fract a * 1000000)%Q)) by (unfold sat_u32, sat; lia).
  rewrite Hsu in H. set (u := round_away (rnd (fract a * 1000000)%Q)) in *.
  apply duration_new_total in H as [Hp [Ht [Hd [Hds Hdu]]]].
  assert (Hdays : sat_u32 (Qfloor a / 86400) = Qfloor a / 86400 \/ sat_u32 (Qfloor a / 86400) = 2 ^ 32 - 1) by (unfold sat_u32, sat; lia).
  assert (Hdays' : sat_u32 (Qfloor a / 86400) = Qfloor a / 86400).
  { destruct Hdays as [E|E]; [assumption|]. exfalso. rewrite E in Ht.
    assert (Hsec : 0 <= Qfloor a mod 86400 < 86400) by lia.
    change (2 ^ 32 - 1) with 4294967295 in Ht. lia. }
  rewrite Hdays' in Ht. assert (Hfa : Qfloor a / 86400 * 86400 + Qfloor a mod 86400 = Qfloor a) by lia.
  rewrite Hfa in Ht. apply Qabs_Qle_condition in Hc. apply Qabs_Qle_condition.
  unfold duration_micros. rewrite Hp, Ht.
  unfold a in *. destruct (Qle_bool 0 x) eqn:Ex.
  - apply Qle_bool_iff in Ex. pose proof (Qabs_pos x Ex) as Eabs.
    rewrite inject_Z_mult, inject_Z_plus, inject_Z_mult. change (inject_Z 1000000) with 1000000%Q. change (inject_Z 1) with 1%Q. lra.
  - assert (Hx : (x <= 0)%Q).
    { destruct (Qlt_le_dec 0 x) as [H0|H0]; [|assumption]. assert (Qle_bool 0 x = true) by (apply Qle_bool_iff; lra). congruence. }
    pose proof (Qabs_neg x Hx) as Eabs.
    rewrite inject_Z_mult, inject_Z_plus, inject_Z_mult. change (inject_Z 1000000) with 1000000%Q. change (inject_Z (-1)) with (-1)%Q. lra.
Qed.

Lemma float_as_duration_total rnd x :
  ieee_rounding rnd -> small_double (Qabs x) -> (Qabs x < 86399999999999)%Q -> float_as_duration rnd x <> None.
Proof.
  intros Hir Hsd Hb H. unfold float_as_duration in H. set (a := Qabs x) in *.
  assert (Ha : (0 <= a)%Q) by apply Qabs_nonneg.
  rewrite (days_exact rnd a Hir Hsd), (floor_div a Ha) in H.
  assert (Hta : trunc a = Qfloor a) by (unfold trunc; apply Qle_bool_iff in Ha; rewrite Ha; reflexivity).
  rewrite Hta in H. destruct (fract_bounds a Ha) as [Hf He].
  pose proof (floor_nonneg a Ha) as Hfl.
  assert (Hbig : Qfloor a < 86399999999999).
  { pose proof (Qfloor_le a). rewrite Zlt_Qlt. change (inject_Z 86399999999999) with 86399999999999%Q. lra. }
  assert (Hs64 : sat_u64 (Qfloor a) = Qfloor a) by (unfold sat_u64, sat; lia). rewrite Hs64 in H.
  rewrite as_u32_id in H by lia.
  destruct (rounded_micros rnd (fract a) Hir Hf) as [Hc Hu].
  assert (Hsu : sat_u32 (round_away (rnd (fract a * 1000000)%Q)) = round_away (rnd (fract a * 1000000)%Q)) by (unfold sat_u32, sat; lia).
  rewrite Hsu in H. set (u := round_away (rnd (fract a * 1000000)%Q)) in *.
  assert (Hdays : sat_u32 (Qfloor a / 86400) = Qfloor a / 86400) by (unfold sat_u32, sat; lia). rewrite Hdays in H.
  unfold duration_new in H.
  destruct (Z.leb_spec (Qfloor a / 86400 + (Qfloor a mod 86400 + u / 1000000) / 86400) 999999999); [discriminate|]. lia.
Qed.

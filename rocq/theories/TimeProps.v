(** C54, C55, C59: timedeltas, numeric timestamps, timezones. *)
From Coq Require Import List NArith ZArith Bool QArith Qround Qabs Lia Lqa.
From Verif Require Import Base Decimal TimeDelta TimeDeltaSpec TimeDeltaProofs TzInfo TzInfoProofs.
Import ListNotations.
Open Scope Z_scope.
Ltac Zify.zify_post_hook ::= Z.to_euclidean_division_equations.

(** C54: never panics, denotes the same number of microseconds, and converts back
    to the same timedelta. *)
Theorem C54_timedelta_roundtrip : forall t, valid_delta t ->
  exists d, pytimedelta_exact_as_duration t = Some d /\ duration_micros d = delta_micros t /\
            duration_as_pytimedelta d = Some t.
Proof.
  intros t H. destruct (exact_as_duration_spec t H) as [d [H1 [H2 _]]]. exists d.
  repeat split; auto. apply duration_back; assumption.
Qed.
Print Assumptions C54_timedelta_roundtrip.

(** The sign flag is faithful: a duration is flagged negative iff the timedelta is. *)
Theorem C54_duration_sign : forall t d, valid_delta t ->
  pytimedelta_exact_as_duration t = Some d -> (du_positive d = true <-> 0 <= delta_micros t).
Proof.
  intros t d H E. destruct (exact_as_duration_spec t H) as [d' [H1 [_ [_ [_ [_ H2]]]]]].
  rewrite H1 in E. injection E as <-. exact H2.
Qed.
Print Assumptions C54_duration_sign.

Example C54_case : valid_delta (mk_delta (-1) 86399 999999) /\
  pytimedelta_exact_as_duration (mk_delta (-1) 86399 999999) = Some (mk_dur false 0 0 1).
Proof. vm_compute. intuition discriminate. Qed.

(** C55, integers: below 2^32 days an accepted number of seconds is exact, and it
    is accepted iff it is less than a thousand million days. *)
Theorem C55_int_timedelta_exact : forall z d,
  Z.abs z < 86400 * 2 ^ 32 -> int_as_duration z = Some d -> duration_micros d = z * 1000000.
Proof.
  intros z d Hz H. rewrite int_as_duration_spec in H. cbv zeta in H.
  assert (E : (Z.abs z / 86400) mod 4294967296 = Z.abs z / 86400) by lia. rewrite E in H.
  destruct (Z.abs z / 86400 <=? 999999999); [|discriminate]. injection H as <-.
  unfold duration_micros; simpl. destruct (Z.leb_spec 0 z); lia.
Qed.
Print Assumptions C55_int_timedelta_exact.

Theorem C55_int_timedelta_accepted : forall z,
  Z.abs z < 86400 * 2 ^ 32 -> (int_as_duration z <> None <-> Z.abs z < 86400 * 1000000000).
Proof.
  intros z Hz. rewrite int_as_duration_spec. cbv zeta.
  assert (E : (Z.abs z / 86400) mod 4294967296 = Z.abs z / 86400) by lia. rewrite E.
  destruct (Z.leb_spec (Z.abs z / 86400) 999999999); split; intros H'; try discriminate; try lia.
  contradiction H'; reflexivity.
Qed.
Print Assumptions C55_int_timedelta_accepted.

(** C55, finding: without the bound the claim is false; 86400*2^32+1 seconds, a
    valid [i64], is accepted as one second. *)
Theorem C55_int_timedelta_refuted :
  exists z d, - 2 ^ 63 <= z < 2 ^ 63 /\ int_as_duration z = Some d /\ duration_micros d <> z * 1000000.
Proof.
  exists (86400 * 2 ^ 32 + 1), (mk_dur true 0 1 0). repeat split.
  - intros H; vm_compute in H; discriminate.
  - vm_compute. discriminate.
Qed.
Print Assumptions C55_int_timedelta_refuted.

(** C55, float seconds as timedelta: nearest microsecond, for every finite double
    whose magnitude is below 2^53. *)
Theorem C55_float_timedelta_close : forall rnd x d,
  ieee_rounding rnd -> small_double (Qabs x) -> float_as_duration rnd x = Some d ->
  (Qabs (inject_Z (duration_micros d) - x * 1000000) <= half_micro)%Q.
Proof. exact float_as_duration_close. Qed.
Print Assumptions C55_float_timedelta_close.

Theorem C55_float_timedelta_accepted : forall rnd x,
  ieee_rounding rnd -> small_double (Qabs x) -> (Qabs x < 86399999999999)%Q ->
  float_as_duration rnd x <> None.
Proof. exact float_as_duration_total. Qed.
Print Assumptions C55_float_timedelta_accepted.

(** C55, float timestamps as datetime: nearest microsecond when non-negative. *)
Theorem C55_float_datetime_close : forall rnd x,
  ieee_rounding rnd -> (0 <= x < inject_Z (2 ^ 63))%Q ->
  let '(s, u) := float_as_datetime_parts rnd x in
  (Qabs (inject_Z (s * 1000000 + u) - x * 1000000) <= half_micro)%Q.
Proof. exact float_as_datetime_nonneg. Qed.
Print Assumptions C55_float_datetime_close.

(** C55, finding: a negative fractional timestamp lands on the wrong instant;
    -1.25 becomes -1.75. *)
Theorem C55_float_datetime_negative_refuted : forall rnd, ieee_rounding rnd ->
  exists x, float_as_datetime_parts rnd x = (-2, 250000) /\ (x == - 5 # 4)%Q.
Proof.
  intros rnd Hir. exists (- 5 # 4)%Q. split; [|reflexivity]. unfold float_as_datetime_parts.
  assert (E : (rnd (Qabs (fract (- 5 # 4)) * 1000000) == 250000)%Q).
  { assert (E1 : (Qabs (fract (- 5 # 4)) * 1000000 == inject_Z 250000)%Q) by (vm_compute; reflexivity).
    rewrite <- (rnd_int rnd Hir 250000) by (vm_compute; discriminate).
    apply Qle_antisym; apply (rnd_mono rnd Hir); rewrite E1; apply Qle_refl. }
  set (y := rnd _) in *.
  assert (Hr : round_away y = 250000).
  { unfold round_away. assert (Hb : Qle_bool 0 y = true) by (apply Qle_bool_iff; rewrite E; discriminate).
    rewrite Hb. rewrite E. reflexivity. }
  rewrite Hr. reflexivity.
Qed.
Print Assumptions C55_float_datetime_negative_refuted.

Lemma ieee_id : ieee_rounding (fun x => x).
Proof.
  split.
  - auto.
  - intros; reflexivity.
  - intros x. assert (E : (x - x == 0)%Q) by ring. rewrite E. change (Qabs 0) with 0%Q.
    pose proof (Qabs_nonneg x). pose proof tiny_pos. lra.
Qed.
Example C55_case : exists rnd x, ieee_rounding rnd /\ small_double (Qabs x) /\
  (x == - 3 # 2)%Q /\ float_as_duration rnd x = Some (mk_dur false 0 1 500000).
Proof.
  exists (fun x => x), (- 3 # 2)%Q. split; [exact ieee_id|]. split; [|split; [reflexivity | vm_compute; reflexivity]].
  exists 3, 1%nat. split; [lia | reflexivity].
Qed.

(** C59: the constraint. *)
Theorem C59_tz_constraint : forall c o,
  tz_check c o = None <->
  match c with
  | TzNaive => o = None
  | TzAware None => exists x, o = Some x
  | TzAware (Some e) => o = Some e
  end.
Proof.
  intros [|[e|]] [x|]; simpl; try (split; congruence); try (split; eauto; discriminate).
  - destruct (Z.eqb_spec e x) as [->|H]; simpl; split; congruence.
  - split; [discriminate|]. intros [x H]; discriminate.
Qed.
Print Assumptions C59_tz_constraint.

Theorem C59_tz_errors : forall c o e, tz_check c o = Some e ->
  match e with
  | TimezoneAware => o = None /\ c <> TzNaive
  | TimezoneNaive => (exists x, o = Some x) /\ c = TzNaive
  | TimezoneOffset ex ac => c = TzAware (Some ex) /\ o = Some ac /\ ex <> ac
  end.
Proof.
  intros [|[e|]] [x|] er; simpl; intros H; try discriminate; try (injection H as <-; split; eauto; discriminate).
  destruct (Z.eqb_spec e x); simpl in H; [discriminate|]. injection H as <-. auto.
Qed.
Print Assumptions C59_tz_errors.

(** An offset object exists iff it is strictly within a day. *)
Theorem C59_tz_range : forall s, tz_new s = Some s <-> -86400 < s < 86400.
Proof. intros s. unfold tz_new. destruct (Z.leb_spec 86400 (Z.abs s)); split; intros H'; try discriminate; try lia. reflexivity. Qed.
Print Assumptions C59_tz_range.

(** Its name prints sign, hours, minutes and (if non-zero) seconds in two digits each. *)
Theorem C59_tz_name_faithful : forall s, -86400 < s < 86400 -> s <> 0 ->
  exists h m sec, Z.abs s = h * 3600 + m * 60 + sec /\ 0 <= h < 24 /\ 0 <= m < 60 /\ 0 <= sec < 60 /\
  tz_str s = (if 0 <? s then 43%N else 45%N) :: two_digits h ++ 58%N :: two_digits m
              ++ (if sec =? 0 then [] else 58%N :: two_digits sec).
Proof.
  intros s Hs H0. exists (Z.abs s / 3600), ((Z.abs s / 60) mod 60), (Z.abs s mod 60).
  repeat split; try lia. apply tz_str_spec; assumption.
Qed.
Print Assumptions C59_tz_name_faithful.

Theorem C59_tz_name_injective : forall a b, -86400 < a < 86400 -> -86400 < b < 86400 ->
  tz_str a = tz_str b -> a = b.
Proof. exact tz_str_inj. Qed.
Print Assumptions C59_tz_name_injective.

Example C59_case : tz_str (-19815) = lit "-05:30:15" /\ tz_str 0 = lit "UTC" /\ tz_str 3600 = lit "+01:00".
Proof. vm_compute. auto. Qed.

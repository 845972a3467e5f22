(** Proofs about dates, datetimes and times. *)
From Coq Require Import List NArith ZArith Bool Lia.
From Verif Require Import Base Values VState TzInfo Dates DatesSpec.
Import ListNotations.
Open Scope Z_scope.

(** ** The calendar *)

Lemma is_leap_spec : forall y, is_leap y = true <-> leap_year y.
Proof.
  intros y. unfold is_leap, leap_year. rewrite orb_true_iff, andb_true_iff, negb_true_iff, !Z.eqb_eq, Z.eqb_neq. tauto.
Qed.

Lemma leaps_step : forall y, leaps_before (y + 1) = leaps_before y + (if is_leap y then 1 else 0).
Proof.
  intros y. unfold leaps_before, is_leap. replace (y + 1 - 1) with y by lia.
  destruct (Z.eqb_spec (y mod 4) 0), (Z.eqb_spec (y mod 100) 0), (Z.eqb_spec (y mod 400) 0); cbn [negb andb orb];
    Z.div_mod_to_equations; lia.
Qed.

Lemma month_cases : forall m, 1 <= m <= 12 ->
  m = 1 \/ m = 2 \/ m = 3 \/ m = 4 \/ m = 5 \/ m = 6 \/ m = 7 \/ m = 8 \/ m = 9 \/ m = 10 \/ m = 11 \/ m = 12.
Proof. intros. lia. Qed.
Ltac months H := destruct (month_cases _ H) as [->|[->|[->|[->|[->|[->|[->|[->|[->|[->|[->| ->]]]]]]]]]]].

Lemma month_step : forall l m, 1 <= m <= 12 -> month_start l (m + 1) = month_start l m + month_length l m.
Proof. intros l m H. months H; destruct l; reflexivity. Qed.
Lemma month_bounds : forall l m, 1 <= m <= 12 -> 28 <= month_length l m <= 31.
Proof. intros l m H. months H; destruct l; cbn; lia. Qed.
Lemma month_mono : forall l a b, 1 <= a < b -> b <= 13 -> month_start l a + month_length l a <= month_start l b.
Proof.
  intros l a b Ha Hb. assert (Ha' : 1 <= a <= 12) by lia.
  assert (Hb' : b = 13 \/ 1 <= b <= 12) by lia. destruct Hb' as [->|Hb'].
  - months Ha'; destruct l; cbn; lia.
  - months Ha'; months Hb'; destruct l; cbn; lia.
Qed.
Lemma month_start_range : forall l m d, 1 <= m <= 12 -> 1 <= d <= month_length l m ->
  0 <= month_start l m + (d - 1) < 365 + (if l then 1 else 0).
Proof. intros l m d H Hd. months H; destruct l; cbn in *; lia. Qed.

Lemma next_day_days : forall d, valid_date d -> date_days (next_day d) = date_days d + 1.
Proof.
  intros [y m d] (Hy & Hm & Hd). unfold next_day, date_days. cbn [da_year da_month da_day] in *.
  destruct (Z.ltb_spec d (month_length (is_leap y) m)); [cbn [da_year da_month da_day]; lia|].
  destruct (Z.ltb_spec m 12); cbn [da_year da_month da_day].
  - rewrite month_step by lia. lia.
  - rewrite leaps_step. assert (m = 12) by lia. subst m.
    assert (d = 31) by (destruct (is_leap y); cbn in *; lia). subst d.
    destruct (is_leap y), (is_leap (y + 1)); cbn; lia.
Qed.
Lemma next_day_valid : forall d, valid_date d -> da_year (next_day d) <= 9999 -> valid_date (next_day d).
Proof.
  intros [y m d] (Hy & Hm & Hd) H9. unfold next_day, valid_date in *. cbn [da_year da_month da_day] in *.
  destruct (Z.ltb_spec d (month_length (is_leap y) m)); [cbn [da_year da_month da_day] in *; lia|].
  destruct (Z.ltb_spec m 12); cbn [da_year da_month da_day] in *.
  - pose proof (month_bounds (is_leap y) (m + 1)). lia.
  - pose proof (month_bounds (is_leap (y + 1)) 1). lia.
Qed.

(** The day number orders dates as they are written. *)
Lemma year_start_mono : forall a b, a < b ->
  365 * a + leaps_before a + (365 + if is_leap a then 1 else 0) <= 365 * b + leaps_before b.
Proof.
  intros a b H. replace (365 * a + leaps_before a + (365 + (if is_leap a then 1 else 0)))
    with (365 * (a + 1) + leaps_before (a + 1)) by (rewrite leaps_step; lia).
  assert (leaps_before (a + 1) <= leaps_before b) by (unfold leaps_before; Z.div_mod_to_equations; lia). lia.
Qed.

Lemma date_cmp_days : forall a b, valid_date a -> valid_date b -> date_cmp a b = (date_days a ?= date_days b).
Proof.
  intros [y m d] [y' m' d'] (Hy & Hm & Hd) (Hy' & Hm' & Hd'). unfold date_cmp, date_days.
  cbn [da_year da_month da_day] in *.
  pose proof (month_start_range (is_leap y) m d Hm Hd). pose proof (month_start_range (is_leap y') m' d' Hm' Hd').
  destruct (Z.compare_spec y y') as [<-|L|G].
  - destruct (Z.compare_spec m m') as [<-|L|G].
    + destruct (Z.compare_spec d d') as [<-|L|G]; symmetry;
        [apply Z.compare_eq_iff|apply Z.compare_lt_iff|apply Z.compare_gt_iff]; lia.
    + symmetry. apply Z.compare_lt_iff. pose proof (month_mono (is_leap y) m m'). lia.
    + symmetry. apply Z.compare_gt_iff. pose proof (month_mono (is_leap y) m' m). lia.
  - symmetry. apply Z.compare_lt_iff. pose proof (year_start_mono y y' L). lia.
  - symmetry. apply Z.compare_gt_iff. pose proof (year_start_mono y' y G). lia.
Qed.

Lemma date_days_inj : forall a b, valid_date a -> valid_date b -> date_days a = date_days b -> a = b.
Proof.
  intros a b Ha Hb H. pose proof (date_cmp_days a b Ha Hb) as C. rewrite (proj2 (Z.compare_eq_iff _ _) H) in C.
  destruct a as [y m d], b as [y' m' d']. unfold date_cmp in C. cbn [da_year da_month da_day] in C.
  destruct (Z.compare_spec y y'); try discriminate. destruct (Z.compare_spec m m'); try discriminate.
  apply Z.compare_eq_iff in C. congruence.
Qed.

(** ** Comparing *)

Lemma clock_seconds : forall t, clock t = time_seconds t * 1000000 + ti_micro t.
Proof. intros t. unfold clock, time_seconds. lia. Qed.

Lemma then_micro_spec : forall x y a b, 0 <= ti_micro a <= 999999 -> 0 <= ti_micro b <= 999999 ->
  then_micro (x ?= y) a b = (x * 1000000 + ti_micro a ?= y * 1000000 + ti_micro b).
Proof.
  intros x y a b Ha Hb. unfold then_micro.
  destruct (Z.compare_spec x y) as [<-|L|G]; symmetry.
  - destruct (Z.compare_spec (ti_micro a) (ti_micro b)); [apply Z.compare_eq_iff|apply Z.compare_lt_iff|apply Z.compare_gt_iff]; lia.
  - apply Z.compare_lt_iff. lia.
  - apply Z.compare_gt_iff. lia.
Qed.

Definition micro_ok (t : time) : Prop :=
  0 <= ti_hour t <= 23 /\ 0 <= ti_minute t <= 59 /\ 0 <= ti_second t <= 59 /\ 0 <= ti_micro t <= 999999.
Lemma valid_micro : forall t, valid_time t -> micro_ok t.
Proof. intros t (H & H0 & H1 & H2 & _). unfold micro_ok. auto. Qed.

Lemma time_cmp_spec : forall a b, micro_ok a -> micro_ok b ->
  time_cmp a b = (time_point (both_utc (ti_off a) (ti_off b)) a ?= time_point (both_utc (ti_off a) (ti_off b)) b).
Proof.
  intros a b (_ & _ & _ & Ha) (_ & _ & _ & Hb). unfold time_cmp, time_point, both_utc. rewrite !clock_seconds.
  destruct (ti_off a) as [oa|]; [destruct (ti_off b) as [ob|]|]; rewrite then_micro_spec by assumption;
    unfold shift; f_equal; lia.
Qed.

Lemma dt_cmp_spec : forall a b, valid_date (dt_date a) -> valid_date (dt_date b) -> micro_ok (dt_time a) -> micro_ok (dt_time b) ->
  dt_cmp a b = (dt_point (both_utc (ti_off (dt_time a)) (ti_off (dt_time b))) a
                ?= dt_point (both_utc (ti_off (dt_time a)) (ti_off (dt_time b))) b).
Proof.
  intros a b Va Vb Ha Hb.
  assert (W : match date_cmp (dt_date a) (dt_date b) with
              | Eq => (clock (dt_time a) ?= clock (dt_time b)) | c => c end = (wall a ?= wall b)).
  { rewrite date_cmp_days by assumption. unfold wall.
    assert (A : forall t, micro_ok t -> 0 <= clock t < 86400000000) by (intros t (? & ? & ? & ?); unfold clock; lia).
    pose proof (A _ Ha). pose proof (A _ Hb).
    destruct (Z.compare_spec (date_days (dt_date a)) (date_days (dt_date b))) as [E|L|G].
    - rewrite E. destruct (Z.compare_spec (clock (dt_time a)) (clock (dt_time b))); symmetry;
        [apply Z.compare_eq_iff|apply Z.compare_lt_iff|apply Z.compare_gt_iff]; lia.
    - symmetry. apply Z.compare_lt_iff. lia.
    - symmetry. apply Z.compare_gt_iff. lia. }
  pose proof (time_cmp_spec _ _ Ha Hb) as T. unfold time_point, both_utc in T.
  unfold dt_cmp, dt_point, both_utc.
  destruct (ti_off (dt_time a)) as [oa|] eqn:Ea; [destruct (ti_off (dt_time b)) as [ob|] eqn:Eb|].
  - destruct Ha as (_ & _ & _ & Ha), Hb as (_ & _ & _ & Hb). rewrite then_micro_spec by assumption.
    unfold wall, dt_seconds, shift. rewrite !clock_seconds. f_equal; lia.
  - rewrite T, !Z.sub_0_r. exact W.
  - rewrite T, !Z.sub_0_r. exact W.
Qed.

(** ** Constraints *)

Definition first_broken (l : list terr) : tres unit := match l with [] => TOk tt | e :: _ => TErr e end.

Lemma first_app : forall a b, first_broken (a ++ b) = tbind (first_broken a) (fun _ => first_broken b).
Proof. intros [|e a] b; reflexivity. Qed.

Lemma cmp_le_spec : forall x y, cmp_le (x ?= y) = (x <=? y).
Proof. intros. unfold cmp_le, Z.leb. destruct (x ?= y); reflexivity. Qed.
Lemma cmp_lt_spec : forall x y, cmp_lt (x ?= y) = (x <? y).
Proof. intros. unfold cmp_lt, Z.ltb. destruct (x ?= y); reflexivity. Qed.
Lemma cmp_ge_spec : forall x y, cmp_ge (x ?= y) = (y <=? x).
Proof. intros. unfold cmp_ge. rewrite Z.compare_antisym. unfold Z.leb. destruct (y ?= x); reflexivity. Qed.
Lemma cmp_gt_spec : forall x y, cmp_gt (x ?= y) = (y <? x).
Proof. intros. unfold cmp_gt. rewrite Z.compare_antisym. unfold Z.ltb. destruct (y ?= x); reflexivity. Qed.

Lemma check_one_spec : forall (A : Type) (b : option A) f g e, (forall c, b = Some c -> f c = g c) ->
  check_one b f e = first_broken (broken_bound b g e).
Proof.
  intros A [c|] f g e H; [|reflexivity]. unfold check_one, broken_bound, broken. rewrite (H c eq_refl).
  destruct (g c); reflexivity.
Qed.

Lemma check_bounds_spec : forall (A : Type) cmp (b : bounds A) v x y (P : A -> Prop),
  on_bounds P b -> (forall c, P c -> cmp v c = (x c ?= y c)) ->
  check_bounds cmp b v = first_broken (broken_bounds b x y).
Proof.
  intros A cmp b v x y P (H1 & H2 & H3 & H4) H. unfold check_bounds, broken_bounds. rewrite !first_app.
  rewrite (check_one_spec _ _ _ (fun c => x c <=? y c)) by (intros c E; rewrite H by auto; apply cmp_le_spec).
  rewrite (check_one_spec _ _ _ (fun c => x c <? y c)) by (intros c E; rewrite H by auto; apply cmp_lt_spec).
  rewrite (check_one_spec _ _ _ (fun c => y c <=? x c)) by (intros c E; rewrite H by auto; apply cmp_ge_spec).
  rewrite (check_one_spec _ _ _ (fun c => y c <? x c)) by (intros c E; rewrite H by auto; apply cmp_gt_spec).
  reflexivity.
Qed.

Lemma no_bounds_nil : forall (A : Type) (b : bounds A) x y, no_bounds b = true -> broken_bounds b x y = [].
Proof.
  intros A [[?|] [?|] [?|] [?|]] x y H; try discriminate. reflexivity.
Qed.

Lemma now_compare_spec : forall op x n, now_compare op (x ?= n) = in_past_or_future op x n.
Proof.
  intros [|] x n; unfold now_compare, in_past_or_future.
  - unfold Z.ltb. destruct (x ?= n); reflexivity.
  - unfold Z.ltb. rewrite Z.compare_antisym. destruct (n ?= x); reflexivity.
Qed.

Lemma tz_ok_spec : forall c o, tz_ok c o = first_broken (broken_tz c o).
Proof.
  intros [[|[e|]]|] [o|]; try reflexivity. unfold tz_ok, tz_check, broken_tz, broken. destruct (e =? o); reflexivity.
Qed.

Section Clock.
Variable local t : Z.
Variable today : Z -> date.
Variable now : Z -> datetime.
Hypothesis Hclock : clock_reads t today now.

Lemma date_checks_spec : forall c d, valid_date d -> on_bounds valid_date (dc_bounds c) -> on_now local (dc_now c) ->
  date_checks local today c d = first_broken (broken_date local t c d).
Proof.
  intros c d V B N. unfold date_checks, broken_date. rewrite first_app.
  rewrite (check_bounds_spec _ _ _ _ (fun _ => date_days d) date_days valid_date B)
    by (intros; apply date_cmp_days; assumption).
  destruct (first_broken (broken_bounds (dc_bounds c) (fun _ => date_days d) date_days)); try reflexivity.
  unfold tbind. destruct (dc_now c) as [n|]; [|reflexivity]. cbn [on_now] in N. fold (utc_offset local n) in *.
  destruct (Hclock _ N) as (V1 & E1 & _). rewrite date_cmp_days by assumption. rewrite E1, now_compare_spec.
  cbv zeta. unfold broken. destruct (in_past_or_future _ _ _); reflexivity.
Qed.

Lemma dt_checks_spec : forall c d, valid_date (dt_date d) -> micro_ok (dt_time d) ->
  on_bounds valid_dt (tc_bounds c) -> on_now local (tc_now c) ->
  dt_checks local now c d = first_broken (broken_dt local t c d).
Proof.
  intros c d V M B N. unfold dt_checks, broken_dt. rewrite !first_app.
  rewrite (check_bounds_spec _ _ _ _
    (fun b => dt_point (both_utc (ti_off (dt_time d)) (ti_off (dt_time b))) d)
    (fun b => dt_point (both_utc (ti_off (dt_time d)) (ti_off (dt_time b))) b) valid_dt B)
    by (intros b [Vb Vt]; apply dt_cmp_spec; auto using valid_micro).
  destruct (first_broken (broken_bounds _ _ _)); try reflexivity.
  unfold tbind at 1 3. rewrite tz_ok_spec. f_equal. destruct (tc_now c) as [n|]; [|reflexivity]. cbn [on_now] in N.
  fold (utc_offset local n) in *.
  destruct (Hclock _ N) as (_ & _ & V2 & V1 & E1 & E2). rewrite dt_cmp_spec by auto using valid_micro.
  rewrite now_compare_spec. unfold both_utc, dt_point. rewrite E1, E2. cbv zeta. unfold broken, shift.
  destruct (ti_off (dt_time d)) as [o|].
  - replace (t + utc_offset local n * 1000000 - utc_offset local n * 1000000) with t by lia.
    destruct (in_past_or_future _ _ _); reflexivity.
  - rewrite !Z.sub_0_r. destruct (in_past_or_future _ _ _); reflexivity.
Qed.
End Clock.

Lemma time_checks_spec : forall c t, micro_ok t -> on_bounds valid_time (mc_bounds c) ->
  time_checks c t = first_broken (broken_time c t).
Proof.
  intros c t M B. unfold time_checks, broken_time. rewrite first_app.
  rewrite (check_bounds_spec _ _ _ _
    (fun b => time_point (both_utc (ti_off t) (ti_off b)) t)
    (fun b => time_point (both_utc (ti_off t) (ti_off b)) b) valid_time B)
    by (intros b Vb; apply time_cmp_spec; auto using valid_micro).
  destruct (first_broken (broken_bounds _ _ _)); try reflexivity.
  unfold tbind. apply tz_ok_spec.
Qed.

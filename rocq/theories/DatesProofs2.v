(** Proofs that date, datetime and time schemas do what their inputs are taken
    for. *)
From Coq Require Import List NArith ZArith Bool Lia.
From Verif Require Import Base Values VState TzInfo Dates DatesSpec DatesProofs.
Import ListNotations.
Open Scope Z_scope.

Section Reading.
Variable parse_date : str -> date + str.
Variable parse_time : bool -> str -> time + str.
Variable parse_dt : bool -> str -> datetime + str.
Variable int_time : Z -> time + str.
Variable int_dt : Z -> datetime + str.
Variable float_time : N -> time + str.
Variable float_dt : N -> datetime + str.
Variable too_large : str.

Notation validate_date := (validate_date parse_date).
Notation validate_datetime := (validate_datetime parse_dt int_dt float_dt).
Notation validate_time := (validate_time parse_time int_time float_time too_large).
Notation date_written := (date_written parse_date).
Notation dt_written := (dt_written parse_dt int_dt float_dt).
Notation time_reading := (time_reading parse_time int_time float_time).

Definition date_object (i : tinput) (d : date) : eitherdate :=
  match i with PyDate _ _ => PyObjDate d | _ => RawDate d end.

Lemma strict_python : forall strict, strict && true = false -> strict = false.
Proof. intros [|] H; [discriminate|reflexivity]. Qed.

Lemma date_written_run : forall strict i d, date_written strict i d ->
  validate_date strict i = TOk (date_object i d, own_exactness i).
Proof.
  intros strict i d H. destruct H as [ex d|i s d Ht Hs Hp]; [reflexivity|].
  destruct i; cbn [text_of] in Ht; try discriminate; injection Ht as ->; cbn [python] in Hs;
    try apply strict_python in Hs; subst; cbn [Dates.validate_date]; unfold read_date; rewrite Hp; reflexivity.
Qed.
Lemma date_run_written : forall strict i e x, validate_date strict i = TOk (e, x) ->
  date_written strict i (date_raw e) /\ x = own_exactness i /\ e = date_object i (date_raw e).
Proof.
  intros strict i e x H.
  assert (R : forall s z, text_of i = Some s -> strict && python i = false -> z = own_exactness i ->
    date_object i = RawDate -> read_date (parse_date s) z = TOk (e, x) ->
    date_written strict i (date_raw e) /\ x = own_exactness i /\ e = date_object i (date_raw e)).
  { intros s z Ht Hs Hz Ho. unfold read_date. destruct (parse_date s) as [d|m] eqn:E; [|discriminate].
    injection 1 as <- <-. cbn [date_raw]. split; [|split; [assumption|rewrite Ho; reflexivity]].
    eapply da_text; eassumption. }
  destruct i as [ex d|ex d|ex t|s| |b|b|z|n| |s|z|z|n| |s|s| | ]; cbn [Dates.validate_date] in H; try discriminate.
  - injection H as <- <-. split; [apply da_object|split; reflexivity].
  - destruct strict; [discriminate|]. eapply R; [reflexivity..|exact H].
  - destruct strict; discriminate.
  - destruct strict; [discriminate|]. eapply R; [reflexivity..|exact H].
  - eapply R; try exact H; try reflexivity. apply andb_false_r.
  - eapply R; try exact H; try reflexivity. apply andb_false_r.
  - eapply R; try exact H; try reflexivity. apply andb_false_r.
Qed.
Lemma validate_date_no_raise : forall strict i e, validate_date strict i <> TRaise e.
Proof.
  intros strict i e. destruct i; cbn [Dates.validate_date]; try discriminate; try (destruct strict);
    try discriminate; unfold read_date; destruct (parse_date _); discriminate.
Qed.

(** Datetimes. *)
Definition dt_object (i : tinput) (d : datetime) (o : eitherdt) : Prop :=
  match i with
  | PyDatetime _ p => o = PyObjDt p
  | _ => o = RawDt d
  end /\ dt_raw o = TOk d.

Lemma shows_run : forall p t, shows_time p t -> pytime_as_time p = TOk t.
Proof. intros p t H. destruct H; reflexivity. Qed.
Lemma run_shows : forall p t, pytime_as_time p = TOk t -> shows_time p t.
Proof.
  intros [h m s u tz] t H. unfold pytime_as_time in H. cbn in H. destruct tz; try discriminate; injection H as <-; constructor.
Qed.

Lemma dt_written_run : forall strict trunc i d, dt_written strict trunc i d ->
  exists o, validate_datetime strict trunc i = TOk (o, own_exactness i) /\ dt_object i d o.
Proof.
  intros strict trunc i d H. destruct H as [ex p d t Hs|i s d Ht Hs Hp|i z d Hi Hs Hp|i n d Hi Hs Hp].
  - exists (PyObjDt (mk_pydt d p)). split; [reflexivity|]. split; [reflexivity|].
    cbn [dt_raw]. unfold pydatetime_as_datetime. cbn [pd_time pd_date]. rewrite (shows_run _ _ Hs). reflexivity.
  - exists (RawDt d).
    destruct i; cbn [text_of] in Ht; try discriminate; injection Ht as ->; cbn [python] in Hs;
      try apply strict_python in Hs; subst; cbn [Dates.validate_datetime]; unfold read_dt; rewrite Hp;
      repeat split; reflexivity.
  - exists (RawDt d). subst strict. destruct Hi as [-> | ->]; cbn [Dates.validate_datetime]; unfold read_dt; rewrite Hp;
      repeat split; reflexivity.
  - exists (RawDt d). subst strict. destruct Hi as [-> | ->]; cbn [Dates.validate_datetime]; unfold read_dt; rewrite Hp;
      repeat split; reflexivity.
Qed.

(** A datetime whose offset cannot be had. *)
Definition no_offset (p : pytime) (e : pyexc) : Prop := pt_tz p = TzRaises e.

Lemma dt_run_written : forall strict trunc i o x, validate_datetime strict trunc i = TOk (o, x) ->
  (exists d, dt_written strict trunc i d /\ x = own_exactness i /\ dt_object i d o)
  \/ (exists ex d, i = PyDate ex d /\ strict = false /\ x = Lax /\ o = PyNewDt (mk_pydt d (mk_pytime 0 0 0 0 TzMissing)))
  \/ (exists ex p e, i = PyDatetime ex p /\ no_offset (pd_time p) e /\ o = PyObjDt p /\ x = own_exactness i).
Proof.
  intros strict trunc i o x H.
  assert (R : forall s z, text_of i = Some s -> strict && python i = false -> z = own_exactness i ->
    (forall d o, dt_object i d o <-> o = RawDt d /\ dt_raw o = TOk d) -> read_dt (parse_dt trunc s) z = TOk (o, x) ->
    exists d, dt_written strict trunc i d /\ x = own_exactness i /\ dt_object i d o).
  { intros s z Ht Hs Hz Ho. unfold read_dt. destruct (parse_dt trunc s) as [d|m] eqn:E; [|discriminate].
    injection 1 as <- <-. exists d. split; [eapply dw_text; eassumption|]. split; [assumption|].
    apply Ho. split; reflexivity. }
  destruct i as [ex d|ex d|ex t|s| |b|b|z|n| |s|z|z|n| |s|s| | ]; cbn [Dates.validate_datetime] in H; try discriminate.
  - destruct strict; [discriminate|]. injection H as <- <-. right; left. exists ex, d. auto.
  - injection H as <- <-. destruct (pytime_as_time (pd_time d)) as [t|e|e] eqn:E.
    + left. destruct d as [dd p]. exists (mk_dt dd t). split; [apply dw_object, run_shows, E|]. split; [reflexivity|].
      split; [reflexivity|]. cbn [dt_raw]. unfold pydatetime_as_datetime. cbn [pd_time pd_date] in *. rewrite E. reflexivity.
    + exfalso. unfold pytime_as_time in E. destruct (pt_tz (pd_time d)); discriminate.
    + right; right. exists ex, d, e. split; [reflexivity|]. split; [|split; reflexivity].
      unfold pytime_as_time in E. unfold no_offset. destruct (pt_tz (pd_time d)); try discriminate. injection E as ->. reflexivity.
  - destruct strict; [discriminate|]. left. eapply R; [reflexivity..|exact H].
  - destruct strict; discriminate.
  - destruct strict; [discriminate|]. left. eapply R; [reflexivity..|exact H].
  - destruct strict; [discriminate|]. left. unfold read_dt in H. destruct (int_dt z) as [d|m] eqn:E; [|discriminate].
    injection H as <- <-. exists d. split; [eapply dw_int; [left; reflexivity|reflexivity|exact E]|]. repeat split; reflexivity.
  - destruct strict; [discriminate|]. left. unfold read_dt in H. destruct (float_dt n) as [d|m] eqn:E; [|discriminate].
    injection H as <- <-. exists d. split; [eapply dw_float; [left; reflexivity|reflexivity|exact E]|]. repeat split; reflexivity.
  - left. eapply R; try exact H; try reflexivity. apply andb_false_r.
  - destruct strict; [discriminate|]. left. unfold read_dt in H. destruct (int_dt z) as [d|m] eqn:E; [|discriminate].
    injection H as <- <-. exists d. split; [eapply dw_int; [right; reflexivity|reflexivity|exact E]|]. repeat split; reflexivity.
  - destruct strict; [discriminate|]. left. unfold read_dt in H. destruct (float_dt n) as [d|m] eqn:E; [|discriminate].
    injection H as <- <-. exists d. split; [eapply dw_float; [right; reflexivity|reflexivity|exact E]|]. repeat split; reflexivity.
  - left. eapply R; try exact H; try reflexivity. apply andb_false_r.
  - left. eapply R; try exact H; try reflexivity. apply andb_false_r.
Qed.
Lemma validate_datetime_no_raise : forall strict trunc i e, validate_datetime strict trunc i <> TRaise e.
Proof.
  intros strict trunc i e. destruct i; cbn [Dates.validate_datetime]; try discriminate; try (destruct strict);
    try discriminate; unfold read_dt;
    match goal with |- context [match ?r with inl _ => _ | inr _ => _ end] => destruct r end; discriminate.
Qed.

Lemma dt_written_date : forall strict trunc ex d d', ~ dt_written strict trunc (PyDate ex d) d'.
Proof. intros strict trunc ex d d' H. inversion H; subst; try discriminate; destruct H0; discriminate. Qed.

Lemma date_written_dt : forall strict ex p d, ~ date_written strict (PyDatetime ex p) d.
Proof. intros strict ex p d H. inversion H; subst. discriminate. Qed.

(** Midnight. *)
Lemma same_midnight : forall t, micro_ok t ->
  same_time t (mk_time 0 0 0 0 (ti_off t)) = (clock t =? 0).
Proof.
  intros [h m s u o] (H1 & H2 & H3 & H4). unfold same_time, clock. cbn [ti_hour ti_minute ti_second ti_micro ti_off] in *.
  replace (match o, o with | Some x, Some y => x =? y | None, None => true | _, _ => false end) with true
    by (destruct o; [symmetry; apply Z.eqb_refl|reflexivity]).
  rewrite andb_true_r.
  destruct (Z.eqb_spec h 0), (Z.eqb_spec m 0), (Z.eqb_spec s 0), (Z.eqb_spec u 0); cbn [andb]; symmetry;
    (apply Z.eqb_eq || apply Z.eqb_neq); lia.
Qed.

Lemma shows_micro : forall p t, valid_pytime p -> shows_time p t -> micro_ok t.
Proof.
  intros p t (H1 & H2 & H3 & H4 & _) H. destruct H; cbn in *; unfold micro_ok; cbn; auto.
Qed.

Hypothesis Hread : readers_ok parse_date parse_time parse_dt int_time int_dt float_time float_dt.

Lemma date_written_valid : forall strict i d, valid_input i -> date_written strict i d -> valid_date d.
Proof.
  intros strict i d V H. destruct H as [ex d|i s d Ht Hs Hp]; [apply V|]. exact (ok_date _ _ _ _ _ _ _ Hread _ _ Hp).
Qed.
Lemma dt_written_valid : forall strict trunc i d, valid_input i -> dt_written strict trunc i d ->
  valid_date (dt_date d) /\ micro_ok (dt_time d) /\ (match i with PyDatetime _ _ => 1 <= da_year (dt_date d) | _ => valid_dt d end).
Proof.
  intros strict trunc i d V H. destruct H as [ex p d t Hs|i s d Ht Hs Hp|i z d Hi Hs Hp|i n d Hi Hs Hp].
  - destruct V as (V1 & V2 & V3). cbn [pd_date pd_time dt_date dt_time] in *. eauto using shows_micro.
  - pose proof (ok_dt _ _ _ _ _ _ _ Hread _ _ _ Hp) as [V1 V2].
    destruct i; try discriminate; (split; [assumption|split; [apply valid_micro; assumption|split; assumption]]).
  - pose proof (ok_int_dt _ _ _ _ _ _ _ Hread _ _ Hp) as [V1 V2].
    destruct Hi as [-> | ->]; (split; [assumption|split; [apply valid_micro; assumption|split; assumption]]).
  - pose proof (ok_float_dt _ _ _ _ _ _ _ Hread _ _ Hp) as [V1 V2].
    destruct Hi as [-> | ->]; (split; [assumption|split; [apply valid_micro; assumption|split; assumption]]).
Qed.

(** Into Python. *)
Lemma py_date_valid : forall d, valid_date d -> da_year d <> 0 -> py_date_ok d = true.
Proof.
  intros [y m d] (Hy & Hm & Hd) H. unfold py_date_ok, month_days. cbn [da_year da_month da_day] in *.
  rewrite month_step by assumption.
  replace (month_start (is_leap y) m + month_length (is_leap y) m - month_start (is_leap y) m)
    with (month_length (is_leap y) m) by lia.
  rewrite !andb_true_iff, !Z.leb_le. lia.
Qed.
Lemma py_time_valid : forall t, valid_time t -> py_time_ok t = true /\ tzinfo_ok t = true.
Proof.
  intros t (H1 & H2 & H3 & H4 & H5). split.
  - unfold py_time_ok. rewrite !andb_true_iff, !Z.leb_le. lia.
  - unfold tzinfo_ok, tz_new. destruct (ti_off t) as [o|]; [|reflexivity].
    destruct (Z.leb_spec 86400 (Z.abs o)); [lia|reflexivity].
Qed.

Lemma date_object_raw : forall i d, date_raw (date_object i d) = d.
Proof. intros i d. destruct i; reflexivity. Qed.

Variable local t : Z.
Variable today : Z -> date.
Variable now : Z -> datetime.
Hypothesis Hclock : clock_reads t today now.

Notation date_validate := (date_validate parse_date parse_dt int_dt float_dt local today).
Notation datetime_validate := (datetime_validate parse_date parse_dt int_dt float_dt local now).
Notation time_validate := (time_validate parse_time int_time float_time too_large).
Notation date_reading := (date_reading parse_date parse_dt int_dt float_dt).
Notation dt_reading := (dt_reading parse_date parse_dt int_dt float_dt).

(** What follows the reading. *)
Lemma date_rest : forall c i d (x : exactness), valid_date d -> (match i with PyDate _ _ => 1 <= da_year d | _ => True end) ->
  on_bounds valid_date (dc_bounds c) -> on_now local (dc_now c) ->
  tbind (if no_bounds (dc_bounds c) && is_none (dc_now c) then TOk tt else date_checks local today c (date_raw (date_object i d)))
    (fun _ => tbind (date_into_py (date_object i d)) (fun o => TOk (o, x))) =
  match broken_date local t c d with
  | e :: _ => TErr e
  | [] => if da_year d =? 0 then TErr (DateParsing year_zero)
          else TOk (match i with PyDate _ _ => SameObject | _ => NewDate d end, x)
  end.
Proof.
  intros c i d x V Vy B N. rewrite date_object_raw.
  assert (E : (if no_bounds (dc_bounds c) && is_none (dc_now c) then TOk tt else date_checks local today c d)
              = first_broken (broken_date local t c d)).
  { rewrite (date_checks_spec local t today now Hclock) by assumption.
    destruct (no_bounds (dc_bounds c)) eqn:E1; [|reflexivity]. destruct (dc_now c) as [n|] eqn:E2; [reflexivity|].
    cbn [andb is_none]. unfold broken_date. rewrite no_bounds_nil, E2 by assumption. reflexivity. }
  rewrite E. destruct (broken_date local t c d) as [|e l]; [|reflexivity]. cbn [first_broken tbind].
  assert (R : tbind (date_into_py (RawDate d)) (fun o => TOk (o, x)) =
    (if da_year d =? 0 then TErr (DateParsing year_zero) else TOk (NewDate d, x))).
  { cbn [date_into_py]. destruct (Z.eqb_spec (da_year d) 0); [reflexivity|]. rewrite py_date_valid by assumption. reflexivity. }
  destruct i; try exact R. cbn [date_object date_into_py tbind]. destruct (Z.eqb_spec (da_year d) 0); [lia|reflexivity].
Qed.

Lemma date_unwritten : forall strict i, (forall d, ~ date_written strict i d) -> exists e, validate_date strict i = TErr e.
Proof.
  intros strict i H. destruct (validate_date strict i) as [[e x]|e|e] eqn:E; [|eauto|].
  - destruct (date_run_written _ _ _ _ E) as (W & _). destruct (H _ W).
  - destruct (validate_date_no_raise _ _ _ E).
Qed.

Theorem date_run : forall st c i d x, valid_input i ->
  on_bounds valid_date (dc_bounds c) -> on_now local (dc_now c) ->
  date_reading (strict_or st (dc_strict c)) i d x ->
  date_validate st c i =
  match broken_date local t c d with
  | e :: _ => TErr e
  | [] => if da_year d =? 0 then TErr (DateParsing year_zero)
          else TOk (match i with PyDate _ _ => SameObject | _ => NewDate d end, x)
  end.
Proof.
  intros st c i d x V B N H. unfold Dates.date_validate. cbv zeta.
  destruct H as [i d W|i d Hs Hn W Hm].
  - rewrite (date_written_run _ _ _ W). cbn [tbind]. apply date_rest; try assumption.
    + eapply date_written_valid; eassumption.
    + destruct i; try exact I. inversion W; subst; [apply V|discriminate].
  - destruct (date_unwritten _ _ Hn) as [e E]. rewrite E, Hs.
    destruct (dt_written_run _ _ _ _ W) as (o & Eo & Ho & Er).
    destruct (dt_written_valid _ _ _ _ V W) as (V1 & V2 & V3).
    unfold date_from_datetime. rewrite Eo, Er. cbn [tbind]. cbv zeta. rewrite same_midnight, Hm by assumption.
    cbn [Z.eqb tbind].
    assert (Hi : forall d0, date_object i d0 = RawDate d0).
    { destruct i; try reflexivity. exfalso. eapply dt_written_date, W. }
    rewrite <- (Hi (dt_date d)). apply date_rest; try assumption.
    destruct i; try exact I. discriminate (Hi (dt_date d)).
Qed.

Theorem date_only : forall st c i r, valid_input i ->
  date_validate st c i = TOk r -> exists d x, date_reading (strict_or st (dc_strict c)) i d x.
Proof.
  intros st c i r V H. unfold Dates.date_validate in H. cbv zeta in H. set (strict := strict_or st (dc_strict c)) in *.
  destruct (validate_date strict i) as [[e x]|e|e] eqn:E.
  - destruct (date_run_written _ _ _ _ E) as (W & Ex & _). eexists _, _. apply dr_date, W.
  - destruct strict eqn:Es; [discriminate|]. unfold date_from_datetime in H.
    destruct (validate_datetime false true i) as [[o x]|e'|e'] eqn:Eo; cbn [tbind] in H; try discriminate.
    2: destruct e'; discriminate.
    destruct (dt_run_written _ _ _ _ _ Eo) as [(d & W & Ex & Ho & Er)|[(ex & d & -> & _)|(ex & p & e' & -> & Hp & -> & _)]].
    + rewrite Er in H. cbn [tbind] in H. cbv zeta in H.
      destruct (dt_written_valid _ _ _ _ V W) as (V1 & V2 & V3). rewrite same_midnight in H by assumption.
      destruct (Z.eqb_spec (clock (dt_time d)) 0) as [Hm|Hm]; [|discriminate].
      exists (dt_date d), Lax. apply dr_midnight; try assumption; [reflexivity|].
      intros d' W'. rewrite (date_written_run _ _ _ W') in E. discriminate.
    + discriminate.
    + cbn [dt_raw] in H. unfold pydatetime_as_datetime, pytime_as_time in H. rewrite Hp in H. discriminate.
  - discriminate.
Qed.

(** A datetime that does not show midnight. *)
Theorem date_inexact : forall st c i d, valid_input i -> strict_or st (dc_strict c) = false ->
  (forall d', ~ date_written false i d') -> dt_written false true i d -> clock (dt_time d) <> 0 ->
  date_validate st c i = TErr DateFromDatetimeInexact.
Proof.
  intros st c i d V Hs Hn W Hm. unfold Dates.date_validate. cbv zeta. rewrite Hs.
  destruct (date_unwritten _ _ Hn) as [e E]. rewrite E.
  destruct (dt_written_run _ _ _ _ W) as (o & Eo & Ho & Er).
  destruct (dt_written_valid _ _ _ _ V W) as (V1 & V2 & V3).
  unfold date_from_datetime. rewrite Eo, Er. cbn [tbind]. cbv zeta. rewrite same_midnight by assumption.
  destruct (Z.eqb_spec (clock (dt_time d)) 0); [contradiction|]. reflexivity.
Qed.

Theorem date_raises : forall st c i e, valid_input i -> on_bounds valid_date (dc_bounds c) -> on_now local (dc_now c) ->
  (date_validate st c i = TRaise e <->
   strict_or st (dc_strict c) = false /\ exists ex d p, i = PyDatetime ex (mk_pydt d p) /\ pt_tz p = TzRaises e).
Proof.
  intros st c i e V B N. split.
  - intros H. unfold Dates.date_validate in H. cbv zeta in H.
    destruct (Dates.validate_date parse_date (strict_or st (dc_strict c)) i) as [[o x]|e0|e0] eqn:E.
    + exfalso. destruct (date_run_written _ _ _ _ E) as (W & -> & Eo).
      pose proof (date_run st c i _ _ V B N (dr_date _ _ _ _ _ _ _ W)) as R. unfold Dates.date_validate in R. cbv zeta in R.
      rewrite E in R. rewrite R in H. destruct (broken_date _ _ _ _); [|discriminate]. destruct (_ =? 0); discriminate.
    + destruct (strict_or st (dc_strict c)) eqn:Es; [discriminate|]. split; [reflexivity|].
      unfold date_from_datetime in H.
      destruct (Dates.validate_datetime parse_dt int_dt float_dt false true i) as [[o x]|e'|e'] eqn:Eo; cbn [tbind] in H; try discriminate.
      2: destruct e'; discriminate.
      destruct (dt_run_written _ _ _ _ _ Eo) as [(d & W & Ex & Ho & Er)|[(ex & d & -> & _)|(ex & p & e' & -> & Hp & -> & _)]].
      * exfalso. rewrite Er in H. cbn [tbind] in H. cbv zeta in H.
        destruct (dt_written_valid _ _ _ _ V W) as (V1 & V2 & V3). rewrite same_midnight in H by assumption.
        destruct (Z.eqb_spec (clock (dt_time d)) 0) as [Hm|Hm]; [|discriminate]. cbn [tbind] in H.
        assert (Hi : forall d0, date_object i d0 = RawDate d0).
        { destruct i; try reflexivity. exfalso. eapply dt_written_date, W. }
        rewrite <- (Hi (dt_date d)) in H. rewrite date_rest in H; try assumption.
        -- destruct (broken_date _ _ _ _); [|discriminate]. destruct (_ =? 0); discriminate.
        -- destruct i; try exact I. discriminate (Hi (dt_date d)).
      * discriminate.
      * cbn [dt_raw] in H. unfold pydatetime_as_datetime, pytime_as_time in H. rewrite Hp in H. injection H as ->.
        destruct p as [d p]. exists ex, d, p. split; [reflexivity|exact Hp].
    + exfalso. eapply validate_date_no_raise, E.
  - intros (Hs & ex & d & p & -> & Hp). unfold Dates.date_validate. cbv zeta. rewrite Hs. cbn [Dates.validate_date].
    unfold date_from_datetime. cbn [Dates.validate_datetime dt_raw]. unfold pydatetime_as_datetime, pytime_as_time.
    cbn [pd_time]. rewrite Hp. reflexivity.
Qed.

(** ** Datetime schemas *)

Lemma dt_checks_gate : forall c d, valid_date (dt_date d) -> micro_ok (dt_time d) ->
  on_bounds valid_dt (tc_bounds c) -> on_now local (tc_now c) ->
  (if no_bounds (tc_bounds c) && is_none (tc_now c) && is_none (tc_tz c) then TOk tt else dt_checks local now c d)
  = first_broken (broken_dt local t c d).
Proof.
  intros c d V M B N. rewrite (dt_checks_spec local t today now Hclock) by assumption.
  destruct (no_bounds (tc_bounds c)) eqn:E1; [|reflexivity]. destruct (tc_now c) as [n|] eqn:E2; [reflexivity|].
  destruct (tc_tz c) as [z|] eqn:E3; [reflexivity|]. cbn [andb is_none]. unfold broken_dt.
  rewrite no_bounds_nil, E2, E3 by assumption. reflexivity.
Qed.

Definition dt_answer (c : dt_cfg) (i : tinput) (d : datetime) (x : exactness) : tres (tout * exactness) :=
  match broken_dt local t c d with
  | e :: _ => TErr e
  | [] => if da_year (dt_date d) =? 0 then TErr (DatetimeParsing year_zero)
          else TOk (match i with PyDatetime _ _ => SameObject | _ => NewDatetime d end, x)
  end.

Lemma dt_rest_raw : forall c i d x, valid_dt d -> on_bounds valid_dt (tc_bounds c) -> on_now local (tc_now c) ->
  (match i with PyDatetime _ _ => False | _ => True end) ->
  tbind (if no_bounds (tc_bounds c) && is_none (tc_now c) && is_none (tc_tz c) then TOk tt else dt_checks local now c d)
    (fun _ => tbind (dt_into_py (RawDt d)) (fun o => TOk (o, x))) = dt_answer c i d x.
Proof.
  intros c i d x [V1 V2] B N Hi. rewrite dt_checks_gate by auto using valid_micro. unfold dt_answer.
  destruct (broken_dt local t c d) as [|e l]; [|reflexivity]. cbn [first_broken tbind dt_into_py].
  destruct (Z.eqb_spec (da_year (dt_date d)) 0); [reflexivity|].
  destruct (py_time_valid _ V2) as [P1 P2]. rewrite P1, P2, py_date_valid by assumption. cbn [andb tbind].
  destruct i; try reflexivity. destruct Hi.
Qed.

Theorem datetime_run : forall st c i d x, valid_input i ->
  on_bounds valid_dt (tc_bounds c) -> on_now local (tc_now c) ->
  dt_reading (strict_or st (tc_strict c)) (tc_trunc c) i d x ->
  datetime_validate st c i = dt_answer c i d x.
Proof.
  intros st c i d x V B N H. unfold Dates.datetime_validate. cbv zeta.
  destruct H as [i d W|i d Hs Hn W].
  - destruct (dt_written_run _ _ _ _ W) as (o & Eo & Ho & Er). rewrite Eo. cbn [tbind]. rewrite Er.
    destruct (dt_written_valid _ _ _ _ V W) as (V1 & V2 & V3).
    destruct i; try (subst o; apply dt_rest_raw; (assumption || exact I)).
    subst o. rewrite dt_checks_gate by assumption. unfold dt_answer.
    destruct (broken_dt local t c d); [|reflexivity]. cbn [first_broken tbind dt_into_py].
    destruct (Z.eqb_spec (da_year (dt_date d)) 0); [lia|reflexivity].
  - assert (VD : valid_dt (midnight d)).
    { pose proof (date_written_valid _ _ _ V W). split; [assumption|]. unfold valid_time; cbn; lia. }
    destruct (Dates.validate_datetime parse_dt int_dt float_dt (strict_or st (tc_strict c)) (tc_trunc c) i)
      as [[o x]|e|e] eqn:E.
    + destruct (dt_run_written _ _ _ _ _ E) as [(d' & W' & _)|[(ex & d0 & -> & _ & -> & ->)|(ex & p & e & -> & _)]].
      * destruct (Hn _ W').
      * assert (d0 = d) by (inversion W; [reflexivity|discriminate]). subst d0.
        cbn [tbind dt_raw]. unfold pydatetime_as_datetime, pytime_as_time. cbn [pd_time pd_date pt_tz tbind].
        fold (midnight d). cbn [pt_hour pt_minute pt_second pt_micro].
        change (mk_dt d (mk_time 0 0 0 0 None)) with (midnight d).
        destruct VD as [VD1 VD2]. rewrite dt_checks_gate by auto using valid_micro. unfold dt_answer.
        destruct (broken_dt local t c (midnight d)); [|reflexivity]. cbn [first_broken tbind dt_into_py].
        unfold pydatetime_as_datetime, pytime_as_time. cbn [pd_time pd_date pt_tz tbind pt_hour pt_minute pt_second pt_micro].
        change (mk_dt d (mk_time 0 0 0 0 None)) with (midnight d).
        destruct V as [_ V]. cbn [midnight dt_date]. destruct (Z.eqb_spec (da_year d) 0); [lia|reflexivity].
      * exfalso. eapply date_written_dt, W.
    + rewrite Hs in *. unfold datetime_from_date. rewrite (date_written_run _ _ _ W). cbn [tbind].
      rewrite date_object_raw. change (mk_dt d (mk_time 0 0 0 0 None)) with (midnight d).
      cbn [tbind dt_raw]. apply dt_rest_raw; try assumption.
      destruct i; try exact I. exfalso. eapply date_written_dt, W.
    + exfalso. eapply validate_datetime_no_raise, E.
Qed.

(** Without constraints a datetime object is not looked into. *)
Theorem datetime_only : forall st c i r, valid_input i ->
  datetime_validate st c i = TOk r ->
  (exists d x, dt_reading (strict_or st (tc_strict c)) (tc_trunc c) i d x)
  \/ (exists ex d p e, i = PyDatetime ex (mk_pydt d p) /\ pt_tz p = TzRaises e
      /\ no_bounds (tc_bounds c) = true /\ tc_now c = None /\ tc_tz c = None /\ r = (SameObject, own_exactness i)).
Proof.
  intros st c i r V H. unfold Dates.datetime_validate in H. cbv zeta in H. set (strict := strict_or st (tc_strict c)) in *.
  destruct (Dates.validate_datetime parse_dt int_dt float_dt strict (tc_trunc c) i) as [[o x]|e|e] eqn:E.
  - destruct (dt_run_written _ _ _ _ _ E) as [(d & W & _)|[(ex & d & -> & Es & _)|(ex & p & e & -> & Hp & -> & ->)]].
    + left. eexists _, _. apply xr_datetime, W.
    + left. eexists _, _. apply xr_date; [exact Es|intros d' W; eapply dt_written_date, W|apply da_object].
    + right. destruct p as [d p]. exists ex, d, p, e. unfold no_offset in Hp. cbn [pd_time] in Hp.
      cbn [tbind dt_raw dt_into_py] in H. unfold pydatetime_as_datetime, pytime_as_time in H. cbn [pd_time] in H. rewrite Hp in H.
      cbn [tbind] in H.
      destruct (no_bounds (tc_bounds c)); [|discriminate]. destruct (tc_now c); [discriminate|].
      destruct (tc_tz c); [discriminate|]. injection H as <-. auto 10.
  - destruct strict eqn:Es; [discriminate|]. unfold datetime_from_date in H.
    destruct (Dates.validate_date parse_date false i) as [[o x]|e'|e'] eqn:Eo; cbn [tbind] in H; try discriminate.
    2: destruct e'; discriminate.
    left. destruct (date_run_written _ _ _ _ Eo) as (W & _ & _). eexists _, _. apply xr_date; [reflexivity| |exact W].
    intros d' W'. destruct (dt_written_run _ _ _ _ W') as (o' & Eo' & _). rewrite Eo' in E. discriminate.
  - discriminate.
Qed.

(** A datetime schema never lets another exception through. *)
Theorem datetime_no_raise : forall st c i e, valid_input i -> on_bounds valid_dt (tc_bounds c) -> on_now local (tc_now c) ->
  datetime_validate st c i <> TRaise e.
Proof.
  intros st c i e V B N H.
  assert (A : forall d x, dt_reading (strict_or st (tc_strict c)) (tc_trunc c) i d x -> False).
  { intros d x R. rewrite (datetime_run _ _ _ _ _ V B N R) in H. unfold dt_answer in H.
    destruct (broken_dt _ _ _ _); [|discriminate]. destruct (_ =? 0); discriminate. }
  unfold Dates.datetime_validate in H. cbv zeta in H. set (strict := strict_or st (tc_strict c)) in *.
  destruct (Dates.validate_datetime parse_dt int_dt float_dt strict (tc_trunc c) i) as [[o x]|e0|e0] eqn:E.
  - destruct (dt_run_written _ _ _ _ _ E) as [(d & W & _)|[(ex & d & -> & Es & _)|(ex & p & e0 & -> & Hp & -> & ->)]].
    + eapply A, xr_datetime, W.
    + eapply A, xr_date; [exact Es|intros d' W; eapply dt_written_date, W|apply da_object].
    + cbn [tbind dt_raw dt_into_py] in H. unfold pydatetime_as_datetime, pytime_as_time in H. rewrite Hp in H. cbn [tbind] in H.
      destruct (_ && _ && _); discriminate.
  - destruct strict eqn:Es; [discriminate|]. unfold datetime_from_date in H.
    destruct (Dates.validate_date parse_date false i) as [[o x]|e'|e'] eqn:Eo; cbn [tbind] in H; try discriminate.
    2: destruct e'; discriminate.
    destruct (date_run_written _ _ _ _ Eo) as (W & _ & _). eapply A, xr_date; [reflexivity| |exact W].
    intros d' W'. destruct (dt_written_run _ _ _ _ W') as (o' & Eo' & _). rewrite Eo' in E. discriminate.
  - eapply validate_datetime_no_raise, E.
Qed.

(** ** Time schemas *)

Lemma time_run_inv : forall strict trunc i o x, validate_time strict trunc i = TOk (o, x) ->
  x = own_exactness i /\
  ((exists t0, time_reading strict trunc i t0 /\ time_raw o = TOk t0
      /\ (match i with PyTime _ p => o = PyObjTime p | _ => o = RawTime t0 /\ valid_time t0 end))
   \/ (exists ex p e, i = PyTime ex p /\ pt_tz p = TzRaises e /\ o = PyObjTime p)).
Proof.
  intros strict trunc i o x H.
  assert (R : forall s z, text_of i = Some s -> strict && python i = false -> z = own_exactness i ->
    read_time (parse_time trunc s) z = TOk (o, x) ->
    x = own_exactness i /\ exists t0, time_reading strict trunc i t0 /\ o = RawTime t0 /\ valid_time t0).
  { intros s z Ht Hs Hz. unfold read_time. destruct (parse_time trunc s) as [t0|m] eqn:E; [|discriminate].
    injection 1 as <- <-. split; [assumption|]. exists t0. split; [eapply tr_text; eassumption|]. split; [reflexivity|].
    exact (ok_time _ _ _ _ _ _ _ Hread _ _ _ E). }
  assert (R2 : forall z, i = PyInt64 z \/ i = JsInt z -> strict = false -> Lax = own_exactness i ->
    read_time (int_time z) Lax = TOk (o, x) ->
    x = own_exactness i /\ exists t0, time_reading strict trunc i t0 /\ o = RawTime t0 /\ valid_time t0).
  { intros z Hi Hs Hx. unfold read_time. destruct (int_time z) as [t0|m] eqn:E; [|discriminate].
    injection 1 as <- <-. split; [assumption|]. exists t0. split; [eapply tr_int; eassumption|]. split; [reflexivity|].
    exact (ok_int_time _ _ _ _ _ _ _ Hread _ _ E). }
  assert (R3 : forall n, i = PyFloatLike n \/ i = JsFloat n -> strict = false -> Lax = own_exactness i ->
    read_time (float_time n) Lax = TOk (o, x) ->
    x = own_exactness i /\ exists t0, time_reading strict trunc i t0 /\ o = RawTime t0 /\ valid_time t0).
  { intros n Hi Hs Hx. unfold read_time. destruct (float_time n) as [t0|m] eqn:E; [|discriminate].
    injection 1 as <- <-. split; [assumption|]. exists t0. split; [eapply tr_float; eassumption|]. split; [reflexivity|].
    exact (ok_float_time _ _ _ _ _ _ _ Hread _ _ E). }
  assert (F : match i with PyTime _ _ => False | _ => True end ->
    (x = own_exactness i /\ exists t0, time_reading strict trunc i t0 /\ o = RawTime t0 /\ valid_time t0) ->
    x = own_exactness i /\
    ((exists t0, time_reading strict trunc i t0 /\ time_raw o = TOk t0
        /\ (match i with PyTime _ p => o = PyObjTime p | _ => o = RawTime t0 /\ valid_time t0 end))
     \/ (exists ex p e, i = PyTime ex p /\ pt_tz p = TzRaises e /\ o = PyObjTime p))).
  { intros Hi (Hx & t0 & Hr & -> & Hv). split; [assumption|]. left. exists t0. split; [assumption|]. split; [reflexivity|].
    destruct i; try (split; [reflexivity|assumption]). destruct Hi. }
  destruct i as [ex d|ex d|ex p|s| |b|b|z|n| |s|z|z|n| |s|s| | ]; cbn [Dates.validate_time] in H; try discriminate.
  - injection H as <- <-. split; [reflexivity|]. destruct (pytime_as_time p) as [t0|e|e] eqn:E.
    + left. exists t0. split; [apply tr_object, run_shows, E|]. split; [exact E|reflexivity].
    + exfalso. unfold pytime_as_time in E. destruct (pt_tz p); discriminate.
    + right. exists ex, p, e. split; [reflexivity|]. split; [|reflexivity].
      unfold pytime_as_time in E. destruct (pt_tz p); try discriminate. injection E as ->. reflexivity.
  - destruct strict; [discriminate|]. apply F; [exact I|]. eapply R; [reflexivity..|exact H].
  - destruct strict; discriminate.
  - destruct strict; [discriminate|]. apply F; [exact I|]. eapply R; [reflexivity..|exact H].
  - destruct strict; [discriminate|]. apply F; [exact I|]. eapply R2; eauto.
  - destruct strict; [discriminate|]. apply F; [exact I|]. eapply R3; eauto.
  - apply F; [exact I|]. eapply R; try exact H; try reflexivity. apply andb_false_r.
  - destruct strict; [discriminate|]. apply F; [exact I|]. eapply R2; eauto.
  - destruct strict; discriminate.
  - destruct strict; [discriminate|]. apply F; [exact I|]. eapply R3; eauto.
  - apply F; [exact I|]. eapply R; try exact H; try reflexivity. apply andb_false_r.
  - apply F; [exact I|]. eapply R; try exact H; try reflexivity. apply andb_false_r.
Qed.

Lemma time_run_exists : forall strict trunc i t0, time_reading strict trunc i t0 ->
  exists o x, validate_time strict trunc i = TOk (o, x).
Proof.
  intros strict trunc i t0 H. destruct H as [ex p t0 Hs|i s t0 Ht Hs Hp|i z t0 Hi Hs Hp|i n t0 Hi Hs Hp].
  - eexists _, _. reflexivity.
  - destruct i; cbn [text_of] in Ht; try discriminate; injection Ht as ->; cbn [python] in Hs;
      try apply strict_python in Hs; subst; cbn [Dates.validate_time]; unfold read_time; rewrite Hp; eauto.
  - subst strict. destruct Hi as [-> | ->]; cbn [Dates.validate_time]; unfold read_time; rewrite Hp; eauto.
  - subst strict. destruct Hi as [-> | ->]; cbn [Dates.validate_time]; unfold read_time; rewrite Hp; eauto.
Qed.

Lemma shows_fun : forall p a b, shows_time p a -> shows_time p b -> a = b.
Proof. intros p a b H1 H2. apply shows_run in H1, H2. congruence. Qed.
Lemma time_reading_fun : forall strict trunc i a b, time_reading strict trunc i a -> time_reading strict trunc i b -> a = b.
Proof.
  intros strict trunc i a b H1 H2.
  destruct H1 as [ex p t0 Hs|i s t0 Ht Hs Hp|i z t0 Hi Hs Hp|i n t0 Hi Hs Hp]; inversion H2; subst;
    try discriminate; try (destruct Hi; discriminate); try (destruct Hi; subst; discriminate);
    try (match goal with K : _ \/ _ |- _ => destruct K; subst; discriminate end); try congruence.
  - eapply shows_fun; eassumption.
  - destruct Hi, H; subst; try discriminate; congruence.
  - destruct Hi, H; subst; try discriminate; exfalso; congruence.
  - destruct Hi, H; subst; try discriminate; exfalso; congruence.
  - destruct Hi, H; subst; try discriminate; congruence.
Qed.

Theorem time_run : forall st c i t0, valid_input i -> on_bounds valid_time (mc_bounds c) ->
  time_reading (strict_or st (mc_strict c)) (mc_trunc c) i t0 ->
  time_validate st c i =
  match broken_time c t0 with
  | e :: _ => TErr e
  | [] => TOk (match i with PyTime _ _ => SameObject | _ => NewTime t0 end, own_exactness i)
  end.
Proof.
  intros st c i t0 V B H. destruct (time_run_exists _ _ _ _ H) as (o & x & E). unfold Dates.time_validate. rewrite E.
  destruct (time_run_inv _ _ _ _ _ E) as (-> & [(t1 & H1 & Er & Ho)|(ex & p & e & -> & Hp & ->)]).
  - pose proof (time_reading_fun _ _ _ _ _ H H1). subst t1. cbn [tbind]. rewrite Er. cbn [tbind].
    assert (M : micro_ok t0).
    { destruct i; try (apply valid_micro, Ho). inversion H; subst; try discriminate; try (destruct H0; discriminate).
      eapply shows_micro; eassumption. }
    rewrite time_checks_spec by assumption.
    replace (if no_bounds (mc_bounds c) && is_none (mc_tz c) then TOk tt else first_broken (broken_time c t0))
      with (first_broken (broken_time c t0)).
    2:{ destruct (no_bounds (mc_bounds c)) eqn:E1; [|reflexivity]. destruct (mc_tz c) as [z|] eqn:E3; [reflexivity|].
        cbn [andb is_none]. unfold broken_time. rewrite no_bounds_nil, E3 by assumption. reflexivity. }
    destruct (broken_time c t0); [|reflexivity]. cbn [first_broken tbind].
    destruct i; try (destruct Ho as [-> Hv]; cbn [time_into_py]; destruct (py_time_valid _ Hv) as [-> ->]; reflexivity).
    subst o. reflexivity.
  - exfalso. inversion H; subst; try discriminate; try (destruct H0; discriminate).
    match goal with K : shows_time _ _ |- _ => destruct K; discriminate end.
Qed.

Theorem time_only : forall st c i r, valid_input i -> time_validate st c i = TOk r ->
  (exists t0, time_reading (strict_or st (mc_strict c)) (mc_trunc c) i t0)
  \/ (exists ex p e, i = PyTime ex p /\ pt_tz p = TzRaises e
      /\ no_bounds (mc_bounds c) = true /\ mc_tz c = None /\ r = (SameObject, own_exactness i)).
Proof.
  intros st c i r V H. unfold Dates.time_validate in H.
  destruct (Dates.validate_time parse_time int_time float_time too_large (strict_or st (mc_strict c)) (mc_trunc c) i)
    as [[o x]|e|e] eqn:E; try discriminate.
  destruct (time_run_inv _ _ _ _ _ E) as (-> & [(t1 & H1 & _)|(ex & p & e & -> & Hp & ->)]); [eauto|].
  right. exists ex, p, e. cbn [tbind time_raw time_into_py] in H. unfold pytime_as_time in H. rewrite Hp in H. cbn [tbind] in H.
  destruct (no_bounds (mc_bounds c)); [|discriminate]. destruct (mc_tz c); [discriminate|]. injection H as <-. auto 10.
Qed.

Theorem time_raises : forall st c i e, valid_input i -> on_bounds valid_time (mc_bounds c) ->
  (time_validate st c i = TRaise e <->
   (no_bounds (mc_bounds c) = false \/ mc_tz c <> None) /\ exists ex p, i = PyTime ex p /\ pt_tz p = TzRaises e).
Proof.
  intros st c i e V B. split.
  - intros H.
    assert (A : forall t0, time_reading (strict_or st (mc_strict c)) (mc_trunc c) i t0 -> False).
    { intros t0 R. rewrite (time_run _ _ _ _ V B R) in H. destruct (broken_time _ _); discriminate. }
    unfold Dates.time_validate in H.
    destruct (Dates.validate_time parse_time int_time float_time too_large (strict_or st (mc_strict c)) (mc_trunc c) i)
      as [[o x]|e0|e0] eqn:E; try discriminate.
    + destruct (time_run_inv _ _ _ _ _ E) as (-> & [(t1 & H1 & _)|(ex & p & e0 & -> & Hp & ->)]); [destruct (A _ H1)|].
      cbn [tbind time_raw time_into_py] in H. unfold pytime_as_time in H. rewrite Hp in H. cbn [tbind] in H.
      destruct (no_bounds (mc_bounds c)) eqn:E1; destruct (mc_tz c) eqn:E2; cbn [andb is_none] in H; try discriminate H;
        injection H as ->; (split; [first [left; reflexivity|right; discriminate]|eauto]).
    + exfalso. clear A H. destruct i; cbn [Dates.validate_time] in E; try discriminate; try (destruct (strict_or _ _));
        try discriminate; unfold read_time in E;
        match goal with K : context [match ?r with inl _ => _ | inr _ => _ end] |- _ => destruct r end; discriminate.
  - intros (Hc & ex & p & -> & Hp). unfold Dates.time_validate. cbn [Dates.validate_time tbind time_raw]. unfold pytime_as_time.
    rewrite Hp. cbn [tbind].
    destruct (no_bounds (mc_bounds c)) eqn:E1; [|reflexivity]. destruct (mc_tz c) eqn:E2; [reflexivity|].
    destruct Hc as [Hc|Hc]; [discriminate|congruence].
Qed.
End Reading.

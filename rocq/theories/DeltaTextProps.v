(** C80: what a timedelta schema writes in JSON means the timedelta, and is read back. *)
From Coq Require Import List NArith ZArith QArith Qabs Qround Bool Lia Lqa.
From Verif Require Import Base Values VState Decimal TimeDelta TimeDeltaSpec TimeDeltaProofs Dates Deltas DateText DeltaText DeltaTextSpec DeltaTextProofs Round64.
Import ListNotations.
Open Scope Z_scope.
Ltac Zify.zify_post_hook ::= Z.to_euclidean_division_equations.

Section C80.
Variable rnd : Q -> Q.
Variable float_text : Q -> str.
Notation delta_ser := (delta_ser rnd).

(** C80: the ISO 8601 text of a timedelta means exactly its microseconds; the same text is
    the key of a dict. *)
Theorem C80_iso_meaning : forall t, valid_delta t -> exists s,
  delta_ser Iso8601 true (SDelta t) = DWText s /\ delta_json_key rnd float_text Iso8601 (SDelta t) = DWText s
  /\ iso_micros s = Some (delta_micros t).
Proof.
  intros t V. destruct (exact_plain t V) as (d & E & P & M). exists (dur_text d). unfold DeltaText.delta_ser, delta_json_key, delta_key, delta_to_json, value_duration.
  rewrite E. split; [reflexivity|]. split; [reflexivity|]. rewrite (dur_text_means d P), M. reflexivity.
Qed.
(** C80: so different timedeltas have different texts. *)
Theorem C80_injective : forall a b s, valid_delta a -> valid_delta b ->
  delta_ser Iso8601 true (SDelta a) = DWText s -> delta_ser Iso8601 true (SDelta b) = DWText s -> a = b.
Proof.
  intros a b s Va Vb A B. destruct (C80_iso_meaning a Va) as (s1 & E1 & _ & M1). destruct (C80_iso_meaning b Vb) as (s2 & E2 & _ & M2).
  rewrite A in E1. rewrite B in E2. injection E1 as <-. injection E2 as <-. rewrite M1 in M2. injection M2 as M. apply (valid_delta_inj a b Va Vb M).
Qed.

Section Reading.
Variable parse : bool -> str -> duration + str.
Variable of_float : N -> option duration.
Variable bad_int bad_float : str.
Notation timedelta_validate := (timedelta_validate parse of_float bad_int bad_float).

(** C80: a timedelta that a schema accepts is written as a text that the schema accepts
    again in JSON, in strict mode too, and as an equal timedelta. *)
Theorem C80_iso_round_trip : forall st c t x, reads_dur parse -> valid_delta t ->
  timedelta_validate st c (DObj t) = DOk (t, x) ->
  exists s, delta_ser Iso8601 true (SDelta t) = DWText s
    /\ forall st', timedelta_validate st' c (DJsText s) = DOk (t, Strict).
Proof.
  intros st c t x R V H. destruct (exact_plain t V) as (d & E & P & M). exists (dur_text d). split.
  - unfold DeltaText.delta_ser, delta_to_json, value_duration. rewrite E. reflexivity.
  - intros st'. unfold Deltas.timedelta_validate in *. cbn [validate_timedelta dbind delta_into_py] in *. rewrite (R _ d P). cbn [read_text dbind delta_into_py].
    rewrite (duration_back d t V M). cbn [dbind to_duration] in *. rewrite E in H. cbn [dbind] in H.
    destruct (if no_bounds (xc_bounds c) then _ else _); try discriminate H. reflexivity.
Qed.
(** C80: in float mode the same in lax mode, for timedeltas of at most 4.5e15
    microseconds (142 years). *)
Theorem C80_float_round_trip : forall st c t x, ieee_rounding rnd -> rounds_to_doubles rnd -> valid_delta t ->
  Z.abs (delta_micros t) <= 4500000000000000 ->
  timedelta_validate st c (DObj t) = DOk (t, x) ->
  exists q, delta_ser FloatSeconds true (SDelta t) = DWFloat q
    /\ forall st' n, of_float n = float_as_duration rnd q -> strict_or st' (xc_strict c) = false ->
         timedelta_validate st' c (DJsFloat n) = DOk (t, Lax).
Proof.
  intros st c t x I D V B H. destruct (exact_plain t V) as (d & E & P & M). destruct (seconds_back rnd t I D V B) as (d' & E' & P' & M').
  assert (d' = d) by (apply plain_inj; congruence). subst d'. exists (total_seconds rnd t). split; [reflexivity|].
  intros st' n F T. unfold Deltas.timedelta_validate in *. rewrite T. cbn [validate_timedelta dbind delta_into_py] in *. rewrite F, E'. cbn [read_num dbind delta_into_py].
  rewrite (duration_back d t V M). cbn [dbind to_duration] in *. rewrite E in H. cbn [dbind] in H.
  destruct (if no_bounds (xc_bounds c) then _ else _); try discriminate H. reflexivity.
Qed.
(** C80, finding: what float mode writes is refused in strict mode. *)
Theorem C80_float_strict_refuted : forall c t n, exists q, delta_ser FloatSeconds true (SDelta t) = DWFloat q
  /\ (of_float n = float_as_duration rnd q -> timedelta_validate (Some true) c (DJsFloat n) = DErr TimeDeltaType).
Proof. intros c t n. eexists. split; [reflexivity|]. intros _. reflexivity. Qed.
End Reading.

(** C80: an instance of a subclass is written like the timedelta it equals, up to 142
    years. *)
Theorem C80_subclass : forall t m json, ieee_rounding rnd -> rounds_to_doubles rnd -> valid_delta t ->
  Z.abs (delta_micros t) <= 4500000000000000 ->
  delta_ser m json (SSub t) = delta_ser m json (SDelta t).
Proof.
  intros t m json I D V B. destruct (exact_plain t V) as (d & E & P & M). destruct (seconds_back rnd t I D V B) as (d' & E' & P' & M').
  assert (d' = d) by (apply plain_inj; congruence). subst d'. unfold DeltaText.delta_ser, delta_to_json, value_duration, value_delta. destruct json; [|reflexivity].
  destruct m; [rewrite E, E'|]; reflexivity.
Qed.
(** C80: in Python mode the object itself is returned and nothing is warned about; in JSON
    mode a value that is no timedelta is warned about and written as its type says. *)
Theorem C80_types : forall m,
  (forall v, delta_ser m false v = DWObject <-> v <> SElse)
  /\ delta_ser m false SElse = DWInferred false
  /\ forall v, delta_ser m true v = DWInferred true <-> v = SElse.
Proof.
  intros m. split; [|split; [reflexivity|]].
  - intros [t|t|]; cbn; split; congruence.
  - intros v. split.
    + destruct v as [t|t|], m; unfold DeltaText.delta_ser, delta_to_json, value_duration, value_delta; intros H; try discriminate H; try reflexivity.
      * destruct (pytimedelta_exact_as_duration t); discriminate H.
      * destruct (float_as_duration rnd (total_seconds rnd t)); discriminate H.
    + intros ->. destruct m; reflexivity.
Qed.
End C80.
Print Assumptions C80_iso_meaning.
Print Assumptions C80_injective.
Print Assumptions C80_iso_round_trip.
Print Assumptions C80_float_round_trip.
Print Assumptions C80_float_strict_refuted.
Print Assumptions C80_subclass.
Print Assumptions C80_types.

(** C80, finding: beyond 142 years float mode loses microseconds: what is read back is
    another timedelta, whatever the rounding. *)
Theorem C80_float_refuted : forall rnd, ieee_rounding rnd -> rounds_to_doubles rnd -> exists t q d,
  valid_delta t /\ delta_ser rnd FloatSeconds true (SDelta t) = DWFloat q
  /\ float_as_duration rnd q = Some d /\ duration_micros d <> delta_micros t.
Proof.
  intros rnd I D. destruct (long_lost rnd I D) as (d & E & _ & N). exists long_delta, (total_seconds rnd long_delta), d.
  split; [apply long_valid|]. split; [reflexivity|]. split; assumption.
Qed.
(** C80, finding: the ISO 8601 text of an instance of a subclass goes through a float too
    and means another timedelta, although the one of an equal timedelta is exact. *)
Theorem C80_subclass_refuted : forall rnd, ieee_rounding rnd -> rounds_to_doubles rnd -> exists t s s' m,
  valid_delta t /\ delta_ser rnd Iso8601 true (SSub t) = DWText s /\ delta_ser rnd Iso8601 true (SDelta t) = DWText s'
  /\ iso_micros s' = Some (delta_micros t) /\ iso_micros s = Some m /\ m <> delta_micros t.
Proof.
  intros rnd I D. destruct (long_lost rnd I D) as (d & E & P & N). destruct (exact_plain long_delta (proj1 long_valid)) as (d' & E' & P' & M').
  exists long_delta, (dur_text d), (dur_text d'), (duration_micros d). split; [apply long_valid|].
  split; [unfold delta_ser, delta_to_json, value_duration; rewrite E; reflexivity|].
  split; [unfold delta_ser, delta_to_json, value_duration; rewrite E'; reflexivity|].
  split; [rewrite (dur_text_means d' P'), M'; reflexivity|]. split; [apply dur_text_means, P|exact N].
Qed.
Print Assumptions C80_float_refuted.
Print Assumptions C80_subclass_refuted.

(** The hypotheses can be met: rounding to doubles, a reader of the texts. *)
Example C80_nonvacuous :
  ieee_rounding round64 /\ rounds_to_doubles round64 /\ reads_dur iso_reader
  /\ delta_ser round64 Iso8601 true (SDelta (mk_delta 400 7384 500)) = DWText (lit "P1Y35DT2H3M4.0005S")
  /\ delta_ser round64 Iso8601 true (SDelta (mk_delta (-1) 86399 0)) = DWText (lit "-PT1S")
  /\ delta_ser round64 Iso8601 true (SDelta (mk_delta 0 0 0)) = DWText (lit "PT0S")
  /\ delta_ser round64 Iso8601 true (SDelta (mk_delta 12 34 56)) = DWText (lit "P12DT34.000056S")
  /\ iso_micros (lit "P0Y0M3D2WT1H2M3.5S") = Some (((17 * 24 + 1) * 3600 + 2 * 60 + 3) * 1000000 + 500000).
Proof.
  split; [exact round64_ieee|]. split; [exact round64_doubles|]. split; [exact iso_reader_reads|]. repeat split; vm_compute; reflexivity.
Qed.

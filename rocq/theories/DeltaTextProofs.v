(** Proofs about the texts of durations. *)
From Coq Require Import List NArith ZArith QArith Qabs Qround Bool Lia Lqa.
From Verif Require Import Base Decimal TimeDelta TimeDeltaSpec TimeDeltaProofs Dates Deltas DateText DeltaText DeltaTextSpec.
Import ListNotations.
Open Scope Z_scope.
Ltac Zify.zify_post_hook ::= Z.to_euclidean_division_equations.

Definition run (s : str) (st : option iso) : option iso := fold_left iso_step s st.
Lemma run_app : forall a b st, run (a ++ b) st = run b (run a st).
Proof. intros. apply fold_left_app. Qed.

Lemma run_digits : forall s sum num t, Forall (fun c => is_digit c = true) s ->
  run s (Some (mk_iso sum (num * 1000000) None t)) = Some (mk_iso sum (Z.of_N (fold_left (fun acc c => 10 * acc + (c - 48))%N s (Z.to_N num)) * 1000000) None t)
  \/ num < 0.
Proof.
  induction s as [|c s IH]; intros sum num t H.
  - destruct (Z_lt_ge_dec num 0); [right; assumption|left]. cbn. rewrite Z2N.id by lia. reflexivity.
  - inversion H as [|? ? Hc Hs]; subst. destruct (Z_lt_ge_dec num 0); [right; assumption|left].
    unfold run. cbn [fold_left iso_step]. rewrite Hc. cbn [i_weight i_sum i_num i_time].
    replace (10 * (num * 1000000) + Z.of_N (c - 48) * 1000000) with ((10 * num + Z.of_N (c - 48)) * 1000000) by ring.
    destruct (IH sum (10 * num + Z.of_N (c - 48)) t Hs) as [E|E]; [|lia]. unfold run in E. rewrite E.
    do 5 f_equal. lia.
Qed.
Lemma run_dec : forall n sum t, 0 <= n -> run (dec_Z n) (Some (mk_iso sum 0 None t)) = Some (mk_iso sum (n * 1000000) None t).
Proof.
  intros n sum t H. assert (E : dec_Z n = dec_N (Z.to_N n)) by (destruct n; [reflexivity|reflexivity|lia]). rewrite E.
  destruct (run_digits (dec_N (Z.to_N n)) sum 0 t (dec_N_digits _)) as [A|A]; [|lia]. change (0 * 1000000) with 0 in A. rewrite A.
  change (fold_left _ (dec_N (Z.to_N n)) (Z.to_N 0)) with (dec_value (dec_N (Z.to_N n))). rewrite dec_N_value, Z2N.id by exact H. reflexivity.
Qed.
Lemma run_part : forall n c u sum t, 0 <= n -> is_digit c = false -> N.eqb c 46 = false -> N.eqb c 84 = false -> unit_seconds t c = Some u ->
  run (part n [c]) (Some (mk_iso sum 0 None t)) = Some (mk_iso (sum + n * 1000000 * u) 0 None t).
Proof.
  intros n c u sum t H C1 C2 C3 U. unfold part. destruct (Z.eqb_spec n 0) as [->|E].
  - cbn. do 2 f_equal. lia.
  - rewrite run_app, run_dec by exact H. unfold run. cbn [fold_left iso_step]. rewrite C1, C2, C3. cbn [i_time i_sum i_num]. rewrite U. reflexivity.
Qed.

Lemma drop_zeros_spec : forall s, exists k, s = repeat 48%N k ++ drop_zeros s.
Proof.
  induction s as [|c s [k IH]]; [exists O; reflexivity|]. cbn [drop_zeros]. destruct (N.eqb_spec c 48) as [->|E].
  - exists (S k). cbn. rewrite <- IH. reflexivity.
  - exists O. reflexivity.
Qed.
Lemma rev_repeat : forall (c : N) k, rev (repeat c k) = repeat c k.
Proof.
  intros c k. induction k as [|k IH]; [reflexivity|]. cbn. rewrite IH. clear IH. induction k as [|k IH]; [reflexivity|]. cbn. rewrite IH. reflexivity.
Qed.
Lemma trim_spec : forall s, exists k, s = trim_zeros s ++ repeat 48%N k.
Proof.
  intros s. destruct (drop_zeros_spec (rev s)) as [k E]. exists k. unfold trim_zeros. rewrite <- (rev_repeat 48%N k), <- rev_app_distr, <- E, rev_involutive. reflexivity.
Qed.
Lemma run_fraction : forall s sum num w t, Forall (fun c => is_digit c = true) s ->
  exists num' w', run s (Some (mk_iso sum num (Some w) t)) = Some (mk_iso sum num' (Some w') t).
Proof.
  induction s as [|c s IH]; intros sum num w t H; [eexists _, _; reflexivity|]. inversion H as [|? ? Hc Hs]; subst.
  unfold run. cbn [fold_left iso_step]. rewrite Hc. cbn [i_weight i_sum i_num i_time]. apply IH, Hs.
Qed.
Lemma run_zeros : forall k sum num w t, exists w', run (repeat 48%N k) (Some (mk_iso sum num (Some w) t)) = Some (mk_iso sum num (Some w') t).
Proof.
  induction k as [|k IH]; intros sum num w t; [eexists; reflexivity|]. unfold run. cbn [repeat fold_left iso_step is_digit].
  change (is_digit 48) with true. cbn [i_weight i_sum i_num i_time]. change (Z.of_N (48 - 48)) with 0. rewrite Z.mul_0_l, Z.add_0_r. apply IH.
Qed.
Lemma pad_digits : forall k z, 0 <= z -> Forall (fun c => is_digit c = true) (pad k z).
Proof.
  induction k as [|k IH]; intros z H; [constructor|]. cbn [pad]. apply Forall_app. split; [apply IH; lia|]. constructor; [|constructor].
  apply is_digit_spec. pose proof (Z.mod_pos_bound z 10). lia.
Qed.
Lemma digit_of : forall m, Z.of_N (48 + Z.to_N (m mod 10) - 48) = m mod 10.
Proof. intros m. pose proof (Z.mod_pos_bound m 10). rewrite N.add_comm, N.add_sub, Z2N.id; lia. Qed.
Lemma run_pad6 : forall u sum num t, 0 <= u < 1000000 -> run (pad 6 u) (Some (mk_iso sum num (Some 100000) t)) = Some (mk_iso sum (num + u) (Some 0) t).
Proof.
  intros u sum num t H. pose proof (pad_digits 6 u (proj1 H)) as D. cbn [pad app] in *.
  repeat match goal with D : Forall _ (_ :: _) |- _ => inversion D; clear D; subst end.
  unfold run. cbn [fold_left iso_step]. repeat match goal with E : is_digit _ = true |- _ => rewrite E; clear E; cbn [iso_step i_weight i_sum i_num i_time] end.
  change (100000 / 10 / 10 / 10 / 10 / 10 / 10) with 0. change (100000 / 10 / 10 / 10 / 10 / 10) with 1. change (100000 / 10 / 10 / 10 / 10) with 10.
  change (100000 / 10 / 10 / 10) with 100. change (100000 / 10 / 10) with 1000. change (100000 / 10) with 10000.
  do 2 f_equal. rewrite !digit_of. lia.
Qed.
Lemma run_trimmed : forall u sum num t, 0 <= u < 1000000 -> exists w, run (trim_zeros (pad 6 u)) (Some (mk_iso sum num (Some 100000) t)) = Some (mk_iso sum (num + u) (Some w) t).
Proof.
  intros u sum num t H. destruct (trim_spec (pad 6 u)) as [k E]. pose proof (run_pad6 u sum num t H) as R. pose proof (pad_digits 6 u (proj1 H)) as D.
  rewrite E in R, D. rewrite run_app in R. apply Forall_app in D as [D _]. destruct (run_fraction _ sum num 100000 t D) as (n' & w & F). rewrite F in *.
  destruct (run_zeros k sum n' w t) as [w' Z]. rewrite Z in R. injection R as -> _. exists w. reflexivity.
Qed.

(** The text of a duration means its microseconds. *)
Lemma dur_text_means : forall d, plain_dur d -> iso_micros (dur_text d) = Some (duration_micros d).
Proof.
  intros [p day sec mic] (Hd & Hs & Hm & _). cbn [du_day du_second du_micro du_positive] in *.
  set (body := part (day / 365) (lit "Y") ++ part (day mod 365) (lit "D")
    ++ (if (sec =? 0) && (mic =? 0) then [] else lit "T" ++ part (sec / 3600) (lit "H") ++ part (sec mod 3600 / 60) (lit "M")
           ++ (if (sec mod 60 =? 0) && (mic =? 0) then []
               else dec_Z (sec mod 60) ++ (if mic =? 0 then [] else lit "." ++ trim_zeros (pad 6 mic)) ++ lit "S"))
    ++ (if (day =? 0) && (sec =? 0) && (mic =? 0) then lit "T0S" else [])).
  assert (R : exists st, run body (Some (mk_iso 0 0 None false)) = Some st /\ i_sum st = (day * 86400 + sec) * 1000000 + mic).
  { unfold body. rewrite run_app.
    rewrite (run_part (day / 365) 89 (365 * 86400)) by (reflexivity || lia). rewrite run_app.
    rewrite (run_part (day mod 365) 68 86400) by (reflexivity || lia). rewrite run_app.
    destruct (Z.eqb_spec sec 0) as [Es|Es]; [destruct (Z.eqb_spec mic 0) as [Em|Em]|]; cbn [andb].
    - cbn [run fold_left]. destruct (Z.eqb_spec day 0); cbn [andb]; (eexists; split; [reflexivity|cbn [i_sum]; cbn; lia]).
    - rewrite andb_false_r. change (lit "T" ++ ?x) with (84%N :: x).
      subst sec. change (0 mod 3600 / 60) with 0. change (0 / 3600) with 0. change (0 mod 60) with 0. change (0 =? 0) with true. cbn [andb part Z.eqb app].
      match goal with |- context[run (84%N :: ?r) (Some (mk_iso ?s 0 None false))] => change (run (84%N :: r) (Some (mk_iso s 0 None false))) with (run r (Some (mk_iso s 0 None true))); set (sum := s) in * end.
      rewrite run_app, run_dec by lia. rewrite run_app. change (lit "." ++ ?x) with (46%N :: x).
      change (run (46%N :: trim_zeros (pad 6 mic)) (Some (mk_iso sum (0 * 1000000) None true))) with (run (trim_zeros (pad 6 mic)) (Some (mk_iso sum 0 (Some 100000) true))).
      destruct (run_trimmed mic sum 0 true Hm) as [w ->]. eexists. split; [reflexivity|]. cbn [i_sum i_num]. unfold sum. lia.
    - rewrite andb_false_r. change (lit "T" ++ ?x) with (84%N :: x). cbn [andb app].
      match goal with |- context[run (84%N :: ?r) (Some (mk_iso ?s 0 None false))] => change (run (84%N :: r) (Some (mk_iso s 0 None false))) with (run r (Some (mk_iso s 0 None true))); set (sum := s) in * end.
      rewrite run_app, (run_part (sec / 3600) 72 3600) by (reflexivity || lia). rewrite run_app.
      rewrite (run_part (sec mod 3600 / 60) 77 60) by (reflexivity || lia).
      match goal with |- context[Some (mk_iso ?s 0 None true)] => set (sum2 := s) in * end.
      destruct (Z.eqb_spec (sec mod 60) 0) as [E6|E6]; [destruct (Z.eqb_spec mic 0) as [Em|Em]|destruct (Z.eqb_spec mic 0) as [Em|Em]]; cbn [andb].
      + eexists. split; [reflexivity|]. cbn [i_sum i_num]. unfold sum2, sum. lia.
      + rewrite run_app, run_dec by lia. rewrite run_app. change (lit "." ++ ?x) with (46%N :: x).
        match goal with |- context[run (46%N :: ?r) (Some (mk_iso ?s ?n None true))] => change (run (46%N :: r) (Some (mk_iso s n None true))) with (run r (Some (mk_iso s n (Some 100000) true))) end.
        destruct (run_trimmed mic sum2 (sec mod 60 * 1000000) true Hm) as [w ->]. eexists. split; [reflexivity|]. cbn [i_sum i_num]. unfold sum2, sum. lia.
      + rewrite run_app, run_dec by lia. eexists. split; [reflexivity|]. cbn [i_sum i_num]. unfold sum2, sum. lia.
      + rewrite run_app, run_dec by lia. rewrite run_app. change (lit "." ++ ?x) with (46%N :: x).
        match goal with |- context[run (46%N :: ?r) (Some (mk_iso ?s ?n None true))] => change (run (46%N :: r) (Some (mk_iso s n None true))) with (run r (Some (mk_iso s n (Some 100000) true))) end.
        destruct (run_trimmed mic sum2 (sec mod 60 * 1000000) true Hm) as [w ->]. eexists. split; [reflexivity|]. cbn [i_sum i_num]. unfold sum2, sum. lia. }
  destruct R as (st & R & E).
  assert (U : iso_unsigned (lit "P" ++ body) = Some ((day * 86400 + sec) * 1000000 + mic)).
  { cbn [lit app]. unfold iso_unsigned. change (N.eqb 80 80) with true. unfold run in R. 
    match goal with |- context[fold_left iso_step ?b _] => change b with body end. rewrite R. cbn [option_map]. rewrite E. reflexivity. }
  unfold dur_text, duration_micros. cbn [du_day du_second du_micro du_positive]. fold body. destruct p.
  - change ([] ++ lit "P" ++ body) with (lit "P" ++ body). transitivity (iso_unsigned (lit "P" ++ body)); [reflexivity|]. rewrite U. f_equal; lia.
  - transitivity (option_map Z.opp (iso_unsigned (lit "P" ++ body))); [reflexivity|]. rewrite U. cbn [option_map]. f_equal; lia.
Qed.

Lemma plain_inj : forall a b, plain_dur a -> plain_dur b -> duration_micros a = duration_micros b -> a = b.
Proof.
  intros [p d s m] [p' d' s' m'] (H1 & H2 & H3 & H4) (K1 & K2 & K3 & K4) E. cbn [du_day du_second du_micro du_positive] in *.
  assert (P : p = p').
  { rewrite E in H4. destruct p, p'; try reflexivity; [symmetry; apply K4, H4|apply H4, K4]; reflexivity. }
  subst p'. unfold duration_micros in E. cbn [du_day du_second du_micro du_positive] in E. assert (d = d' /\ s = s' /\ m = m') as (-> & -> & ->) by (destruct p; lia). reflexivity.
Qed.
Lemma exact_plain : forall t, valid_delta t -> exists d, pytimedelta_exact_as_duration t = Some d /\ plain_dur d /\ duration_micros d = delta_micros t.
Proof.
  intros t V. destruct (exact_as_duration_spec t V) as (d & E & M & D & Hs & Hm & P). exists d. split; [exact E|]. split; [|exact M].
  unfold plain_dur. rewrite M. tauto.
Qed.

(** A reader that reads the texts. *)
Definition dur_of (m : Z) : duration :=
  mk_dur (0 <=? m) (Z.abs m / 86400000000) (Z.abs m / 1000000 mod 86400) (Z.abs m mod 1000000).
Definition iso_reader (trunc : bool) (s : str) : duration + str :=
  match iso_micros s with Some m => inl (dur_of m) | None => inr [] end.
Lemma dur_of_micros : forall d, plain_dur d -> dur_of (duration_micros d) = d.
Proof.
  intros d H. pose proof H as (H1 & H2 & H3 & H4). apply plain_inj; [|exact H|].
  - unfold plain_dur, dur_of, duration_micros. cbn [du_day du_second du_micro du_positive].
    set (v := (if du_positive d then 1 else -1) * ((du_day d * 86400 + du_second d) * 1000000 + du_micro d)).
    assert (Z.abs v <= 999999999 * 86400000000 + 86399999999) by (unfold v; destruct (du_positive d); lia). clearbody v.
    destruct (Z.leb_spec 0 v); repeat split; try lia; discriminate.
  - unfold dur_of. set (v := duration_micros d). unfold duration_micros. cbn [du_day du_second du_micro du_positive]. destruct (Z.leb_spec 0 v); lia.
Qed.
Lemma iso_reader_reads : reads_dur iso_reader.
Proof. intros trunc d H. unfold iso_reader. rewrite (dur_text_means d H), (dur_of_micros d H). reflexivity. Qed.

(** Seconds as a double and back. *)
Lemma seconds_back : forall rnd t, ieee_rounding rnd -> rounds_to_doubles rnd -> valid_delta t -> Z.abs (delta_micros t) <= 4500000000000000 ->
  exists d, float_as_duration rnd (total_seconds rnd t) = Some d /\ plain_dur d /\ duration_micros d = delta_micros t.
Proof.
  intros rnd t I D V B. unfold total_seconds. fold (delta_micros t). set (m := delta_micros t) in *. set (q := m # 1000000). set (x := rnd q).
  assert (Bq : (Qabs q <= 4500000000)%Q).
  { unfold q. apply Qabs_Qle_condition. unfold Qle. cbn. lia. }
  assert (S : small_double (Qabs x)) by (apply D; eapply Qle_lt_trans; [exact Bq|reflexivity]).
  assert (Er : (Qabs (x - q) <= Qabs q * (1 # 9007199254740992) + tiny)%Q) by apply (rnd_err _ I).
  pose proof tiny_small as T.
  assert (Ex : (Qabs (x - q) <= 499601 # 1000000000000)%Q).
  { eapply Qle_trans; [exact Er|]. eapply Qle_trans; [apply Qplus_le_compat; [apply Qmult_le_compat_r; [exact Bq|discriminate]|exact T]|]. vm_compute. discriminate. }
  assert (Bx : (Qabs x < 86399999999999)%Q).
  { apply Qabs_Qlt_condition. apply Qabs_Qle_condition in Ex. apply Qabs_Qle_condition in Bq. lra. }
  destruct (float_as_duration rnd x) as [d|] eqn:F; [|exfalso; exact (float_as_duration_total rnd x I S Bx F)].
  pose proof (float_as_duration_close rnd x d I S F) as C. 
  assert (M : duration_micros d = m).
  { assert (Q : (Qabs (inject_Z (duration_micros d) - inject_Z m) < 1)%Q).
    { assert (Eq : (inject_Z m == q * 1000000)%Q) by (unfold q, Qeq; cbn; lia). rewrite Eq.
      apply Qabs_Qlt_condition. apply Qabs_Qle_condition in Ex. apply Qabs_Qle_condition in C. unfold half_micro in C. lra. }
    unfold Qminus in Q. rewrite <- inject_Z_opp, <- inject_Z_plus in Q.
    apply Qabs_Qlt_condition in Q. destruct Q as [Q1 Q2]. change (-(1))%Q with (inject_Z (-1)) in Q1. change 1%Q with (inject_Z 1) in Q2.
    rewrite <- Zlt_Qlt in Q1, Q2. lia. }
  exists d. split; [reflexivity|]. split; [|exact M].
  unfold float_as_duration in F. pose proof (duration_new_total _ _ _ _ _ F) as (P & _ & F1 & F2 & F3).
  assert (N : 0 <= du_day d).
  { set (days := sat_u32 _) in F. assert (0 <= days) by (unfold days, sat_u32, sat; lia). clearbody days.
    set (secs := as_u32 _) in F. assert (0 <= secs) by (apply Z.mod_pos_bound; lia). clearbody secs.
    set (mics := sat_u32 _) in F. assert (0 <= mics) by (unfold mics, sat_u32, sat; lia). clearbody mics.
    unfold duration_new in F. destruct (_ <=? 999999999); [|discriminate]. injection F as <-. cbn [du_day]. lia. }
  unfold plain_dur. split; [lia|]. split; [lia|]. split; [lia|]. rewrite P, M. rewrite Qle_bool_iff. split; intros H.
  - destruct (Z_lt_ge_dec m 0) as [L|G]; [|lia]. exfalso. apply Qabs_Qle_condition in Ex.
    assert (q <= -(1 # 1000000))%Q by (unfold q, Qle; cbn; lia). lra.
  - pose proof (rnd_int _ I 0 ltac:(vm_compute; discriminate)) as R0. change (inject_Z 0) with 0%Q in R0. rewrite <- R0.
    apply (rnd_mono _ I). unfold q, Qle. cbn. lia.
Qed.

(** A timedelta whose seconds are not a double: one microsecond more than 2^40 seconds. *)
Definition long_delta : pydelta := mk_delta 12725829 2176 1.
Lemma long_valid : valid_delta long_delta /\ delta_micros long_delta = 2 ^ 40 * 1000000 + 1.
Proof. split; [unfold valid_delta, long_delta; cbn; lia|reflexivity]. Qed.
Lemma big_double : forall a, small_double a -> (inject_Z (2 ^ 40) <= a)%Q -> exists k, (a * inject_Z (2 ^ 13) == inject_Z k)%Q.
Proof.
  intros a (m & n & Hm & E) H. rewrite E in H.
  assert (P : 0 < 2 ^ Z.of_nat n) by (apply Z.pow_pos_nonneg; lia).
  assert (L : 2 ^ 40 * 2 ^ Z.of_nat n <= m).
  { rewrite Zle_Qle, inject_Z_mult. setoid_replace (inject_Z m) with (inject_Z m / inject_Z (2 ^ Z.of_nat n) * inject_Z (2 ^ Z.of_nat n))%Q.
    - apply Qmult_le_compat_r; [exact H|]. change 0%Q with (inject_Z 0). rewrite <- Zle_Qle. lia.
    - field. intros Z0. change 0%Q with (inject_Z 0) in Z0. apply (proj1 (inject_Z_injective _ _)) in Z0. lia. }
  assert (N : (n <= 13)%nat).
  { destruct (le_lt_dec n 13) as [G|G]; [exact G|]. exfalso. assert (2 ^ 14 <= 2 ^ Z.of_nat n) by (apply Z.pow_le_mono_r; lia). lia. }
  exists (m * 2 ^ (13 - Z.of_nat n)). rewrite E, inject_Z_mult.
  assert (F : 2 ^ 13 = 2 ^ Z.of_nat n * 2 ^ (13 - Z.of_nat n)) by (rewrite <- Z.pow_add_r; [f_equal; lia|lia|lia]).
  rewrite F, inject_Z_mult. field. intros Z0. change 0%Q with (inject_Z 0) in Z0. apply (proj1 (inject_Z_injective _ _)) in Z0. lia.
Qed.
Lemma long_lost : forall rnd, ieee_rounding rnd -> rounds_to_doubles rnd ->
  exists d, float_as_duration rnd (total_seconds rnd long_delta) = Some d /\ plain_dur d /\ duration_micros d <> delta_micros long_delta.
Proof.
  intros rnd I D. destruct long_valid as [V M]. unfold total_seconds. fold (delta_micros long_delta). rewrite M.
  set (q := (2 ^ 40 * 1000000 + 1) # 1000000). set (x := rnd q).
  assert (Bq : (0 <= q <= 2000000000000)%Q) by (unfold q, Qle; cbn; lia).
  assert (Sx : small_double (Qabs x)) by (apply D; rewrite Qabs_pos by apply Bq; eapply Qle_lt_trans; [apply Bq|reflexivity]).
  assert (Lx : (inject_Z (2 ^ 40) <= x)%Q).
  { rewrite <- (rnd_int _ I (2 ^ 40)) by (vm_compute; discriminate). apply (rnd_mono _ I). unfold q, Qle; cbn; lia. }
  assert (Ux : (x <= 2000000000000)%Q).
  { change 2000000000000%Q with (inject_Z 2000000000000). rewrite <- (rnd_int _ I 2000000000000) by (vm_compute; discriminate). apply (rnd_mono _ I). apply Bq. }
  assert (Px : (0 <= x)%Q) by (eapply Qle_trans; [|exact Lx]; discriminate).
  assert (Sx' : small_double x) by (destruct Sx as (m & n & Hm & E); exists m, n; split; [exact Hm|rewrite <- E; symmetry; apply Qabs_pos, Px]).
  destruct (float_as_duration rnd x) as [d|] eqn:F; [|exfalso; apply (float_as_duration_total rnd x I Sx); [rewrite (Qabs_pos x Px); eapply Qle_lt_trans; [exact Ux|reflexivity]|exact F]].
  assert (C : (Qabs (inject_Z (duration_micros d) - x * 1000000) <= half_micro)%Q) by exact (float_as_duration_close rnd x d I Sx F).
  exists d. split; [reflexivity|]. split.
  - unfold float_as_duration in F. pose proof (duration_new_total _ _ _ _ _ F) as (P & _ & F1 & F2 & F3).
    assert (N : 0 <= du_day d).
    { set (days := sat_u32 _) in F. assert (0 <= days) by (unfold days, sat_u32, sat; lia). clearbody days.
      set (secs := as_u32 _) in F. assert (0 <= secs) by (apply Z.mod_pos_bound; lia). clearbody secs.
      set (mics := sat_u32 _) in F. assert (0 <= mics) by (unfold mics, sat_u32, sat; lia). clearbody mics.
      unfold duration_new in F. destruct (_ <=? 999999999); [|discriminate]. injection F as <-. cbn [du_day]. lia. }
    apply Qle_bool_iff in Px. rewrite Px in P. unfold plain_dur, duration_micros. rewrite P. repeat split; lia.
  - intros K. rewrite K in C. destruct (big_double x Sx' Lx) as [k Ek]. unfold half_micro in C.
    apply Qabs_Qle_condition in C. change (inject_Z (2 ^ 40 * 1000000 + 1)) with 1099511627776000001%Q in C. change (inject_Z (2 ^ 13)) with 8192%Q in Ek.
    assert (L1 : (inject_Z (2 ^ 53) < inject_Z k)%Q) by (rewrite <- Ek; change (inject_Z (2 ^ 53)) with 9007199254740992%Q; lra).
    assert (L2 : (inject_Z k < inject_Z (2 ^ 53 + 1))%Q) by (rewrite <- Ek; change (inject_Z (2 ^ 53 + 1)) with 9007199254740993%Q; lra).
    rewrite <- Zlt_Qlt in L1, L2. lia.
Qed.

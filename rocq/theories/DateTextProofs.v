(** The texts of dates and times can be read: a reader, and the proof that it reads them. *)
From Coq Require Import List NArith ZArith Bool Lia.
From Verif Require Import Base Values VState TzInfo Dates DateText DateTextSpec.
Import ListNotations.
Open Scope Z_scope.

(** [k] digits, then the rest. *)
Fixpoint nat_digits (k : nat) (acc : Z) (s : str) : option (Z * str) :=
  match k, s with
  | O, _ => Some (acc, s)
  | S k', c :: s' => if ((48 <=? c) && (c <=? 57))%N then nat_digits k' (10 * acc + Z.of_N (c - 48)) s' else None
  | S _, [] => None
  end.
Lemma digits_app : forall k acc s r, nat_digits k acc s = Some (r, []) -> forall t, nat_digits k acc (s ++ t) = Some (r, t).
Proof.
  induction k as [|k IH]; intros acc s r H t.
  - cbn in *. injection H as -> ->. reflexivity.
  - destruct s as [|c s]; [discriminate|]. cbn in *. destruct ((48 <=? c) && (c <=? 57))%N; [|discriminate]. apply IH. exact H.
Qed.
Lemma digits_snoc : forall k acc s a c, nat_digits k acc s = Some (a, []) -> ((48 <= c <= 57))%N -> nat_digits (S k) acc (s ++ [c]) = Some (10 * a + Z.of_N (c - 48), []).
Proof.
  induction k as [|k IH]; intros acc s a c H Hc.
  - cbn in H. injection H as -> ->. cbn. replace ((48 <=? c) && (c <=? 57))%N with true by (symmetry; apply andb_true_iff; split; apply N.leb_le; lia). reflexivity.
  - destruct s as [|x s]; [discriminate|]. change ((x :: s) ++ [c]) with (x :: (s ++ [c])). cbn [nat_digits] in H |- *. destruct ((48 <=? x) && (x <=? 57))%N; [|discriminate]. exact (IH _ _ _ _ H Hc).
Qed.
Lemma pad_reads : forall k z, 0 <= z < 10 ^ Z.of_nat k -> nat_digits k 0 (pad k z) = Some (z, []).
Proof.
  induction k as [|k IH]; intros z H.
  - cbn in *. assert (z = 0) by lia. subst. reflexivity.
  - cbn [pad]. assert (Hm : 0 <= z mod 10 < 10) by (apply Z.mod_pos_bound; lia).
    assert (Hd : z = 10 * (z / 10) + z mod 10) by (apply Z.div_mod; lia).
    assert (Hb : 0 <= z / 10 < 10 ^ Z.of_nat k).
    { split; [apply Z.div_pos; lia|]. apply Z.div_lt_upper_bound; [lia|]. rewrite Nat2Z.inj_succ, Z.pow_succ_r in H by lia. lia. }
    rewrite (digits_snoc k 0 (pad k (z / 10)) (z / 10) (48 + Z.to_N (z mod 10))%N (IH _ Hb)) by lia.
    f_equal. f_equal. replace (48 + Z.to_N (z mod 10) - 48)%N with (Z.to_N (z mod 10)) by lia. rewrite Z2N.id by lia. lia.
Qed.
Lemma pad_reads_app : forall k z t, 0 <= z < 10 ^ Z.of_nat k -> nat_digits k 0 (pad k z ++ t) = Some (z, t).
Proof. intros k z t H. apply digits_app, pad_reads, H. Qed.

Definition expect (c : N) (s : str) : option str := match s with x :: s' => if N.eqb x c then Some s' else None | [] => None end.
Definition obind {A B} (o : option A) (f : A -> option B) : option B := match o with Some a => f a | None => None end.
Definition decode_date (s : str) : option (date * str) :=
  obind (nat_digits 4 0 s) (fun '(y, s) => obind (expect 45 s) (fun s =>
  obind (nat_digits 2 0 s) (fun '(m, s) => obind (expect 45 s) (fun s =>
  obind (nat_digits 2 0 s) (fun '(d, s) => Some (mk_date y m d, s)))))).
Definition decode_offset (s : str) : option (option Z) :=
  match s with
  | [] => Some None
  | c :: s =>
      if N.eqb c 90 then Some (Some 0)
      else obind (nat_digits 2 0 s) (fun '(h, s) => obind (expect 58 s) (fun s => obind (nat_digits 2 0 s) (fun '(m, s) =>
           Some (Some ((if N.eqb c 45 then -1 else 1) * (60 * (60 * h + m)))))))
  end.
Definition decode_time (s : str) : option time :=
  obind (nat_digits 2 0 s) (fun '(h, s) => obind (expect 58 s) (fun s =>
  obind (nat_digits 2 0 s) (fun '(m, s) => obind (expect 58 s) (fun s =>
  obind (nat_digits 2 0 s) (fun '(sec, s) =>
  match expect 46 s with
  | Some s => obind (nat_digits 6 0 s) (fun '(u, s) => obind (decode_offset s) (fun o => Some (mk_time h m sec u o)))
  | None => obind (decode_offset s) (fun o => Some (mk_time h m sec 0 o))
  end))))).
Definition decode_dt (s : str) : option datetime :=
  obind (decode_date s) (fun '(d, s) => obind (expect 84 s) (fun s => obind (decode_time s) (fun t => Some (mk_dt d t)))).

Lemma decode_date_text : forall d s, py_date_ok d = true -> decode_date (date_text d ++ s) = Some (d, s).
Proof.
  intros [y m d] s H. unfold py_date_ok in H. cbn [da_year da_month da_day] in H. rewrite !andb_true_iff, !Z.leb_le in H. destruct H as [[[[[H1 H2] H3] H4] H5] H6].
  assert (d < 100).
  { assert (Hm : m = 1 \/ m = 2 \/ m = 3 \/ m = 4 \/ m = 5 \/ m = 6 \/ m = 7 \/ m = 8 \/ m = 9 \/ m = 10 \/ m = 11 \/ m = 12) by lia.
    unfold month_days in H6. destruct Hm as [->|[->|[->|[->|[->|[->|[->|[->|[->|[->|[->| ->]]]]]]]]]]]; destruct (is_leap y); (match type of H6 with d <= ?e => let v := eval vm_compute in e in change e with v in H6 end); lia. }
  unfold date_text, decode_date. cbn [da_year da_month da_day]. rewrite <- !app_assoc.
  rewrite pad_reads_app by (change (10 ^ Z.of_nat 4) with 10000; lia). cbn [obind].
  match goal with |- context[expect 45 (lit "-" ++ ?x)] => change (expect 45 (lit "-" ++ x)) with (Some x) end. cbn [obind].
  rewrite pad_reads_app by (change (10 ^ Z.of_nat 2) with 100; lia). cbn [obind].
  match goal with |- context[expect 45 (lit "-" ++ ?x)] => change (expect 45 (lit "-" ++ x)) with (Some x) end. cbn [obind].
  rewrite pad_reads_app by (change (10 ^ Z.of_nat 2) with 100; lia). cbn [obind].
  reflexivity.
Qed.
Lemma decode_offset_text : forall o, shows o -> decode_offset (offset_text o) = Some o.
Proof.
  intros [o|] H; [|reflexivity]. destruct H as (k & -> & Hk). unfold offset_text. destruct (Z.eqb_spec (60 * k) 0) as [E|E]; [rewrite E; reflexivity|].
  replace (Z.quot (60 * k) 60) with k by (rewrite Z.mul_comm, Z.quot_mul; lia). cbv zeta.
  assert (A : 0 <= Z.abs (Z.quot k 60) < 100 /\ 0 <= Z.abs (Z.rem k 60) < 100 /\ Z.abs k = 60 * Z.abs (Z.quot k 60) + Z.abs (Z.rem k 60)).
  { pose proof (Z.quot_rem k 60 ltac:(lia)). pose proof (Z.rem_bound_abs k 60 ltac:(lia)).
    rewrite Z.abs_mul || idtac. assert (Hs : 0 <= k \/ k < 0) by lia. destruct Hs as [Hs|Hs].
    - pose proof (Z.rem_nonneg k 60 ltac:(lia) Hs). pose proof (Z.quot_pos k 60 Hs ltac:(lia)). lia.
    - pose proof (Z.rem_nonpos k 60 ltac:(lia) ltac:(lia)). assert (Z.quot k 60 <= 0) by (apply Z.quot_le_upper_bound || lia; lia). lia. }
  destruct A as (A1 & A2 & A3).
  assert (G : forall c, N.eqb c 90 = false -> decode_offset (c :: pad 2 (Z.abs (Z.quot k 60)) ++ lit ":" ++ pad 2 (Z.abs (Z.rem k 60))) =
     Some (Some ((if N.eqb c 45 then -1 else 1) * (60 * (60 * Z.abs (Z.quot k 60) + Z.abs (Z.rem k 60)))))).
  { intros c Hc. cbn [decode_offset]. rewrite Hc. rewrite pad_reads_app by (change (10 ^ Z.of_nat 2) with 100; lia). cbn [obind].
    change (expect 58 (lit ":" ++ pad 2 (Z.abs (Z.rem k 60)))) with (Some (pad 2 (Z.abs (Z.rem k 60)))). cbn [obind].
    rewrite pad_reads by (change (10 ^ Z.of_nat 2) with 100; lia). reflexivity. }
  rewrite <- A3 in G. destruct (Z.ltb_spec (60 * k) 0).
  - change (lit "-" ++ ?x) with (45%N :: x). etransitivity; [apply (G 45%N eq_refl)|]. cbn. f_equal. f_equal. lia.
  - change (lit "+" ++ ?x) with (43%N :: x). etransitivity; [apply (G 43%N eq_refl)|]. cbn. f_equal. f_equal. lia.
Qed.
Lemma decode_time_text : forall t, plain_time t -> decode_time (time_text t) = Some t.
Proof.
  intros [h m s u o] [H Ho]. unfold py_time_ok in H. cbn [ti_hour ti_minute ti_second ti_micro ti_off] in *. rewrite !andb_true_iff, !Z.leb_le in H.
  unfold time_text, decode_time. cbn [ti_hour ti_minute ti_second ti_micro ti_off].
  rewrite pad_reads_app by (change (10 ^ Z.of_nat 2) with 100; lia). cbn [obind].
  match goal with |- context[expect 58 (lit ":" ++ ?x)] => change (expect 58 (lit ":" ++ x)) with (Some x) end. cbn [obind].
  rewrite pad_reads_app by (change (10 ^ Z.of_nat 2) with 100; lia). cbn [obind].
  match goal with |- context[expect 58 (lit ":" ++ ?x)] => change (expect 58 (lit ":" ++ x)) with (Some x) end. cbn [obind].
  rewrite pad_reads_app by (change (10 ^ Z.of_nat 2) with 100; lia). cbn [obind].
  destruct (Z.eqb_spec u 0) as [->|Eu].
  - cbn [app]. assert (N46 : expect 46 (offset_text o) = None).
    { destruct o as [o|]; [|reflexivity]. unfold offset_text. destruct (o =? 0); [reflexivity|]. cbv zeta. destruct (o <? 0); reflexivity. }
    rewrite N46, (decode_offset_text o Ho). reflexivity.
  - rewrite <- app_assoc. match goal with |- context[expect 46 (lit "." ++ ?x)] => change (expect 46 (lit "." ++ x)) with (Some x) end.
    cbn iota beta. rewrite pad_reads_app by (change (10 ^ Z.of_nat 6) with 1000000; lia). cbn [obind]. rewrite (decode_offset_text o Ho). reflexivity.
Qed.
Lemma decode_dt_text : forall d, plain_dt d -> decode_dt (dt_text d) = Some d.
Proof.
  intros [d t] [Hd Ht]. unfold decode_dt, dt_text. cbn [dt_date dt_time] in *. rewrite (decode_date_text d _ Hd). cbn [obind].
  change (expect 84 (lit "T" ++ time_text t)) with (Some (time_text t)). cbn [obind]. rewrite (decode_time_text t Ht). reflexivity.
Qed.

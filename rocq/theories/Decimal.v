(** Decimal text of natural numbers and integers, and the value of a digit
    string.  Used both by specifications and by the models of code that prints
    integers (Rust [to_string], Python [str(int)]). *)
From Coq Require Import List NArith ZArith Bool Lia.
From Verif Require Import Base.
Import ListNotations.
Open Scope N_scope.
Arguments N.mul : simpl never.
Arguments N.add : simpl never.
Arguments N.sub : simpl never.
Arguments N.div : simpl never.
Arguments N.modulo : simpl never.
Ltac Zify.zify_post_hook ::= Z.to_euclidean_division_equations.

Definition is_digit (c : N) : bool := (48 <=? c) && (c <=? 57).
Definition is_digit19 (c : N) : bool := (49 <=? c) && (c <=? 57).

(** Value of a digit string, most significant digit first. *)
Definition dec_value (s : str) : N := fold_left (fun acc c => 10 * acc + (c - 48)) s 0.

Fixpoint dec_fuel (fuel : nat) (n : N) : str :=
  match fuel with
  | O => []
  | S f => if n <? 10 then [48 + n] else dec_fuel f (n / 10) ++ [48 + n mod 10]
  end.

(** Canonical decimal text of [n]. *)
Definition dec_N (n : N) : str := dec_fuel (S (N.size_nat n)) n.

(** Canonical decimal text of [z]. *)
Definition dec_Z (z : Z) : str :=
  match z with
  | Z0 => [48]
  | Zpos p => dec_N (Npos p)
  | Zneg p => 45 :: dec_N (Npos p)
  end.

Lemma dec_value_app s1 s2 :
  dec_value (s1 ++ s2) = fold_left (fun acc c => 10 * acc + (c - 48)) s2 (dec_value s1).
Proof. unfold dec_value. apply fold_left_app. Qed.

Lemma dec_value_snoc s c : dec_value (s ++ [c]) = 10 * dec_value s + (c - 48).
Proof. rewrite dec_value_app. reflexivity. Qed.

Lemma is_digit_spec c : is_digit c = true <-> 48 <= c <= 57.
Proof. unfold is_digit. rewrite andb_true_iff, !N.leb_le. tauto. Qed.

Lemma is_digit19_spec c : is_digit19 c = true <-> 49 <= c <= 57.
Proof. unfold is_digit19. rewrite andb_true_iff, !N.leb_le. tauto. Qed.

Lemma is_digit19_digit c : is_digit19 c = true -> is_digit c = true.
Proof. rewrite is_digit19_spec, is_digit_spec. lia. Qed.

Lemma digit_mod n : is_digit (48 + n mod 10) = true.
Proof. apply is_digit_spec. pose proof (N.mod_lt n 10 ltac:(discriminate)). lia. Qed.

(** Structure of the printer, for any sufficient fuel. *)
Lemma size_nat_bound n : n < 2 ^ N.of_nat (N.size_nat n).
Proof.
  pose proof (N.size_gt n) as H. assert (E : N.of_nat (N.size_nat n) = N.size n).
  { destruct n as [|p]; [reflexivity|]. unfold N.size_nat, N.size. clear. induction p; cbn [Pos.size_nat Pos.size]; try reflexivity;
      rewrite Nat2N.inj_succ, IHp; reflexivity. }
  rewrite E. exact H.
Qed.

Lemma dec_fuel_props fuel : forall n,
  n < 2 ^ N.of_nat fuel ->
  let s := dec_fuel (S fuel) n in
  dec_value s = n /\ Forall (fun c => is_digit c = true) s /\
  exists c r, s = c :: r /\ (n <> 0 -> is_digit19 c = true) /\ (n = 0 -> r = []).
Proof.
  induction fuel as [|f IH]; intros n Hn.
  - assert (n = 0) by (simpl in Hn; lia). subst. simpl.
    repeat split; auto. exists 48, []. repeat split; auto; intros H; exfalso; apply H; reflexivity.
  - cbn [dec_fuel]. destruct (N.ltb_spec n 10) as [Hlt|Hge].
    + repeat split.
      * unfold dec_value; cbn [fold_left]. lia.
      * constructor; [apply is_digit_spec; lia | constructor].
      * exists (48 + n), []. repeat split; auto. intros H. apply is_digit19_spec. lia.
    + assert (Hq : n / 10 < 2 ^ N.of_nat f).
      { rewrite Nat2N.inj_succ, N.pow_succ_r' in Hn.
        apply N.div_lt_upper_bound; lia. }
      destruct (IH (n / 10) Hq) as [H1 [H2 [c [r [H3 [H4 H5]]]]]].
      cbn [dec_fuel] in *.
      set (d := if n / 10 <? 10 then _ else _) in *.
      repeat split.
      * rewrite dec_value_snoc, H1. pose proof (N.div_mod n 10 ltac:(discriminate)). pose proof (N.mod_lt n 10 ltac:(discriminate)). lia.
      * apply Forall_app; split; [assumption|]. constructor; [apply digit_mod | constructor].
      * exists c, (r ++ [48 + n mod 10]). rewrite H3. repeat split.
        -- intros _. apply H4. intros E. apply N.div_small_iff in E; lia.
        -- intros ->. lia.
Qed.

Lemma dec_N_props n :
  dec_value (dec_N n) = n /\ Forall (fun c => is_digit c = true) (dec_N n) /\
  exists c r, dec_N n = c :: r /\ (n <> 0 -> is_digit19 c = true) /\ (n = 0 -> r = []).
Proof. apply dec_fuel_props. apply size_nat_bound. Qed.

Lemma dec_N_value n : dec_value (dec_N n) = n.
Proof. apply dec_N_props. Qed.

Lemma dec_N_digits n : Forall (fun c => is_digit c = true) (dec_N n).
Proof. apply dec_N_props. Qed.

Lemma dec_N_inj n m : dec_N n = dec_N m -> n = m.
Proof. intros H. rewrite <- (dec_N_value n), <- (dec_N_value m), H. reflexivity. Qed.

Lemma dec_Z_inj z1 z2 : dec_Z z1 = dec_Z z2 -> z1 = z2.
Proof.
  assert (Hm : forall p r, dec_N (Npos p) = 45 :: r -> False).
  { intros p r E. pose proof (dec_N_digits (Npos p)) as H. rewrite E in H.
    inversion H as [|? ? H1 _]. discriminate H1. }
  assert (H0 : dec_N 0 = [48]) by reflexivity.
  destruct z1 as [|p|p], z2 as [|q|q]; simpl; intros H; try reflexivity.
  - rewrite <- H0 in H. apply dec_N_inj in H. discriminate.
  - discriminate.
  - rewrite <- H0 in H. apply dec_N_inj in H. discriminate.
  - apply dec_N_inj in H. injection H as ->. reflexivity.
  - exfalso. eapply Hm; eauto.
  - discriminate.
  - exfalso. eapply Hm. symmetry. eauto.
  - injection H as H. apply dec_N_inj in H. injection H as ->. reflexivity.
Qed.

(** A digit string that starts with 1-9 is the canonical text of its value. *)
Definition canonical (s : str) : Prop :=
  Forall (fun c => is_digit c = true) s /\ exists c r, s = c :: r /\ is_digit19 c = true.

Lemma fold_pos s : forall a, 0 < a -> Forall (fun c => is_digit c = true) s ->
  0 < fold_left (fun acc c => 10 * acc + (c - 48)) s a.
Proof. induction s as [|c s IH]; intros a Ha H; simpl; [assumption|]. inversion H; subst. apply IH; [lia | assumption]. Qed.

Lemma canonical_pos s : canonical s -> 0 < dec_value s.
Proof.
  intros [H [c [r [-> Hc]]]]. inversion H; subst. unfold dec_value. simpl. apply fold_pos; [|assumption].
  apply is_digit19_spec in Hc. lia.
Qed.

Lemma canonical_inj s : forall t, canonical s -> canonical t -> dec_value s = dec_value t -> s = t.
Proof.
  assert (Hsplit : forall r c, canonical (r ++ [c]) -> is_digit c = true /\ (r = [] \/ canonical r)).
  { intros r c [H [c0 [r0 [E Hc]]]]. apply Forall_app in H as [H1 H2]. inversion H2; subst. split; [assumption|].
    destruct r as [|d r]; [auto|]. right. injection E as <- _. split; eauto. }
  induction s as [|c s IH] using rev_ind; intros t Hs Ht Hv.
  - destruct Hs as [_ [c [r [E _]]]]. discriminate.
  - destruct t as [|d t _] using rev_ind; [destruct Ht as [_ [c' [r [E _]]]]; discriminate|].
    destruct (Hsplit s c Hs) as [Hc Hs']. destruct (Hsplit t d Ht) as [Hd Ht'].
    rewrite !dec_value_snoc in Hv. apply is_digit_spec in Hc. apply is_digit_spec in Hd.
    assert (c = d /\ dec_value s = dec_value t) as [-> Hv'] by lia. f_equal.
    destruct Hs' as [->|Hs'], Ht' as [->|Ht'].
    + reflexivity.
    + apply canonical_pos in Ht'. unfold dec_value at 1 in Hv'. simpl in Hv'. lia.
    + apply canonical_pos in Hs'. unfold dec_value at 2 in Hv'. simpl in Hv'. lia.
    + apply IH; assumption.
Qed.

Lemma dec_N_canonical n : n <> 0 -> canonical (dec_N n).
Proof.
  intros Hn. destruct (dec_N_props n) as [_ [H [c [r [E [Hc _]]]]]]. split; [assumption|]. exists c, r. auto.
Qed.

Lemma canonical_dec s : canonical s -> dec_N (dec_value s) = s.
Proof.
  intros H. pose proof (canonical_pos s H). apply canonical_inj; [|assumption|apply dec_N_value].
  apply dec_N_canonical. lia.
Qed.

Example dec_examples : dec_Z (-1070)%Z = lit "-1070" /\ dec_Z 0 = lit "0" /\ dec_Z 98765432109876543210 = lit "98765432109876543210".
Proof. repeat split; reflexivity. Qed.

From Coq Require Import List NArith ZArith Bool Lia.
From Verif Require Import Base Decimal TzInfo.
Import ListNotations.
Open Scope Z_scope.
Ltac Zify.zify_post_hook ::= Z.to_euclidean_division_equations.

Definition digit_ch (d : Z) : N := Z.to_N (48 + d).
Definition two_digits (n : Z) : str := [digit_ch (n / 10); digit_ch (n mod 10)].

Lemma digit_ch_inj a b : 0 <= a -> 0 <= b -> digit_ch a = digit_ch b -> a = b.
Proof. unfold digit_ch. intros Ha Hb H. apply Z2N.inj in H; lia. Qed.
Lemma digits_inj n m : 0 <= n -> 0 <= m ->
  digit_ch (n / 10) = digit_ch (m / 10) -> digit_ch (n mod 10) = digit_ch (m mod 10) -> n = m.
Proof. intros Hn Hm H1 H2. apply digit_ch_inj in H1; [|lia|lia]. apply digit_ch_inj in H2; lia. Qed.

Lemma pad2_spec n : 0 <= n < 100 -> pad2 n = two_digits n.
Proof.
  intros H. assert (A : forallb (fun k => str_eqb (pad2 (Z.of_nat k)) (two_digits (Z.of_nat k))) (seq 0 100) = true)
    by (vm_compute; reflexivity).
  rewrite forallb_forall in A. specialize (A (Z.to_nat n)). rewrite Z2Nat.id in A by lia.
  apply str_eqb_eq. apply A. apply in_seq. lia.
Qed.

(** The text, spelled out. *)
Lemma tz_str_spec s : s <> 0 -> -86400 < s < 86400 ->
  tz_str s = (if 0 <? s then 43%N else 45%N) :: two_digits (Z.abs s / 3600) ++ 58%N :: two_digits ((Z.abs s / 60) mod 60)
    ++ (if Z.abs s mod 60 =? 0 then [] else 58%N :: two_digits (Z.abs s mod 60)).
Proof.
  intros H0 Hs. unfold tz_str. apply Z.eqb_neq in H0 as E0. rewrite E0.
  assert (Eh : Z.abs (Z.quot (Z.quot s 60) 60) = Z.abs s / 3600) by lia.
  assert (Em : Z.abs (Z.rem (Z.quot s 60) 60) = (Z.abs s / 60) mod 60) by lia.
  assert (Es : Z.abs (Z.rem s 60) = Z.abs s mod 60) by lia.
  assert (Ez : (Z.rem s 60 =? 0) = (Z.abs s mod 60 =? 0)).
  { destruct (Z.eqb_spec (Z.rem s 60) 0), (Z.eqb_spec (Z.abs s mod 60) 0); auto; lia. }
  rewrite Eh, Em, Es, Ez. rewrite !pad2_spec by lia.
  assert (Esg : (0 <=? Z.sgn s) = (0 <? s)).
  { destruct (Z.leb_spec 0 (Z.sgn s)), (Z.ltb_spec 0 s); auto; lia. }
  rewrite Esg. destruct (Z.abs s mod 60 =? 0), (0 <? s); reflexivity.
Qed.

Lemma tz_str_inj a b : -86400 < a < 86400 -> -86400 < b < 86400 -> tz_str a = tz_str b -> a = b.
Proof.
  intros Ha Hb E.
  Opaque digit_ch.
  destruct (Z.eq_dec a 0) as [->|Ha0], (Z.eq_dec b 0) as [->|Hb0]; [reflexivity| | |].
  - rewrite (tz_str_spec b Hb0 Hb) in E. destruct (0 <? b); discriminate.
  - rewrite (tz_str_spec a Ha0 Ha) in E. destruct (0 <? a); discriminate.
  - rewrite (tz_str_spec a Ha0 Ha), (tz_str_spec b Hb0 Hb) in E. unfold two_digits in E. simpl app in E.
    injection E as Es H1 H2 H3 H4 H5.
    assert (Esign : (0 <? a) = (0 <? b)) by (destruct (0 <? a), (0 <? b); auto; discriminate).
    assert (Esec : Z.abs a mod 60 = Z.abs b mod 60).
    { destruct (Z.eqb_spec (Z.abs a mod 60) 0) as [Ea|Ea], (Z.eqb_spec (Z.abs b mod 60) 0) as [Eb|Eb]; try discriminate.
      - congruence.
      - injection H5 as H5 H6. apply digits_inj; auto; lia. }
    clear H5. apply digits_inj in H2; [|lia|lia|assumption]. apply digits_inj in H4; [|lia|lia|assumption]. assert (Eabs : Z.abs a = Z.abs b) by lia.
    destruct (Z.ltb_spec 0 a), (Z.ltb_spec 0 b); try discriminate; lia.
Qed.

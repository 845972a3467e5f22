(** C04, C05, C07: text to integer, text to bool. *)
From Coq Require Import List NArith ZArith Bool Lia.
From Verif Require Import Base Decimal IntParse IntParseSpec IntParseProofs.
Import ListNotations.
Open Scope N_scope.

(** Number of digits of the canonical decimal text of [z]. *)
Definition digit_count (z : Z) : N := N.of_nat (length (dec_N (Z.abs_N z))).

(** The 25 code points with Unicode property White_Space: what [all_space], used
    in the statements below, ranges over. *)
Definition unicode_white_space : list N :=
  [9; 10; 11; 12; 13; 32; 133; 160; 5760; 8192; 8193; 8194; 8195; 8196; 8197; 8198; 8199; 8200;
   8201; 8202; 8232; 8233; 8239; 8287; 12288].

Theorem C04_white_space : forall w, all_space w <-> Forall (fun c => In c unicode_white_space) w.
Proof.
  assert (H : forall c, is_space c = true <-> In c unicode_white_space).
  { intros c. unfold is_space, unicode_white_space; simpl In.
    rewrite !orb_true_iff, !andb_true_iff, !N.leb_le, !N.eqb_eq. lia. }
  intros w. unfold all_space. split; intros F; (eapply Forall_impl; [|exact F]); intros c; apply H.
Qed.
Print Assumptions C04_white_space.

(** C04: the accepted language, exactly, with the value of each text. *)
Theorem C04_int_text_exact : forall max s z,
  str_as_int max s = IntOk z <-> accepted max s z.
Proof. exact str_as_int_iff. Qed.
Print Assumptions C04_int_text_exact.

(** C04: every text Python's [int()] reads (surrounding whitespace, a sign,
    digits with single underscores), with an optional ".000", is read as the same number. *)
Theorem C04_python_int_accepted : forall max s z,
  python_int s z -> digit_count z <= max -> str_as_int max s = IntOk z.
Proof.
  intros max s z [w1 sg k ds fr w2 Hw1 Hsg Hds Hfr Hw2] Hl.
  apply (python_int_accepted max _ _ ds w1 sg k fr w2 eq_refl eq_refl); auto.
  intros zp ds' -> Hz Hx. rewrite value_zero_prefix in Hl by assumption.
  assert (Hk : Z.abs_N (k * value_of ds') = dec_value (digits_of ds')).
  { unfold value_of. destruct Hsg; lia. }
  unfold digit_count in Hl. rewrite Hk in Hl. rewrite canonical_dec in Hl; [assumption|].
  destruct Hx as [c [r [-> Hc]]]. pose proof (us_digits_good _ Hds) as [_ Hall].
  rewrite digits_of_app in Hall. apply Forall_app in Hall as [_ Hall].
  split; [assumption|]. exists c, (digits_of r). split; [|assumption].
  apply digits_of_cons. intros ->; discriminate.
Qed.
Print Assumptions C04_python_int_accepted.

(** C04, deviation: "0-1" is read as -1 and "0__1" as 1, neither of which is
    an integer text in Python's syntax. *)
Theorem C04_only_python_int_refuted :
  (str_as_int 4300 (lit "0-1") = IntOk (-1)%Z /\ forall z, ~ python_int (lit "0-1") z) /\
  (str_as_int 4300 (lit "0__1") = IntOk 1%Z /\ forall z, ~ python_int (lit "0__1") z).
Proof.
  split; (split; [vm_compute; reflexivity|]); intros z H.
  - inversion H as [w1 sg k ds fr w2 Hw1 Hsg Hds Hfr Hw2 E]. clear H.
    destruct w1 as [|c w1].
    + simpl in E. apply us_digits_head in Hds as G. destruct G as [c [r [Ec Hc]]].
      destruct Hsg; simpl in E; try discriminate. subst ds. simpl in E. injection E as -> E.
      inversion Hds as [d Hd E1|d r' Hd Hr E1|d r' Hd Hr E1]; subst.
      * simpl in E. destruct Hfr as [->|[n ->]]; [|discriminate]. simpl in E. subst w2.
        inversion Hw2; discriminate.
      * apply us_digits_head in Hr as [c [r0 [-> Hc']]]. injection E as -> _. discriminate.
      * discriminate.
    + injection E as -> E. inversion Hw1; discriminate.
  - inversion H as [w1 sg k ds fr w2 Hw1 Hsg Hds Hfr Hw2 E]. clear H.
    destruct w1 as [|c w1].
    + simpl in E. apply us_digits_head in Hds as G. destruct G as [c [r [Ec Hc]]].
      destruct Hsg; simpl in E; try discriminate. subst ds. simpl in E. injection E as -> E.
      inversion Hds as [d Hd E1|d r' Hd Hr E1|d r' Hd Hr E1]; subst.
      * simpl in E. destruct Hfr as [->|[n ->]]; [|discriminate]. simpl in E. subst w2.
        inversion Hw2; discriminate.
      * apply us_digits_head in Hr as [c [r0 [-> Hc']]]. injection E as -> _. discriminate.
      * apply us_digits_head in Hr as [c [r0 [-> Hc']]]. injection E as -> _. discriminate.
    + injection E as -> E. inversion Hw1; discriminate.
Qed.
Print Assumptions C04_only_python_int_refuted.

Example C04_case : exists s, python_int s (-1020)%Z /\ digit_count (-1020) <= 4300 /\
   str_as_int 4300 s = IntOk (-1020)%Z /\ s = lit " -0_1_020.00 ".
Proof.
  exists (lit " -0_1_020.00 "). split; [|vm_compute; intuition discriminate].
  change (lit " -0_1_020.00 ") with ([32] ++ [45] ++ lit "0_1_020" ++ lit ".00" ++ [32]).
  apply (py_int [32] [45] (-1) (lit "0_1_020") (lit ".00") [32]).
  - repeat constructor.
  - constructor.
  - apply us_sep; [reflexivity|]. apply us_sep; [reflexivity|]. apply us_next; [reflexivity|].
    apply us_next; [reflexivity|]. apply us_one; reflexivity.
  - right. exists 1%nat. reflexivity.
  - repeat constructor.
Qed.

(** C05: decimal text round-trips, with any surrounding whitespace [w1], [w2],
    any number of leading zeros, an explicit plus, and a ".000" suffix. *)
Definition with_sign (z : Z) (plus : bool) (body : str) : str :=
  if (z <? 0)%Z then 45 :: body else if plus then 43 :: body else body.

Theorem C05_decimal_text_roundtrip : forall max z,
  digit_count z <= max -> str_as_int max (dec_Z z) = IntOk z.
Proof.
  intros max z Hl.
  assert (Hd : us_digits (dec_N (Z.abs_N z))).
  { destruct (dec_N_props (Z.abs_N z)) as [_ [H [c [r [E _]]]]].
    assert (Hn : ~ In 95 (dec_N (Z.abs_N z))).
    { intros Hi. rewrite Forall_forall in H. apply H in Hi. discriminate. }
    apply (good_us_digits (length (dec_N (Z.abs_N z)))); [lia | rewrite E; discriminate | apply no_us_good; assumption|].
    rewrite digits_of_id by assumption. assumption. }
  assert (Hv : value_of (dec_N (Z.abs_N z)) = Z.abs z).
  { unfold value_of. rewrite digits_of_id, dec_N_value; [lia|].
    intros Hi. pose proof (dec_N_digits (Z.abs_N z)) as H. rewrite Forall_forall in H. apply H in Hi. discriminate. }
  apply C04_python_int_accepted; [|assumption].
  assert (E : dec_Z z = [] ++ (if (z <? 0)%Z then [45] else []) ++ dec_N (Z.abs_N z) ++ [] ++ []).
  { rewrite !app_nil_r. destruct z; reflexivity. }
  rewrite E. replace z with ((if (z <? 0)%Z then -1 else 1) * value_of (dec_N (Z.abs_N z)))%Z at 3.
  - apply py_int; auto; try (left; reflexivity); try constructor. destruct (z <? 0)%Z; constructor.
  - rewrite Hv. destruct (Z.ltb_spec z 0); lia.
Qed.
Print Assumptions C05_decimal_text_roundtrip.

Theorem C05_decorated_text_roundtrip : forall max z w1 w2 zeros plus fr,
  digit_count z <= max -> all_space w1 -> all_space w2 -> zero_fraction fr ->
  str_as_int max (w1 ++ with_sign z plus (repeat 48 zeros ++ dec_N (Z.abs_N z)) ++ fr ++ w2) = IntOk z.
Proof.
  intros max z w1 w2 zeros plus fr Hl Hw1 Hw2 Hfr.
  set (ds := repeat 48 zeros ++ dec_N (Z.abs_N z)).
  assert (Hdig : Forall (fun c => is_digit c = true) ds).
  { apply Forall_app. split; [|apply dec_N_digits]. clear. induction zeros; constructor; auto. }
  assert (Hn : ~ In 95 ds).
  { intros Hi. rewrite Forall_forall in Hdig. apply Hdig in Hi. discriminate. }
  assert (Hd : us_digits ds).
  { apply (good_us_digits (length ds)); [lia | | apply no_us_good; assumption | rewrite digits_of_id by assumption; assumption].
    destruct (dec_N_props (Z.abs_N z)) as [_ [_ [c [r [E _]]]]]. unfold ds. rewrite E. destruct zeros; discriminate. }
  assert (Hv : value_of ds = Z.abs z).
  { unfold value_of. rewrite digits_of_id by assumption. unfold ds. rewrite dec_value_zeros, dec_N_value. lia. }
  apply C04_python_int_accepted; [|assumption].
  set (sg := if (z <? 0)%Z then [45] else if plus then [43] else []).
  assert (E : w1 ++ with_sign z plus ds ++ fr ++ w2 = w1 ++ sg ++ ds ++ fr ++ w2).
  { unfold with_sign, sg. destruct (z <? 0)%Z, plus; reflexivity. }
  rewrite E. replace z with ((if (z <? 0)%Z then -1 else 1) * value_of ds)%Z at 1.
  - apply py_int; auto. unfold sg. destruct (z <? 0)%Z, plus; constructor.
  - rewrite Hv. destruct (Z.ltb_spec z 0); lia.
Qed.
Print Assumptions C05_decorated_text_roundtrip.

(** C05: past the limit the canonical text is reported as too long, not misread. *)
Theorem C05_too_many_digits : forall max z,
  1 <= max -> max < digit_count z -> str_as_int max (dec_Z z) = IntParsingSize.
Proof.
  intros max z Hm Hl. unfold digit_count in Hl.
  assert (Hz : Z.abs_N z <> 0).
  { intros E. rewrite E in Hl. simpl in Hl. lia. }
  pose proof (dec_N_canonical _ Hz) as [Hd [c [r [E Hc]]]].
  assert (Hu : jiter_uint max (dec_N (Z.abs_N z)) = JOutOfRange).
  { unfold jiter_uint. rewrite E. change c_0 with 48.
    destruct (N.eqb_spec c 48) as [->|_]; [discriminate|]. rewrite Hc. rewrite <- E.
    rewrite (take_digits_all _ Hd). apply N.ltb_lt in Hl. rewrite Hl. reflexivity. }
  unfold str_as_int. assert (Hj : jiter_int max (dec_Z z) = JOutOfRange).
  { destruct z as [|p|p]; [simpl in Hz; lia| |].
    - unfold jiter_int, dec_Z. change (Z.abs_N (Z.pos p)) with (N.pos p) in *. rewrite E in *.
      change c_minus with 45. destruct (N.eqb_spec c 45) as [->|_]; [discriminate|]. exact Hu.
    - unfold jiter_int, dec_Z. change (45 =? c_minus) with true. cbv iota.
      change (Z.abs_N (Z.neg p)) with (N.pos p) in *. rewrite Hu. reflexivity. }
  rewrite Hj. reflexivity.
Qed.
Print Assumptions C05_too_many_digits.

Example C05_case : digit_count (-98765432109876543210) <= 4300 /\ digit_count 12345 > 4.
Proof. vm_compute. intuition discriminate. Qed.

(** C07 *)
Definition false_words : list str := [lit "0"; lit "off"; lit "f"; lit "false"; lit "n"; lit "no"].
Definition true_words : list str := [lit "1"; lit "on"; lit "t"; lit "true"; lit "y"; lit "yes"].

(** [same_letter a b]: equal, or the same ASCII letter in different case. *)
Definition same_letter (a b : N) : Prop :=
  a = b \/ (65 <= a <= 90 /\ b = a + 32) \/ (65 <= b <= 90 /\ a = b + 32).
Definition same_word (a b : str) : Prop := Forall2 same_letter a b.

Lemma same_letter_lower a b : same_letter a b <-> ascii_lower a = ascii_lower b.
Proof.
  unfold same_letter, ascii_lower.
  destruct (N.leb_spec 65 a), (N.leb_spec a 90), (N.leb_spec 65 b), (N.leb_spec b 90); simpl; lia.
Qed.
Lemma same_word_eq a b : same_word a b <-> eq_ignore_ascii_case a b = true.
Proof.
  unfold eq_ignore_ascii_case. rewrite str_eqb_eq. unfold same_word. split.
  - induction 1 as [|x y a b H _ IH]; simpl; [reflexivity|]. apply same_letter_lower in H. congruence.
  - revert b. induction a as [|x a IH]; intros [|y b]; simpl; intros E; try discriminate; constructor.
    + apply same_letter_lower. congruence.
    + apply IH. congruence.
Qed.
Lemma same_word_digit s d : d = 48 \/ d = 49 -> same_word s [d] <-> s = [d].
Proof.
  intros Hd. split.
  - intros H. inversion H as [|x y l l' Hx Hl]; subst. inversion Hl; subst. unfold same_letter in Hx.
    assert (x = d) by lia. subst. reflexivity.
  - intros ->. constructor; [left; reflexivity | constructor].
Qed.

Theorem C07_text_to_bool : forall s b,
  str_as_bool s = Some b <-> exists w, In w (if b then true_words else false_words) /\ same_word s w.
Proof.
  intros s b.
  assert (Hf : (exists w, In w false_words /\ same_word s w) <->
     str_eqb s (lit "0") || eq_ignore_ascii_case s (lit "f") || eq_ignore_ascii_case s (lit "n")
     || eq_ignore_ascii_case s (lit "no") || eq_ignore_ascii_case s (lit "off")
     || eq_ignore_ascii_case s (lit "false") = true).
  { rewrite !orb_true_iff, <- !same_word_eq, str_eqb_eq. rewrite <- (same_word_digit s 48) by auto.
    unfold false_words; simpl In. split.
    - intros [w [[<-|[<-|[<-|[<-|[<-|[<-|[]]]]]]] H]]; tauto.
    - intros [[[[[H|H]|H]|H]|H]|H]; eexists; (split; [|exact H]); tauto. }
  assert (Ht : (exists w, In w true_words /\ same_word s w) <->
     str_eqb s (lit "1") || eq_ignore_ascii_case s (lit "t") || eq_ignore_ascii_case s (lit "y")
     || eq_ignore_ascii_case s (lit "on") || eq_ignore_ascii_case s (lit "yes")
     || eq_ignore_ascii_case s (lit "true") = true).
  { rewrite !orb_true_iff, <- !same_word_eq, str_eqb_eq. rewrite <- (same_word_digit s 49) by auto.
    unfold true_words; simpl In. split.
    - intros [w [[<-|[<-|[<-|[<-|[<-|[<-|[]]]]]]] H]]; tauto.
    - intros [[[[[H|H]|H]|H]|H]|H]; eexists; (split; [|exact H]); tauto. }
  assert (Hdis : forall w1 w2, In w1 false_words -> In w2 true_words -> same_word s w1 -> same_word s w2 -> False).
  { intros w1 w2 H1 H2 S1 S2. apply same_word_eq in S1, S2. unfold eq_ignore_ascii_case in *.
    apply str_eqb_eq in S1, S2. rewrite S1 in S2. clear S1. revert S2.
    simpl in H1, H2. destruct H1 as [<-|[<-|[<-|[<-|[<-|[<-|[]]]]]]];
      destruct H2 as [<-|[<-|[<-|[<-|[<-|[<-|[]]]]]]]; vm_compute; discriminate. }
  unfold str_as_bool.
  destruct (_ || eq_ignore_ascii_case s (lit "false")) eqn:E1.
  - apply proj2 in Hf. specialize (Hf eq_refl). split.
    + intros H; injection H as <-. exact Hf.
    + destruct b; [|reflexivity]. intros [w2 [H2 S2]]. destruct Hf as [w1 [H1 S1]].
      exfalso. eapply Hdis; eauto.
  - destruct (_ || eq_ignore_ascii_case s (lit "true")) eqn:E2.
    + apply proj2 in Ht. specialize (Ht eq_refl). split.
      * intros H; injection H as <-. exact Ht.
      * destruct b; [reflexivity|]. intros H. apply Hf in H. discriminate.
    + split; [discriminate|]. destruct b; intros H; [apply Ht in H | apply Hf in H]; discriminate.
Qed.
Print Assumptions C07_text_to_bool.

Theorem C07_words_disjoint : forall s w1 w2,
  In w1 true_words -> In w2 false_words -> same_word s w1 -> same_word s w2 -> False.
Proof.
  intros s w1 w2 H1 H2 S1 S2.
  pose proof (proj2 (C07_text_to_bool s true) (ex_intro _ w1 (conj H1 S1))) as E1.
  pose proof (proj2 (C07_text_to_bool s false) (ex_intro _ w2 (conj H2 S2))) as E2. congruence.
Qed.
Print Assumptions C07_words_disjoint.

Theorem C07_int_to_bool : forall z b, int_as_bool z = Some b <-> z = (if b then 1 else 0)%Z.
Proof.
  intros z b. unfold int_as_bool. destruct (Z.eqb_spec z 0) as [->|H0].
  - destruct b; split; intros H; try reflexivity; discriminate.
  - destruct (Z.eqb_spec z 1) as [->|H1].
    + destruct b; split; intros H; try reflexivity; discriminate.
    + split; [discriminate|]. destruct b; intros; contradiction.
Qed.
Print Assumptions C07_int_to_bool.

Example C07_case : str_as_bool (lit "oFF") = Some false /\ str_as_bool (lit "YeS") = Some true /\
  str_as_bool (lit "yes ") = None.
Proof. vm_compute. auto. Qed.

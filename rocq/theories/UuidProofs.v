(** Proofs for C74. *)
From Coq Require Import List NArith ZArith Bool Lia PeanoNat.
From Verif Require Import Base Utf8 Values VState Child Inputs Scalars BytesCodec BytesCodecSpec BytesCodecProofs Uuid UuidSpec.
Import ListNotations.
Open Scope N_scope.

Lemma hex_digit_lt : forall v c, hex_digit v c -> v < 16 /\ c < 128.
Proof.
  intros v c H. apply hex_val_spec in H. unfold hex_val in H.
  repeat match type of H with (if ?b then _ else _) = _ => destruct b eqn:?E end; try discriminate; injection H as <-; rewrite ?andb_true_iff, ?N.leb_le in *; lia.
Qed.
Lemma hex_digit_fun : forall v w c, hex_digit v c -> hex_digit w c -> v = w.
Proof. intros v w c H K. apply hex_val_spec in H. apply hex_val_spec in K. congruence. Qed.

Lemma hex_text_bytes : forall bs d, hex_text bs d -> Forall (fun x => x < 256) bs /\ length d = (2 * length bs)%nat.
Proof.
  intros bs d H. induction H as [|x y a b bs s Hx Hy H [IH1 IH2]]; [split; [constructor|reflexivity]|].
  apply hex_digit_lt in Hx. apply hex_digit_lt in Hy. split; [constructor; [lia|exact IH1]|]. cbn [length]. lia.
Qed.
Lemma hex_text_digits : forall bs d, hex_text bs d -> forall p n, digits p n -> digits (p ++ d) (fold_left (fun n x => 256 * n + x) bs n).
Proof.
  intros bs d H. induction H as [|x y a b bs s Hx Hy H IH]; intros p n D; cbn [fold_left]; [rewrite app_nil_r; exact D|].
  replace (p ++ a :: b :: s) with (((p ++ [a]) ++ [b]) ++ s) by (rewrite <- !app_assoc; reflexivity). apply IH.
  replace (256 * n + (16 * x + y)) with (16 * (16 * n + x) + y) by lia. apply digits_snoc; [apply digits_snoc|]; assumption.
Qed.
Lemma digits_fun : forall d n, digits d n -> forall m, digits d m -> n = m.
Proof.
  intros d n H. induction H as [|s n c v H IH Hv]; intros m K.
  - inversion K as [|s' n' c' v' K1 K2 E]; [reflexivity|]. destruct s'; discriminate E.
  - inversion K as [E|s' n' c' v' K1 K2 E]; [destruct s; discriminate|]. apply app_inj_tail in E. destruct E as [-> ->].
    rewrite (IH _ K1), (hex_digit_fun _ _ _ Hv K2). reflexivity.
Qed.
Lemma digits_chars : forall d n, digits d n -> Forall (fun c => exists v, hex_digit v c) d.
Proof.
  intros d n H. induction H as [|s n c v H IH Hv]; [constructor|]. apply Forall_app. split; [exact IH|]. constructor; [exists v; exact Hv|constructor].
Qed.
Lemma chars_hex_text : forall k d, length d = (2 * k)%nat -> Forall (fun c => exists v, hex_digit v c) d -> exists bs, hex_text bs d /\ length bs = k.
Proof.
  induction k as [|k IH]; intros d L F.
  - destruct d; [|discriminate]. exists []. split; [constructor|reflexivity].
  - destruct d as [|a [|b d]]; try (cbn [length] in L; lia). inversion F as [|? ? [x Hx] F1]. inversion F1 as [|? ? [y Hy] F2]. subst.
    destruct (IH d) as (bs & H & E); [cbn [length] in L; lia|exact F2|]. exists (16 * x + y :: bs). split; [constructor; assumption|cbn [length]; lia].
Qed.
(** 32 digits are 16 bytes. *)
Lemma decode_digits : forall d n, length d = 32%nat -> (digits d n <-> exists bs, hex_decode d = Some bs /\ length bs = 16%nat /\ as_u128 bs = n).
Proof.
  intros d n L. split.
  - intros D. destruct (chars_hex_text 16 d L (digits_chars _ _ D)) as (bs & H & E). exists bs. split; [apply hex_decode_iff; exact H|]. split; [exact E|].
    apply (digits_fun d); [|exact D]. apply (hex_text_digits _ _ H [] 0). constructor.
  - intros (bs & H & _ & <-). apply hex_decode_iff in H. apply (hex_text_digits _ _ H [] 0). constructor.
Qed.
Lemma decode_bytes : forall d bs, hex_decode d = Some bs -> Forall (fun x => x < 256) bs /\ length d = (2 * length bs)%nat.
Proof. intros d bs H. apply hex_decode_iff in H. apply hex_text_bytes. exact H. Qed.

Lemma split_at : forall (s : bytes) n, (n <= length s)%nat -> exists a b, s = a ++ b /\ length a = n.
Proof. intros s n H. exists (firstn n s), (skipn n s). split; [symmetry; apply firstn_skipn|rewrite firstn_length; lia]. Qed.

Lemma parse_hyphenated_groups : forall a b c d e, sizes a b c d e -> parse_hyphenated (groups a b c d e) = hex_decode (a ++ b ++ c ++ d ++ e).
Proof.
  intros a b c d e (La & Lb & Lc & Ld & Le).
  do 8 (destruct a as [|? a]; [discriminate La|]). destruct a; [|discriminate La].
  do 4 (destruct b as [|? b]; [discriminate Lb|]). destruct b; [|discriminate Lb].
  do 4 (destruct c as [|? c]; [discriminate Lc|]). destruct c; [|discriminate Lc].
  do 4 (destruct d as [|? d]; [discriminate Ld|]). destruct d; [|discriminate Ld].
  do 12 (destruct e as [|? e]; [discriminate Le|]). destruct e; [|discriminate Le].
  reflexivity.
Qed.
Lemma parse_hyphenated_inv : forall s bs, length s = 36%nat -> parse_hyphenated s = Some bs -> exists a b c d e, s = groups a b c d e /\ sizes a b c d e.
Proof.
  intros s bs L H. unfold parse_hyphenated in H.
  destruct ((nth 8 s 0 =? 45) && (nth 13 s 0 =? 45) && (nth 18 s 0 =? 45) && (nth 23 s 0 =? 45)) eqn:E; [|discriminate].
  rewrite !andb_true_iff, !N.eqb_eq in E. destruct E as [[[E1 E2] E3] E4]. clear H.
  do 36 (destruct s as [|? s]; [discriminate L|]). destruct s; [|discriminate L]. cbn [nth] in E1, E2, E3, E4. subst.
  eexists [_; _; _; _; _; _; _; _], [_; _; _; _], [_; _; _; _], [_; _; _; _], [_; _; _; _; _; _; _; _; _; _; _; _].
  split; [reflexivity|]. repeat split.
Qed.
Lemma groups_length : forall a b c d e, sizes a b c d e -> length (groups a b c d e) = 36%nat /\ length (a ++ b ++ c ++ d ++ e) = 32%nat.
Proof. intros a b c d e (La & Lb & Lc & Ld & Le). unfold groups. rewrite !app_length, La, Lb, Lc, Ld, Le. split; reflexivity. Qed.

Lemma removelast_last : forall (r : bytes) x, removelast (r ++ [x]) = r /\ last (r ++ [x]) 0 = x.
Proof. intros r x. split; [rewrite removelast_app by discriminate; apply app_nil_r|apply last_last]. Qed.

Lemma hyph_iff : forall s n, length s = 36%nat ->
  (exists bs, parse_hyphenated s = Some bs /\ length bs = 16%nat /\ as_u128 bs = n) <->
  (exists a b c d e, s = groups a b c d e /\ sizes a b c d e /\ digits (a ++ b ++ c ++ d ++ e) n).
Proof.
  intros s n L. split.
  - intros (bs & H & E). destruct (parse_hyphenated_inv s bs L H) as (a & b & c & d & e & -> & Z). exists a, b, c, d, e. split; [reflexivity|]. split; [exact Z|].
    apply decode_digits; [apply groups_length; exact Z|]. exists bs. rewrite parse_hyphenated_groups in H by exact Z. auto.
  - intros (a & b & c & d & e & -> & Z & D). apply decode_digits in D; [|apply groups_length; exact Z]. destruct D as (bs & H & E). exists bs.
    rewrite parse_hyphenated_groups by exact Z. auto.
Qed.

Theorem try_parse_iff : forall s n, (exists bs, try_parse s = Some bs /\ length bs = 16%nat /\ as_u128 bs = n) <-> form s n.
Proof.
  intros s n. split.
  - intros (bs & H & E). unfold try_parse in H.
    destruct (Nat.eqb (length s) 32) eqn:E32; [apply Nat.eqb_eq in E32; apply form_simple; [apply decode_digits; [exact E32|exists bs; auto]|exact E32]|].
    destruct (Nat.eqb (length s) 36) eqn:E36.
    { apply Nat.eqb_eq in E36. destruct (proj1 (hyph_iff s n E36)) as (a & b & c & d & e & -> & Z & D); [exists bs; auto|]. apply form_groups; assumption. }
    destruct (Nat.eqb (length s) 38) eqn:E38.
    { apply Nat.eqb_eq in E38. destruct s as [|x r]; [discriminate|]. destruct (N.eq_dec x 123) as [->|Nx].
      - destruct (last r 0 =? 125) eqn:El; [|discriminate]. apply N.eqb_eq in El.
        destruct (exists_last (l := r)) as (r' & y & ->); [intros ->; discriminate|]. destruct (removelast_last r' y) as [R1 R2]. rewrite R1 in H. rewrite R2 in El. subst y.
        assert (L : length r' = 36%nat) by (cbn [length] in E38; rewrite app_length in E38; cbn [length] in E38; lia).
        destruct (proj1 (hyph_iff r' n L)) as (a & b & c & d & e & -> & Z & D); [exists bs; auto|].
        change (123 :: groups a b c d e ++ [125]) with (lit "{" ++ groups a b c d e ++ lit "}"). apply form_braces; assumption.
      - exfalso. destruct x as [|p]; [discriminate|]. do 7 (destruct p as [p|p|]; try discriminate). apply Nx. reflexivity. }
    destruct (Nat.eqb (length s) 45) eqn:E45; [|discriminate]. apply Nat.eqb_eq in E45.
    destruct (str_eqb (firstn 9 s) (lit "urn:uuid:")) eqn:Eu; [|discriminate]. apply str_eqb_eq in Eu.
    assert (L : length (skipn 9 s) = 36%nat) by (rewrite skipn_length; lia).
    destruct (proj1 (hyph_iff _ n L)) as (a & b & c & d & e & Es & Z & D); [exists bs; auto|].
    rewrite <- (firstn_skipn 9 s), Eu, Es. apply form_urn; assumption.
  - intros F. destruct F as [s n D L|a b c d e n Z D|a b c d e n Z D|a b c d e n Z D]; unfold try_parse.
    + rewrite L. cbn [Nat.eqb]. apply decode_digits; assumption.
    + destruct (groups_length _ _ _ _ _ Z) as [L _]. rewrite L. cbn [Nat.eqb]. apply hyph_iff; [exact L|]. exists a, b, c, d, e. auto.
    + destruct (groups_length _ _ _ _ _ Z) as [L _].
      assert (L' : length (lit "{" ++ groups a b c d e ++ lit "}") = 38%nat) by (rewrite !app_length, L; reflexivity). rewrite L'. cbn [Nat.eqb].
      change (lit "{" ++ groups a b c d e ++ lit "}") with (123 :: groups a b c d e ++ [125]). destruct (removelast_last (groups a b c d e) 125) as [-> ->].
      cbn [N.eqb Pos.eqb]. apply hyph_iff; [exact L|]. exists a, b, c, d, e. auto.
    + destruct (groups_length _ _ _ _ _ Z) as [L _].
      assert (L' : length (lit "urn:uuid:" ++ groups a b c d e) = 45%nat) by (rewrite !app_length, L; reflexivity). rewrite L'. cbn [Nat.eqb].
      change (firstn 9 (lit "urn:uuid:" ++ groups a b c d e)) with (lit "urn:uuid:"). rewrite str_eqb_refl.
      change (skipn 9 (lit "urn:uuid:" ++ groups a b c d e)) with (groups a b c d e). apply hyph_iff; [exact L|]. exists a, b, c, d, e. auto.
Qed.
Lemma try_parse_good : forall s bs, try_parse s = Some bs -> Forall (fun x => x < 256) bs /\ length bs = 16%nat.
Proof.
  intros s bs H.
  assert (K : exists d, hex_decode d = Some bs /\ length d = 32%nat).
  { assert (P : forall r, length r = 36%nat -> parse_hyphenated r = Some bs -> exists d, hex_decode d = Some bs /\ length d = 32%nat).
    { intros r L Hr. destruct (parse_hyphenated_inv r bs L Hr) as (a & b & c & d & e & -> & Z). rewrite parse_hyphenated_groups in Hr by exact Z.
      eexists. split; [exact Hr|]. apply groups_length. exact Z. }
    unfold try_parse in H. destruct (Nat.eqb (length s) 32) eqn:E32; [apply Nat.eqb_eq in E32; exists s; auto|].
    destruct (Nat.eqb (length s) 36) eqn:E36; [apply Nat.eqb_eq in E36; apply (P s); assumption|].
    destruct (Nat.eqb (length s) 38) eqn:E38.
    { apply Nat.eqb_eq in E38. destruct s as [|x r]; [discriminate|]. destruct (N.eq_dec x 123) as [->|Nx].
      - destruct (last r 0 =? 125); [|discriminate]. apply (P (removelast r)); [|exact H].
        destruct (exists_last (l := r)) as (r' & y & ->); [intros ->; discriminate|]. rewrite (proj1 (removelast_last r' y)).
        cbn [length] in E38. rewrite app_length in E38. cbn [length] in E38. lia.
      - exfalso. destruct x as [|p]; [discriminate|]. do 7 (destruct p as [p|p|]; try discriminate). apply Nx. reflexivity. }
    destruct (Nat.eqb (length s) 45) eqn:E45; [|discriminate]. apply Nat.eqb_eq in E45.
    destruct (str_eqb (firstn 9 s) (lit "urn:uuid:")); [|discriminate]. apply (P (skipn 9 s)); [rewrite skipn_length; lia|exact H]. }
  destruct K as (d & Hd & L). destruct (decode_bytes _ _ Hd) as [F L']. split; [exact F|lia].
Qed.

(** Only ASCII texts have a form. *)
Lemma hex_ascii : forall d n, digits d n -> Forall (fun c => c < 128) d.
Proof. intros d n D. apply digits_chars in D. revert D. apply Forall_impl. intros c [v H]. apply hex_digit_lt in H. lia. Qed.
Lemma form_ascii : forall s n, form s n -> Forall (fun c => c < 128) s.
Proof.
  assert (G : forall a b c d e n, digits (a ++ b ++ c ++ d ++ e) n -> Forall (fun c => c < 128) (groups a b c d e)).
  { intros a b c d e n D. apply hex_ascii in D. rewrite !Forall_app in D. destruct D as (A & B & C & D & E). unfold groups.
    rewrite !Forall_app. repeat split; try assumption; repeat constructor. }
  intros s n F. destruct F as [s n D L|a b c d e n Z D|a b c d e n Z D|a b c d e n Z D]; rewrite ?Forall_app; try (eapply G; exact D).
  - eapply hex_ascii; exact D.
  - repeat split; try (eapply G; exact D); repeat constructor.
  - split; [|eapply G; exact D]. repeat constructor.
Qed.
Lemma utf8_ascii : forall t, Forall (fun c => c < 128) t \/ Forall (fun c => c < 128) (utf8 t) -> utf8 t = t.
Proof.
  intros t H. induction t as [|c t IH]; [reflexivity|]. cbn [utf8 flat_map] in *. fold (utf8 t) in *.
  assert (Hc : c < 128).
  { destruct H as [H|H]; [inversion H; assumption|]. unfold utf8_char in H. destruct (N.ltb_spec c 128); [assumption|].
    destruct (c <? 2048); [inversion H; lia|]. destruct (c <? 65536); inversion H; lia. }
  assert (Ht : utf8 t = t).
  { apply IH. destruct H as [H|H]; [left; inversion H; assumption|right]. apply Forall_app in H. apply H. }
  rewrite Ht. unfold utf8_char. destruct (N.ltb_spec c 128); [reflexivity|lia].
Qed.
Lemma form_utf8 : forall t n, form (utf8 t) n <-> form t n.
Proof.
  intros t n. split; intros F; pose proof (form_ascii _ _ F) as A; rewrite ?(utf8_ascii t (or_intror A)) in *; rewrite ?(utf8_ascii t (or_introl A)); assumption.
Qed.
Lemma form_fun : forall s n m, form s n -> form s m -> n = m.
Proof.
  intros s n m H K. apply try_parse_iff in H. apply try_parse_iff in K. destruct H as (b & H & _ & <-). destruct K as (b' & K & _ & <-). congruence.
Qed.

(** Numbers and bytes. *)
Lemma as_u128_snoc : forall b x, as_u128 (b ++ [x]) = 256 * as_u128 b + x.
Proof. intros b x. unfold as_u128. rewrite fold_left_app. reflexivity. Qed.
Lemma big_endian_iff : forall b n, big_endian b n <-> Forall (fun x => x < 256) b /\ as_u128 b = n.
Proof.
  intros b. split.
  - intros H. induction H as [|b n x H [F <-] Hx]; [split; [constructor|reflexivity]|]. split; [apply Forall_app; split; [exact F|constructor; [exact Hx|constructor]]|apply as_u128_snoc].
  - intros [F <-]. induction b as [|x b IH] using rev_ind; [constructor|]. apply Forall_app in F. destruct F as [F Fx]. inversion Fx. rewrite as_u128_snoc. constructor; auto.
Qed.
Lemma to_be_spec : forall k n, n < 256 ^ N.of_nat k -> as_u128 (to_be k n) = n /\ Forall (fun x => x < 256) (to_be k n) /\ length (to_be k n) = k.
Proof.
  induction k as [|k IH]; intros n H.
  - cbn in H. cbn [to_be]. repeat split; [|constructor]. cbn. lia.
  - cbn [to_be]. rewrite Nat2N.inj_succ, N.pow_succ_r' in H. destruct (IH (n / 256)) as (A & B & C).
    { apply N.div_lt_upper_bound; lia. }
    rewrite as_u128_snoc, A, Forall_app, app_length, C. split; [rewrite <- N.div_mod'; reflexivity|]. split; [|cbn [length]; lia].
    split; [exact B|]. constructor; [apply N.mod_lt; discriminate|constructor].
Qed.
Lemma version_bits : forall b v, length b = 16%nat -> Forall (fun x => x < 256) b ->
  ((get_version_num b =? v) && is_rfc4122 b = true <-> has_version (as_u128 b) v).
Proof.
  intros b v L F. do 16 (destruct b as [|? b]; [discriminate L|]). destruct b; [|discriminate L].
  repeat match goal with H : Forall _ (_ :: _) |- _ => inversion H; clear H; subst end.
  unfold get_version_num, is_rfc4122, has_version, as_u128. cbn [fold_left nth]. rewrite andb_true_iff, !N.eqb_eq.
  change (2 ^ 62) with 4611686018427387904. change (2 ^ 76) with 75557863725914323419136.
  match goal with |- context[?x / 4611686018427387904] => set (m := x) end.
  assert (E1 : (m / 4611686018427387904) mod 4 = n7 / 64).
  { replace (m / 4611686018427387904) with ((((((((256 * n + n0) * 256 + n1) * 256 + n2) * 256 + n3) * 256 + n4) * 256 + n5) * 256 + n6) * 4 + n7 / 64).
    - rewrite N.add_comm, N.mod_add by lia. apply N.mod_small. apply N.div_lt_upper_bound; lia.
    - apply N.div_unique with (r := ((((((((n7 mod 64) * 256 + n8) * 256 + n9) * 256 + n10) * 256 + n11) * 256 + n12) * 256 + n13) * 256 + n14)).
      + pose proof (N.mod_lt n7 64). lia.
      + pose proof (N.div_mod' n7 64). unfold m. lia. }
  assert (E2 : (m / 75557863725914323419136) mod 16 = n5 / 16).
  { replace (m / 75557863725914323419136) with (((((((256 * n + n0) * 256 + n1) * 256 + n2) * 256 + n3) * 256 + n4) * 16 + n5 / 16)).
    - rewrite N.add_comm, N.mod_add by lia. apply N.mod_small. apply N.div_lt_upper_bound; lia.
    - apply N.div_unique with (r := ((((((((((n5 mod 16) * 256 + n6) * 256 + n7) * 256 + n8) * 256 + n9) * 256 + n10) * 256 + n11) * 256 + n12) * 256 + n13) * 256 + n14)).
      + pose proof (N.mod_lt n5 16). lia.
      + pose proof (N.div_mod' n5 16). unfold m. lia. }
  rewrite E1, E2. tauto.
Qed.
Lemma py_version_iff : forall n v, py_version n = Some v <-> has_version n v.
Proof.
  intros n v. unfold py_version, has_version.
  assert (E : N.testbit n 63 && negb (N.testbit n 62) = ((n / 2 ^ 62) mod 4 =? 2)).
  { rewrite !N.testbit_eqb. replace (n / 2 ^ 63) with (n / 2 ^ 62 / 2) by (rewrite N.div_div by discriminate; reflexivity).
    set (m := n / 2 ^ 62). pose proof (N.div_mod' m 4). pose proof (N.mod_lt m 4). pose proof (N.div_mod' m 2). pose proof (N.mod_lt m 2).
    pose proof (N.div_mod' (m / 2) 2). pose proof (N.mod_lt (m / 2) 2).
    destruct ((m / 2) mod 2 =? 1) eqn:A, (m mod 2 =? 1) eqn:B, (m mod 4 =? 2) eqn:C; try reflexivity; exfalso;
      rewrite ?N.eqb_eq, ?N.eqb_neq in *; lia. }
  rewrite E. replace (N.land (N.shiftr n 76) 15) with ((n / 2 ^ 76) mod 16) by (rewrite N.shiftr_div_pow2; change 15 with (N.ones 4); rewrite N.land_ones; reflexivity).
  destruct (N.eqb_spec ((n / 2 ^ 62) mod 4) 2); split; intros H.
  - injection H as <-. auto.
  - destruct H as [_ <-]. reflexivity.
  - discriminate.
  - destruct H. contradiction.
Qed.

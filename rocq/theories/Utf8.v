(** UTF-8, as used by Rust [str] (standard library, trusted): encoding of a
    Unicode scalar value, and validation/decoding of a byte string
    ([std::str::from_utf8], RFC 3629). *)
From Coq Require Import List NArith ZArith Bool Lia.
From Verif Require Import Base.
Import ListNotations.
Open Scope N_scope.
Ltac Zify.zify_post_hook ::= Z.to_euclidean_division_equations.

(** Unicode scalar values: code points that are not surrogates. *)
Definition scalar (c : N) : bool := (c <? 55296) || ((57344 <=? c) && (c <? 1114112)).
Definition scalars (s : str) : Prop := Forall (fun c => scalar c = true) s.

Definition utf8_char (c : N) : bytes :=
  if c <? 128 then [c]
  else if c <? 2048 then [192 + c / 64; 128 + c mod 64]
  else if c <? 65536 then [224 + c / 4096; 128 + (c / 64) mod 64; 128 + c mod 64]
  else [240 + c / 262144; 128 + (c / 4096) mod 64; 128 + (c / 64) mod 64; 128 + c mod 64].

Definition utf8 (s : str) : bytes := flat_map utf8_char s.

(** Continuation bytes 10xxxxxx. *)
Definition is_cont (b : N) : bool := (128 <=? b) && (b <? 192).

(** [std::str::from_utf8]. *)
Fixpoint from_utf8 (bs : bytes) : option str :=
  match bs with
  | [] => Some []
  | b0 :: r0 =>
      if b0 <? 128 then option_map (cons b0) (from_utf8 r0)
      else if (194 <=? b0) && (b0 <? 224) then
        match r0 with
        | b1 :: r1 =>
            if is_cont b1 then option_map (cons ((b0 - 192) * 64 + (b1 - 128))) (from_utf8 r1) else None
        | _ => None
        end
      else if (224 <=? b0) && (b0 <? 240) then
        match r0 with
        | b1 :: b2 :: r2 =>
            let c := (b0 - 224) * 4096 + (b1 - 128) * 64 + (b2 - 128) in
            if is_cont b1 && is_cont b2 && (2048 <=? c) && scalar c
            then option_map (cons c) (from_utf8 r2) else None
        | _ => None
        end
      else if (240 <=? b0) && (b0 <? 245) then
        match r0 with
        | b1 :: b2 :: b3 :: r3 =>
            let c := (b0 - 240) * 262144 + (b1 - 128) * 4096 + (b2 - 128) * 64 + (b3 - 128) in
            if is_cont b1 && is_cont b2 && is_cont b3 && (65536 <=? c) && scalar c
            then option_map (cons c) (from_utf8 r3) else None
        | _ => None
        end
      else None
  end.

Lemma scalar_spec c : scalar c = true <-> c < 55296 \/ 57344 <= c < 1114112.
Proof. unfold scalar. rewrite orb_true_iff, andb_true_iff, !N.ltb_lt, N.leb_le. reflexivity. Qed.
Lemma is_cont_spec b : is_cont b = true <-> 128 <= b < 192.
Proof. unfold is_cont. rewrite andb_true_iff, N.ltb_lt, N.leb_le. reflexivity. Qed.

Lemma ltb_t a b : a < b -> (a <? b) = true. Proof. apply N.ltb_lt. Qed.
Lemma ltb_f a b : b <= a -> (a <? b) = false. Proof. apply N.ltb_ge. Qed.
Lemma leb_t a b : a <= b -> (a <=? b) = true. Proof. apply N.leb_le. Qed.
Lemma leb_f a b : b < a -> (a <=? b) = false. Proof. apply N.leb_gt. Qed.

Lemma from_utf8_char c r : scalar c = true ->
  from_utf8 (utf8_char c ++ r) = option_map (cons c) (from_utf8 r).
Proof.
  intros Hc. pose proof Hc as Hs. apply scalar_spec in Hs. unfold utf8_char.
  destruct (N.ltb_spec c 128) as [L1|L1].
  { simpl app. cbn [from_utf8]. rewrite ltb_t by assumption. reflexivity. }
  destruct (N.ltb_spec c 2048) as [L2|L2].
  { simpl app. cbn [from_utf8]. rewrite (ltb_f (192 + c / 64) 128) by lia.
    rewrite (leb_t 194), (ltb_t (192 + c / 64) 224) by lia. cbn [andb].
    replace (is_cont (128 + c mod 64)) with true by (symmetry; apply is_cont_spec; lia).
    replace ((192 + c / 64 - 192) * 64 + (128 + c mod 64 - 128)) with c by lia. reflexivity. }
  destruct (N.ltb_spec c 65536) as [L3|L3].
  { simpl app. cbn [from_utf8]. rewrite (ltb_f (224 + c / 4096) 128) by lia.
    rewrite (ltb_f (224 + c / 4096) 224) by lia. rewrite andb_false_r.
    rewrite (leb_t 224), (ltb_t (224 + c / 4096) 240) by lia. cbn [andb].
    replace (is_cont (128 + (c / 64) mod 64)) with true by (symmetry; apply is_cont_spec; lia).
    replace (is_cont (128 + c mod 64)) with true by (symmetry; apply is_cont_spec; lia).
    replace ((224 + c / 4096 - 224) * 4096 + (128 + (c / 64) mod 64 - 128) * 64 + (128 + c mod 64 - 128)) with c by lia.
    rewrite Hc. rewrite (leb_t 2048 c) by lia. reflexivity. }
  simpl app. cbn [from_utf8]. rewrite (ltb_f (240 + c / 262144) 128) by lia.
  rewrite (ltb_f (240 + c / 262144) 224), andb_false_r by lia.
  rewrite (ltb_f (240 + c / 262144) 240), andb_false_r by lia.
  rewrite (leb_t 240), (ltb_t (240 + c / 262144) 245) by lia. cbn [andb].
  replace (is_cont (128 + (c / 4096) mod 64)) with true by (symmetry; apply is_cont_spec; lia).
  replace (is_cont (128 + (c / 64) mod 64)) with true by (symmetry; apply is_cont_spec; lia).
  replace (is_cont (128 + c mod 64)) with true by (symmetry; apply is_cont_spec; lia).
  replace ((240 + c / 262144 - 240) * 262144 + (128 + (c / 4096) mod 64 - 128) * 4096
    + (128 + (c / 64) mod 64 - 128) * 64 + (128 + c mod 64 - 128)) with c by lia.
  rewrite Hc, (leb_t 65536 c) by lia. reflexivity.
Qed.

Lemma from_utf8_utf8 s : scalars s -> from_utf8 (utf8 s) = Some s.
Proof.
  induction 1 as [|c s Hc _ IH]; [reflexivity|]. change (utf8 (c :: s)) with (utf8_char c ++ utf8 s). rewrite from_utf8_char by assumption.
  rewrite IH. reflexivity.
Qed.

Lemma from_utf8_sound_len n : forall bs s, (length bs <= n)%nat -> from_utf8 bs = Some s -> utf8 s = bs /\ scalars s.
Proof.
  induction n as [|n IH]; intros bs s Hl H.
  { destruct bs; [|simpl in Hl; lia]. injection H as <-. split; [reflexivity | constructor]. }
  destruct bs as [|b0 r0]; [injection H as <-; split; [reflexivity | constructor]|].
  cbn [from_utf8] in H. simpl in Hl.
  assert (HH : forall c r, (length r <= n)%nat -> scalar c = true ->
     option_map (cons c) (from_utf8 r) = Some s -> b0 :: r0 = utf8_char c ++ r -> utf8 s = b0 :: r0 /\ scalars s).
  { intros c r Lr Hc E Eb. destruct (from_utf8 r) as [s'|] eqn:Er; [|discriminate]. injection E as <-.
    apply IH in Er as [E1 E2]; [|assumption]. split; [|constructor; assumption].
    change (utf8 (c :: s')) with (utf8_char c ++ utf8 s'). rewrite E1, Eb. reflexivity. }
  destruct (N.ltb_spec b0 128) as [L1|L1].
  { apply (HH b0 r0); try assumption; try lia.
    - apply scalar_spec. lia.
    - unfold utf8_char. rewrite ltb_t by assumption. reflexivity. }
  destruct (N.leb_spec 194 b0) as [L2|L2], (N.ltb_spec b0 224) as [L3|L3]; cbn [andb] in H.
  { destruct r0 as [|b1 r1]; [discriminate|]. destruct (is_cont b1) eqn:C1; [|discriminate].
    apply is_cont_spec in C1. simpl in Hl. eapply HH; [| |exact H|]; try lia.
    - apply scalar_spec. lia.
    - unfold utf8_char. rewrite ltb_f, ltb_t by lia. simpl app. do 2 (f_equal; try lia). }
  2: { rewrite (leb_f 224) in H by lia. cbn [andb] in H. rewrite (leb_f 240) in H by lia. discriminate. }
  2: lia.
  destruct (N.leb_spec 224 b0) as [L4|L4]; [|lia]. destruct (N.ltb_spec b0 240) as [L5|L5]; cbn [andb] in H.
  { destruct r0 as [|b1 [|b2 r2]]; try discriminate.
    destruct (_ && _) eqn:C in H; [|discriminate]. rewrite !andb_true_iff in C. destruct C as [[[C1 C2] C3] C4].
    apply is_cont_spec in C1, C2. apply N.leb_le in C3. simpl in Hl. eapply HH; [| |exact H|]; try lia.
    - exact C4.
    - apply scalar_spec in C4. unfold utf8_char. rewrite ltb_f, ltb_f, ltb_t by lia. simpl app. do 3 (f_equal; try lia). }
  rewrite (leb_t 240) in H by lia. destruct (N.ltb_spec b0 245) as [L6|L6]; cbn [andb] in H; [|discriminate].
  destruct r0 as [|b1 [|b2 [|b3 r3]]]; try discriminate.
  destruct (_ && _) eqn:C in H; [|discriminate]. rewrite !andb_true_iff in C. destruct C as [[[[C1 C2] C3] C4] C5].
  apply is_cont_spec in C1, C2, C3. apply N.leb_le in C4. simpl in Hl. eapply HH; [| |exact H|]; try lia.
  - exact C5.
  - apply scalar_spec in C5. unfold utf8_char. rewrite ltb_f, ltb_f, ltb_f by lia. simpl app. do 4 (f_equal; try lia).
Qed.

Lemma from_utf8_sound bs s : from_utf8 bs = Some s -> utf8 s = bs /\ scalars s.
Proof. apply (from_utf8_sound_len (length bs)). lia. Qed.

Lemma utf8_inj s1 s2 : scalars s1 -> scalars s2 -> utf8 s1 = utf8 s2 -> s1 = s2.
Proof.
  intros H1 H2 E. apply from_utf8_utf8 in H1, H2. congruence.
Qed.

Lemma utf8_app a b : utf8 (a ++ b) = utf8 a ++ utf8 b.
Proof. apply flat_map_app. Qed.

(** Shape of one encoded character: a non-continuation byte followed by at most
    three continuation bytes. *)
Lemma utf8_char_shape c : scalar c = true ->
  exists b r, utf8_char c = b :: r /\ is_cont b = false /\ Forall (fun x => is_cont x = true) r /\ (length r <= 3)%nat.
Proof.
  intros Hc. apply scalar_spec in Hc. unfold utf8_char.
  assert (N : forall b, b < 128 \/ 192 <= b -> is_cont b = false).
  { intros b H. destruct (is_cont b) eqn:E; [apply is_cont_spec in E; lia | reflexivity]. }
  assert (Y : forall b, is_cont (128 + b mod 64) = true) by (intros b; apply is_cont_spec; lia).
  destruct (N.ltb_spec c 128); [exists c, []|destruct (N.ltb_spec c 2048);
    [eexists _, [_]|destruct (N.ltb_spec c 65536); [eexists _, [_; _] | eexists _, [_; _; _]]]];
    (split; [reflexivity|]); (split; [apply N; lia|]); (split; [repeat constructor; apply Y | simpl; lia]).
Qed.

Example utf8_examples :
  utf8 [233; 8364; 128512] = [195; 169; 226; 130; 172; 240; 159; 152; 128] /\
  from_utf8 [195; 169; 226; 130; 172; 240; 159; 152; 128] = Some [233; 8364; 128512] /\
  from_utf8 [192; 128] = None /\ from_utf8 [237; 160; 128] = None /\ from_utf8 [244; 144; 128; 128] = None.
Proof. vm_compute. auto. Qed.

From Coq Require Import List NArith ZArith Bool Lia.
From Verif Require Import Base Utf8 Truncate.
Import ListNotations.
Open Scope nat_scope.
Ltac Zify.zify_post_hook ::= Z.to_euclidean_division_equations.

Lemma boundary_cont b : (b < 256)%N -> is_utf8_char_boundary b = negb (is_cont b).
Proof.
  intros H. unfold is_utf8_char_boundary, is_cont.
  destruct (N.ltb_spec b 128), (N.leb_spec 128 b), (N.ltb_spec b 192); try lia; cbn [andb negb];
    try (apply Z.leb_le; lia); apply Z.leb_gt; lia.
Qed.

Lemma utf8_char_byte c b : scalar c = true -> In b (utf8_char c) -> (b < 256)%N.
Proof.
  intros Hc. apply scalar_spec in Hc. unfold utf8_char.
  destruct (N.ltb_spec c 128); [|destruct (N.ltb_spec c 2048); [|destruct (N.ltb_spec c 65536)]];
    simpl In; intros Hi; lia.
Qed.

Lemma char_shape c : scalar c = true ->
  exists b r, utf8_char c = b :: r /\ is_utf8_char_boundary b = true /\
    Forall (fun x => is_utf8_char_boundary x = false) r /\ length r <= 3.
Proof.
  intros Hc. destruct (utf8_char_shape c Hc) as [b [r [E [H1 [H2 H3]]]]]. exists b, r.
  assert (Hb : forall x, In x (b :: r) -> (x < 256)%N) by (rewrite <- E; intros x; apply utf8_char_byte; assumption).
  split; [assumption|]. split.
  - rewrite boundary_cont, H1; [reflexivity | apply Hb; left; reflexivity].
  - split; [|assumption]. rewrite Forall_forall in *. intros x Hx. rewrite boundary_cont, H2; auto. apply Hb. right; assumption.
Qed.

Lemma utf8_cons c s : utf8 (c :: s) = utf8_char c ++ utf8 s. Proof. reflexivity. Qed.

(** The character that contains byte [i]. *)
Lemma locate s : forall i, i < length (utf8 s) ->
  exists a c b, s = a ++ c :: b /\ length (utf8 a) <= i < length (utf8 a) + length (utf8_char c).
Proof.
  induction s as [|c s IH]; intros i Hi; [simpl in Hi; lia|].
  rewrite utf8_cons, app_length in Hi.
  destruct (Nat.lt_ge_cases i (length (utf8_char c))) as [L|L].
  - exists [], c, s. simpl. split; [reflexivity | lia].
  - destruct (IH (i - length (utf8_char c)) ltac:(lia)) as [a [c' [b [-> H]]]].
    exists (c :: a), c', b. split; [reflexivity|]. rewrite utf8_cons, app_length. lia.
Qed.

Lemma rposition_app {A} (p : A -> bool) x y z :
  p y = true -> Forall (fun w => p w = false) z -> rposition p (x ++ y :: z) = Some (length x).
Proof.
  intros Hy Hz. assert (Hn : rposition p z = None).
  { induction Hz as [|w z Hw _ IH]; [reflexivity|]. simpl. rewrite IH, Hw. reflexivity. }
  induction x as [|w x IH]; simpl; [rewrite Hn, Hy; reflexivity|]. rewrite IH. reflexivity.
Qed.

Lemma position_app {A} (p : A -> bool) x y z :
  p y = true -> Forall (fun w => p w = false) x -> position p (x ++ y :: z) = Some (length x).
Proof. intros Hy Hx. induction Hx as [|w x Hw _ IH]; simpl; [rewrite Hy; reflexivity|]. rewrite Hw, IH. reflexivity. Qed.

Lemma position_none {A} (p : A -> bool) x : Forall (fun w => p w = false) x -> position p x = None.
Proof. induction 1 as [|w x Hw _ IH]; [reflexivity|]. simpl. rewrite Hw, IH. reflexivity. Qed.

Lemma Forall_firstn {A} (P : A -> Prop) n l : Forall P l -> Forall P (firstn n l).
Proof. intros H. revert n. induction H; intros [|n]; simpl; constructor; auto. Qed.
Lemma Forall_skipn {A} (P : A -> Prop) n l : Forall P l -> Forall P (skipn n l).
Proof. intros H. revert n. induction H; intros [|n]; simpl; auto. Qed.

Lemma firstn_len_app {A} (a b : list A) n : firstn (length a + n) (a ++ b) = a ++ firstn n b.
Proof. apply firstn_app_2. Qed.

Lemma window_split {A} (l x y z : list A) a b : l = x ++ y ++ z -> a = length x -> b = length x + length y -> window a b l = y.
Proof.
  intros -> -> ->. unfold window. rewrite skipn_app, skipn_all, Nat.sub_diag. simpl.
  replace (length x + length y - length x) with (length y + 0) by lia. rewrite firstn_app_2. simpl. apply app_nil_r.
Qed.

Lemma split_at {A} (l : list A) n : n <= length l -> exists x y, l = x ++ y /\ length x = n.
Proof. intros H. exists (firstn n l), (skipn n l). rewrite firstn_skipn, firstn_length. split; [reflexivity | lia]. Qed.

(** [floor_char_boundary] finds the start of the character containing the index. *)
Lemma floor_spec s i : scalars s ->
  exists a b, s = a ++ b /\ floor_char_boundary (utf8 s) i = Some (length (utf8 a)) /\
    length (utf8 a) <= i /\ (i <= length (utf8 a) + 3 \/ b = []).
Proof.
  intros Hs. unfold floor_char_boundary. destruct (Nat.leb_spec (length (utf8 s)) i) as [L|L].
  { exists s, []. rewrite app_nil_r. auto. }
  destruct (locate s i L) as [a [c [b [E H]]]]. exists a, (c :: b). split; [exact E|].
  assert (Hc : scalar c = true).
  { rewrite E in Hs. apply Forall_app in Hs as [_ Hs]. inversion Hs; assumption. }
  destruct (char_shape c Hc) as [h [r [Ec [Hh [Hr Hl]]]]]. rewrite Ec in H. simpl length in H.
  set (k := i - length (utf8 a)). destruct (split_at r k ltac:(lia)) as [r1 [r2 [Er Hk]]].
  destruct (split_at (utf8 a) (i - 3) ltac:(lia)) as [a1 [a2 [Ea Ha]]].
  assert (Eu : utf8 s = a1 ++ (a2 ++ h :: r1) ++ (r2 ++ utf8 b)).
  { rewrite E, utf8_app, utf8_cons, Ec, Er, Ea. rewrite <- !app_assoc. simpl. rewrite <- !app_assoc. reflexivity. }
  rewrite (window_split _ a1 (a2 ++ h :: r1) (r2 ++ utf8 b)).
  2: exact Eu. 2: symmetry; exact Ha.
  2: { rewrite app_length. simpl. apply (f_equal (@length _)) in Ea. rewrite app_length in Ea. lia. }
  rewrite Er in Hr. apply Forall_app in Hr as [Hr _]. rewrite rposition_app by assumption.
  apply (f_equal (@length _)) in Ea. rewrite app_length in Ea. split; [f_equal; lia|]. split; [lia | left; lia].
Qed.

(** [ceil_char_boundary] finds the first character start at or after the index. *)
Lemma ceil_spec s i : scalars s -> i <= length (utf8 s) ->
  exists a b, s = a ++ b /\ ceil_char_boundary (utf8 s) i = length (utf8 a) /\
    i <= length (utf8 a) <= i + 3.
Proof.
  intros Hs Hi. unfold ceil_char_boundary.
  destruct (Nat.eq_dec i (length (utf8 s))) as [->|Hne].
  { exists s, []. rewrite app_nil_r. split; [reflexivity|]. rewrite Nat.min_r by lia.
    unfold window. rewrite Nat.sub_diag. simpl. lia. }
  destruct (locate s i ltac:(lia)) as [a [c [b [E H]]]].
  assert (Hc : scalar c = true /\ scalars b).
  { rewrite E in Hs. apply Forall_app in Hs as [_ Hs]. inversion Hs; auto. } destruct Hc as [Hc Hb].
  destruct (char_shape c Hc) as [h [r [Ec [Hh [Hr Hl]]]]].
  assert (Es : utf8 s = utf8 a ++ (h :: r) ++ utf8 b) by (rewrite E, utf8_app, utf8_cons, Ec; reflexivity).
  assert (Els : length (utf8 s) = length (utf8 a) + (S (length r) + length (utf8 b))) by (rewrite Es, !app_length; reflexivity).
  rewrite Ec in H; simpl length in H.
  set (ub := Nat.min (i + 4) (length (utf8 s))).
  destruct (Nat.eq_dec i (length (utf8 a))) as [Ei|Ei].
  - exists a, (c :: b). split; [exact E|].
    destruct (split_at (r ++ utf8 b) (ub - i - 1)) as [w [w' [Ew Hw]]]; [rewrite app_length; lia|].
    rewrite (window_split _ (utf8 a) (h :: w) w').
    2: { rewrite Es. simpl. rewrite Ew. reflexivity. } 2: exact Ei. 2: simpl; lia.
    change (h :: w) with ([] ++ h :: w). rewrite position_app; [|assumption|constructor]. simpl. lia.
  - (* the index is inside the character: skip to its end *)
    destruct (split_at r (i - length (utf8 a) - 1) ltac:(lia)) as [r1 [r2 [Er Hr1]]].
    assert (El : length r = length r1 + length r2) by (rewrite Er, app_length; reflexivity).
    rewrite Er in Hr. apply Forall_app in Hr as [_ Hr2].
    exists (a ++ [c]), b. split; [rewrite E, <- app_assoc; reflexivity|].
    assert (Ela : length (utf8 (a ++ [c])) = length (utf8 a) + S (length r)).
    { rewrite utf8_app, app_length, utf8_cons, Ec, app_length. simpl. lia. }
    rewrite Ela.
    assert (Eu : utf8 s = (utf8 a ++ h :: r1) ++ r2 ++ utf8 b).
    { rewrite Es, Er. rewrite <- !app_assoc. simpl. rewrite <- app_assoc. reflexivity. }
    destruct b as [|c2 b].
    + rewrite (window_split _ (utf8 a ++ h :: r1) r2 []).
      2: exact Eu. 2: rewrite app_length; simpl; lia. 2: { unfold ub. rewrite Els, app_length; simpl length; lia. }
      rewrite position_none by assumption. unfold ub. simpl utf8 in Els. simpl length in Els. split; lia.
    + assert (Hc2 : scalar c2 = true) by (inversion Hb; assumption). destruct (char_shape c2 Hc2) as [h2 [q [Ec2 [Hh2 _]]]].
      rewrite utf8_cons, Ec2 in Eu. rewrite utf8_cons, Ec2, app_length in Els. simpl length in Els.
      destruct (split_at (q ++ utf8 b) (ub - i - length r2 - 1)) as [w [w' [Ew Hw]]].
      { rewrite app_length; unfold ub. lia. }
      rewrite (window_split _ (utf8 a ++ h :: r1) (r2 ++ h2 :: w) w').
      2: { rewrite Eu. simpl. rewrite Ew. rewrite <- !app_assoc. reflexivity. }
      2: rewrite app_length; simpl; lia. 2: { rewrite !app_length; simpl length. unfold ub in *. lia. }
      rewrite position_app by assumption. lia.
Qed.

Lemma on_boundary_split a b : scalars (a ++ b) -> on_boundary (utf8 (a ++ b)) (length (utf8 a)) = true.
Proof.
  intros Hs. unfold on_boundary. rewrite utf8_app, app_length. destruct b as [|c b].
  - simpl. rewrite Nat.add_0_r, Nat.eqb_refl. reflexivity.
  - apply Forall_app in Hs as [_ Hs]. inversion Hs as [|? ? Hc _]; subst.
    destruct (char_shape c Hc) as [h [r [Ec [Hh _]]]]. rewrite utf8_cons, Ec.
    rewrite nth_error_app2 by lia. rewrite Nat.sub_diag. simpl. rewrite Hh. apply orb_true_r.
Qed.

Lemma firstn_length_app {A} (x y : list A) : firstn (length x) (x ++ y) = x.
Proof. replace (length x) with (length x + 0) by lia. rewrite firstn_app_2. simpl. apply app_nil_r. Qed.
Lemma skipn_length_app {A} (x y : list A) : skipn (length x) (x ++ y) = y.
Proof. rewrite skipn_app, skipn_all, Nat.sub_diag. reflexivity. Qed.

Lemma slice_to_split s a b : scalars s -> s = a ++ b -> slice_to (utf8 s) (length (utf8 a)) = Some (utf8 a).
Proof.
  intros Hs ->. unfold slice_to. rewrite on_boundary_split by assumption. rewrite utf8_app, firstn_length_app. reflexivity.
Qed.
Lemma slice_from_split s a b : scalars s -> s = a ++ b -> slice_from (utf8 s) (length (utf8 a)) = Some (utf8 b).
Proof.
  intros Hs ->. unfold slice_from. rewrite on_boundary_split by assumption. rewrite utf8_app, skipn_length_app. reflexivity.
Qed.

Lemma prefixes {A} (a b a' b' : list A) : a ++ b = a' ++ b' -> length a <= length a' -> exists m, a' = a ++ m /\ b = m ++ b'.
Proof.
  revert a'. induction a as [|x a IH]; intros a' E L; simpl in *.
  - exists a'. auto.
  - destruct a' as [|y a']; [simpl in L; lia|]. injection E as <- E. simpl in L.
    destruct (IH a' E ltac:(lia)) as [m [-> ->]]. exists m. auto.
Qed.

Lemma truncate_spec s max : scalars s -> 1 <= max -> max < length (utf8 s) ->
  exists pre mid suf, s = pre ++ mid ++ suf /\
    write_truncated (utf8 s) max = Some (utf8 pre ++ lit "..." ++ utf8 suf) /\
    let half := (max + 1) / 2 in
    length (utf8 pre) <= half <= length (utf8 pre) + 3 /\
    length (utf8 suf) <= half - 1 <= length (utf8 suf) + 3.
Proof.
  intros Hs Hm Hl. unfold write_truncated. apply Nat.ltb_lt in Hl as Hl'. rewrite Hl'.
  set (half := (max + 1) / 2). 
  assert (Hh : 1 <= half /\ 2 * half <= max + 1).
  { split; [apply Nat.div_le_lower_bound; lia | apply Nat.mul_div_le; lia]. }
  clearbody half. destruct half as [|m]; [lia|].
  destruct (floor_spec s (S m) Hs) as [a [b [E1 [F1 [L1 L2]]]]]. rewrite F1.
  destruct (ceil_spec s (length (utf8 s) - m) Hs ltac:(lia)) as [a' [b' [E2 [F2 L3]]]]. rewrite F2.
  assert (La : length (utf8 s) = length (utf8 a) + length (utf8 b)) by (rewrite E1 at 1; rewrite utf8_app, app_length; reflexivity).
  assert (La' : length (utf8 s) = length (utf8 a') + length (utf8 b')) by (rewrite E2 at 1; rewrite utf8_app, app_length; reflexivity).
  rewrite (slice_to_split s a b Hs E1), (slice_from_split s a' b' Hs E2).
  assert (Hb : b <> []) by (intros ->; simpl in La; lia).
  assert (Hpre : exists m0, a' = a ++ m0 /\ b = m0 ++ b').
  { assert (LL : length (utf8 a) <= length (utf8 a')) by lia.
    destruct (Nat.le_gt_cases (length a) (length a')) as [G|G]; [apply (prefixes a b a' b'); congruence|].
    destruct (prefixes a' b' a b ltac:(congruence) ltac:(lia)) as [m0 [-> ->]].
    rewrite app_length in G. rewrite utf8_app, app_length in LL.
    destruct m0 as [|c0 m0]; [simpl in G; lia|].
    assert (length (utf8_char c0) >= 1) by (unfold utf8_char; repeat destruct (_ <? _)%N; simpl; lia).
    rewrite utf8_cons, app_length in LL. lia. }
  destruct Hpre as [m0 [-> ->]]. exists a, m0, b'. split; [exact E1|]. split; [reflexivity|].
  cbv zeta. destruct L2 as [L2|L2]; [|contradiction]. lia.
Qed.

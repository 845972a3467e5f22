From Coq Require Import List NArith ZArith Bool Lia.
From Verif Require Import Base Float64 IntParse IntParseProofs Numbers NumbersSpec NumbersProofs BytesCodec Values VState LookupKey Collections Child Inputs Scalars Literal Wrappers Union TaggedUnion Tuple ModelFields TypedDict Assign Arguments Classes Interp InterpSpec InterpProofs ConformSpec ConformProofs ConformProofs2.
Import ListNotations.
Open Scope nat_scope.

Lemma somes_app A (l m : list (option A)) : somes (l ++ m) = somes l ++ somes m.
Proof. apply flat_map_app. Qed.

Lemma skipn_S A k (l : list A) x m : skipn k l = x :: m -> skipn (S k) l = m.
Proof. revert l. induction k as [|k IH]; intros l H; destruct l as [|y l]; try discriminate; cbn in *; [congruence|]. now apply IH. Qed.

Section TupleOk.
Variable strings : bool.
Variable ev : schema -> cv.
Variable P : schema -> pyval -> Prop.
Variables O D : schema -> Prop.
Variable xs : list schema.
Hypothesis Hv : forall x, In x xs -> vok strings (P x) (O x) (cv_validate (ev x)).
Hypothesis Hd : forall x, In x xs -> dok (P x) (O x) (D x) (cv_default (ev x)).
Hypothesis Hn : forall x, In x xs -> cvne (ev x).
Variable c : tuple_cfg. Variable i : input. Variable actual : option nat.

Definition slots_ok (used : list schema) (slots : list (schema * option pyval)) : Prop :=
  map fst slots = used /\ (forall x v, In (x, Some v) slots -> P x v) /\ (forall x, In (x, None) slots -> O x).
Lemma slots_snoc used slots x o : slots_ok used slots -> match o with Some v => P x v | None => O x end -> slots_ok (used ++ [x]) (slots ++ [(x, o)]).
Proof.
  intros (A & B & C) H. split; [|split].
  - rewrite map_app, A. reflexivity.
  - intros y v Y. apply in_app_or in Y. destruct Y as [Y|[[= -> ->]|[]]]; auto.
  - intros y Y. apply in_app_or in Y. destruct Y as [Y|[[= -> ->]|[]]]; auto.
Qed.
Record tinv (used : list schema) (a : tacc) : Prop := {
  ti_slots : ta_errs a <> [] \/ exists slots, slots_ok used slots /\ ta_out a = somes (map snd slots);
  ti_max : forall m, tu_max c = Some m -> (forall x, In x xs -> ~ D x) -> length (ta_out a) <= m;
  ti_items : Forall (item_allowed strings) (ti_rest (ta_iter a)) }.
Definition omits : Prop := exists x, In x xs /\ O x.
Definition tk (Q : tacc -> Prop) (r : tres) : Prop := match r with TDone a => Q a | TFail Omit _ => omits | TFail _ _ => True end.

Lemma next_allowed it : Forall (item_allowed strings) (ti_rest it) ->
  Forall (item_allowed strings) (ti_rest (snd (ti_next it))) /\ forall x, fst (ti_next it) = Some x -> allowed strings x.
Proof.
  unfold ti_next. intros H. destruct (ti_rest it) as [|[x|e] r]; cbn; inversion H; subst; (split; [auto|try discriminate]). intros y [= <-]. assumption.
Qed.
Lemma take_allowed n : forall it, Forall (item_allowed strings) (ti_rest it) ->
  Forall (item_allowed strings) (ti_rest (snd (ti_take n it))) /\ Forall (allowed strings) (fst (ti_take n it)).
Proof.
  induction n as [|n IH]; intros it H; cbn [ti_take]; [split; [exact H|constructor]|]. destruct (next_allowed it H) as [A B]. destruct (ti_next it) as [[x|] it']; cbn in A, B; [|split; [exact A|constructor]].
  destruct (IH it' A) as [C E]. destruct (ti_take n it') as [ys it'']. split; [exact C|]. constructor; [now apply B|exact E].
Qed.
Lemma move_inv used a it : tinv used a -> Forall (item_allowed strings) (ti_rest it) -> tinv used (ta_move it a).
Proof. intros [A B C] H. constructor; [exact A|exact B|exact H]. Qed.

Lemma use_item_ok used x ix r a : In x xs -> vk (P x) (O x) (fst r) -> ne (fst r) -> tinv used a -> tk (tinv (used ++ [x])) (use_item c i actual ix r a).
Proof.
  intros IX K N [A B C]. destruct r as [[v|[es|e| | |]] s]; try exact I; cbn in K, N.
  - unfold use_item, push_output_item.
    assert (S : ta_errs a <> [] \/ exists slots, slots_ok (used ++ [x]) slots /\ ta_out a ++ [v] = somes (map snd slots)).
    { destruct A as [A|(slots & A1 & A2)]; [now left|right]. exists (slots ++ [(x, Some v)]). split; [now apply slots_snoc|]. rewrite map_app, somes_app, A2. reflexivity. }
    destruct (tu_max c) as [m|] eqn:M.
    + destruct (m <? _) eqn:L; [exact I|]. constructor; [exact S| |exact C]. intros m' X _. rewrite M in X. injection X as <-. now apply Nat.ltb_ge.
    + constructor; [exact S| |exact C]. intros m' X. rewrite M in X. discriminate.
  - cbn. constructor; [|exact B|exact C]. left. cbn. now apply app_not_nil, map_not_nil.
  - cbn. constructor; [|exact B|exact C]. destruct A as [A|(slots & A1 & A2)]; [now left|right]. exists (slots ++ [(x, None)]). split; [now apply slots_snoc|]. rewrite map_app, somes_app, A2. cbn. now rewrite app_nil_r.
Qed.
Lemma stopped used more a : tinv used a -> stop_now c a = true -> tinv more a.
Proof.
  intros [A B C] S. constructor; [|exact B|exact C]. left. unfold stop_now in S. apply andb_true_iff in S. destruct S as [_ S]. destruct (ta_errs a); [discriminate|discriminate].
Qed.
Lemma tuple_items_ok ys : incl ys xs -> forall used a, tinv used a -> tk (tinv (used ++ ys)) (tuple_items c i actual (map ev ys) a).
Proof.
  induction ys as [|x ys IH]; intros IN used a T; cbn [tuple_items map]; [now rewrite app_nil_r|].
  assert (IX : In x xs) by (apply IN; now left). assert (IN' : incl ys xs) by (intros y Y; apply IN; now right).
  match goal with |- tk _ (match ?st with TDone _ => _ | TFail _ _ => _ end) => assert (S : tk (tinv (used ++ [x])) st) end.
  { pose proof (next_allowed (ta_iter a) (ti_items _ _ T)) as [A B]. destruct (ti_next (ta_iter a)) as [[y|] it']; cbn in A, B.
    - apply use_item_ok; [exact IX|apply Hv; auto|apply Hn; auto|]. now apply move_inv.
    - pose proof (Hd x IX (Some (index_loc (ta_count (ta_move it' a) - 1))) (ta_state a)) as K.
      destruct (cv_default (ev x) _ (ta_state a)) as [[[v|]|e] s]; cbn in K.
      + destruct K as [K1 K2]. destruct T as [T1 T2 T3]. constructor; [|intros m M ND; exfalso; exact (ND _ IX K2)|exact A]. cbn.
        destruct T1 as [T1|(slots & A1 & A2)]; [now left|right]. exists (slots ++ [(x, Some v)]). split; [now apply slots_snoc|]. rewrite map_app, somes_app, A2. reflexivity.
      + destruct T as [T1 T2 T3]. constructor; [|exact T2|exact A]. left. cbn. apply app_not_nil. discriminate.
      + destruct e; try exact I. exists x. auto. }
  match goal with |- tk _ (match ?st with TDone _ => _ | TFail _ _ => _ end) => destruct st as [a'|e s] end; [|exact S]. cbn in S.
  destruct (stop_now c a') eqn:SN; [exact (stopped _ _ _ S SN)|]. specialize (IH IN' _ _ S). rewrite <- app_assoc in IH. exact IH.
Qed.
Lemma tuple_rest_ok x rest : In x xs -> forall used a, tinv used a -> Forall (item_allowed strings) rest ->
  tk (fun a' => exists n, tinv (used ++ repeat x n) a') (tuple_rest c i actual (ev x) rest a).
Proof.
  intros IX. induction rest as [|it rest IH]; intros used a T F; cbn [tuple_rest].
  - exists 0. cbn. rewrite app_nil_r. apply move_inv; [exact T|]. apply next_allowed, T.
  - inversion F as [|? ? F1 F2]; subst. assert (A : Forall (item_allowed strings) (ti_rest (snd (ti_next (ta_iter a))))) by (apply next_allowed, T).
    destruct it as [y|e]; [|exists 0; cbn; rewrite app_nil_r; apply move_inv; [exact T|exact A]].
    pose proof (use_item_ok used x (ta_count a) (cv_validate (ev x) y (ta_state a)) (ta_move (snd (ti_next (ta_iter a))) a) IX (Hv x IX _ _ F1) (proj1 (Hn x IX) _ _) (move_inv _ _ _ T A)) as U.
    destruct (use_item _ _ _ _ _ _) as [a'|e s]; [|exact U]. cbn in U.
    destruct (stop_now c a'); [exists 1; exact U|]. specialize (IH _ _ U F2). destruct (tuple_rest _ _ _ _ _ _) as [a2|]; [|exact IH]. destruct IH as [n IH]. exists (S n). cbn. now rewrite <- app_assoc in IH.
Qed.
Lemma tuple_buffered_ok x rest : In x xs -> forall used buf ix a, tinv used a -> Forall (item_allowed strings) rest -> Forall (allowed strings) buf ->
  match tuple_buffered c i actual (ev x) rest buf ix a with
  | BReturn r => tk (fun a' => exists n, tinv (used ++ repeat x n) a' /\ stop_now c a' = true) r
  | BEnd a' buf' _ => (exists n, tinv (used ++ repeat x n) a') /\ Forall (allowed strings) buf' end.
Proof.
  intros IX. induction rest as [|it rest IH]; intros used buf ix a T F B; cbn [tuple_buffered].
  - split; [|exact B]. exists 0. cbn. rewrite app_nil_r. apply move_inv; [exact T|]. apply next_allowed, T.
  - inversion F as [|? ? F1 F2]; subst. assert (A : Forall (item_allowed strings) (ti_rest (snd (ti_next (ta_iter a))))) by (apply next_allowed, T).
    destruct it as [y|e]; [|split; [|exact B]; exists 0; cbn; rewrite app_nil_r; apply move_inv; [exact T|exact A]].
    assert (BB : Forall (allowed strings) (buf ++ [y])) by (apply Forall_app; split; [exact B|constructor; [exact F1|constructor]]).
    destruct (buf ++ [y]) as [|z buf']; [exact I|]. inversion BB as [|? ? Z BF]; subst.
    pose proof (use_item_ok used x (ta_count a) (cv_validate (ev x) z (ta_state a)) (ta_move (snd (ti_next (ta_iter a))) a) IX (Hv x IX _ _ Z) (proj1 (Hn x IX) _ _) (move_inv _ _ _ T A)) as U.
    destruct (use_item _ _ _ _ _ _) as [a'|e s]; [|exact U]. cbn in U.
    destruct (stop_now c a') eqn:SN; [exists 1; split; [exact U|exact SN]|]. specialize (IH _ buf' (ta_count a) _ U F2 BF). destruct (tuple_buffered _ _ _ _ _ _ _) as [a2 b2 i2|r].
    + destruct IH as [[n IH] Q]. split; [|exact Q]. exists (S n). cbn. now rewrite <- app_assoc in IH.
    + destruct r as [a2|]; [|exact IH]. destruct IH as (n & IH & Q). exists (S n). cbn. rewrite <- app_assoc in IH. now split.
Qed.
Lemma tuple_variable_ok a : tu_validators c = map ev xs -> tinv [] a -> tk (fun a' => exists n, tinv (expanded xs (tu_variadic c) n) a') (tuple_variable c i actual a).
Proof.
  intros E T. unfold tuple_variable, expanded. rewrite E. destruct (tu_variadic c) as [k|].
  - rewrite skipn_map, firstn_map. destruct (skipn k xs) as [|x tail] eqn:S; [exact I|]. cbn [map].
    assert (NE : nth_error xs k = Some x). { rewrite <- (firstn_skipn k xs), S. assert (L : k <= length xs). { destruct (Nat.le_gt_cases k (length xs)) as [L|L]; [exact L|]. rewrite skipn_all2 in S; [discriminate|lia]. }
      rewrite nth_error_app2; rewrite firstn_length_le by exact L; [|lia]. now rewrite Nat.sub_diag. }
    assert (SK : skipn (Datatypes.S k) xs = tail). { exact (skipn_S _ k xs x tail S). }
    rewrite NE, SK.
    assert (I1 : incl (firstn k xs) xs). { intros y Y. rewrite <- (firstn_skipn k xs). apply in_or_app. now left. }
    assert (I2 : incl (x :: tail) xs). { intros y Y. rewrite <- (firstn_skipn k xs), S. apply in_or_app. now right. }
    assert (I3 : incl tail xs). { intros y Y. apply I2. now right. }
    assert (IX : In x xs) by (apply I2; now left).
    pose proof (tuple_items_ok _ I1 _ _ T) as T1. destruct (tuple_items _ _ _ _ _) as [a1|]; [|exact T1]. cbn [tk] in T1. rewrite app_nil_l in T1.
    destruct (stop_now c a1) eqn:SN; [exists 0; exact (stopped _ _ _ T1 SN)|].
    destruct tail as [|y tail']; cbn [map].
    + pose proof (tuple_rest_ok x (ti_rest (ta_iter a1)) IX _ _ T1 (ti_items _ _ T1)) as R. destruct (tuple_rest _ _ _ _ _ _) as [a2|]; [|exact R]. destruct R as [n R]. exists n. now rewrite app_nil_r.
    + rewrite <- map_cons. rewrite map_length. set (tl := y :: tail') in *.
      destruct (take_allowed (length tl) (ta_iter a1) (ti_items _ _ T1)) as [TA TB]. destruct (ti_take (length tl) (ta_iter a1)) as [buf it]. cbn [fst snd] in TA, TB.
      set (a2 := {| ta_out := ta_out a1; ta_errs := ta_errs a1; ta_count := ta_count a1; ta_iter := it; ta_state := ta_state a1 |}).
      assert (T2 : tinv (firstn k xs) a2) by (destruct T1 as [X Y Z]; constructor; [exact X|exact Y|exact TA]).
      pose proof (tuple_buffered_ok x (ti_rest it) IX _ buf (ta_count a2) a2 T2 TA TB) as B.
      destruct (tuple_buffered _ _ _ _ _ _ _) as [a3 buf' ix|r].
      * destruct B as [[n B1] B2].
        set (a3' := {| ta_out := ta_out a3; ta_errs := ta_errs a3; ta_count := ix; ta_iter := {| ti_rest := map It buf'; ti_pos := 0; ti_err := None |}; ta_state := ta_state a3 |}).
        assert (T3 : tinv (firstn k xs ++ repeat x n) a3').
        { destruct B1 as [X Y Z]. constructor; [exact X|exact Y|]. cbn. apply Forall_map_in. intros z Z'. rewrite Forall_forall in B2. exact (B2 _ Z'). }
        pose proof (tuple_items_ok _ I3 _ _ T3) as T4. destruct (tuple_items _ _ _ _ _) as [a4|]; [|exact T4]. exists n. rewrite app_assoc. destruct T4 as [X Y Z]. constructor; [exact X|exact Y|]. apply B1.
      * destruct r as [a3|]; [|exact B]. destruct B as (n & B1 & B2). exists n. exact (stopped _ _ _ B1 B2).
  - pose proof (tuple_items_ok xs (incl_refl _) _ _ T) as T1. destruct (tuple_items _ _ _ _ _) as [a1|]; [|exact T1]. cbn [tk] in T1. rewrite app_nil_l in T1.
    destruct (stop_now c a1) eqn:SN; [exists 0; exact T1|]. pose proof (next_allowed (ta_iter a1) (ti_items _ _ T1)) as [A _]. destruct (ti_next (ta_iter a1)) as [[y|] it]; [exact I|]. exists 0. now apply move_inv.
Qed.
End TupleOk.

Lemma tuple_ok strings ev P O D xs c vt :
  (forall x, In x xs -> vok strings (P x) (O x) (cv_validate (ev x))) -> (forall x, In x xs -> dok (P x) (O x) (D x) (cv_default (ev x))) -> (forall x, In x xs -> cvne (ev x)) ->
  tu_validators c = map ev xs -> (forall b i sq, vt b i = VOk sq -> seq_allowed strings sq) -> (forall b i, no (vt b i)) ->
  vok strings (fun v => exists (slots : list (schema * option pyval)) n, map fst slots = expanded xs (tu_variadic c) n /\
    (forall sc v, In (sc, Some v) slots -> P sc v) /\ (forall sc, In (sc, None) slots -> O sc) /\
    (forall m, tu_min c = Some m -> m <= length (somes (map snd slots))) /\
    (forall m, tu_max c = Some m -> (forall sc, In sc xs -> ~ D sc) -> length (somes (map snd slots)) <= m) /\
    v = PTuple (somes (map snd slots))) (exists x, In x xs /\ O x) (tuple_validate c vt).
Proof.
  intros Hv Hd Hn E HA HN i s A. unfold tuple_validate. cbv zeta. set (s0 := set_partial PartialOff s).
  specialize (HN (strict_or s0 (tu_strict c)) i). destruct (vt _ i) as [sq|e] eqn:L; [|destruct e; try exact I; destruct HN]. specialize (HA _ _ _ L).
  set (a0 := {| ta_out := []; ta_errs := []; ta_count := 0; ta_iter := {| ti_rest := sq_items sq; ti_pos := 0; ti_err := None |}; ta_state := floor_exactness (sq_exactness sq) s0 |}).
  assert (T : tinv strings P O D xs c [] a0).
  { constructor; [|cbn; lia|exact HA]. right. exists []. split; [|reflexivity]. split; [reflexivity|]. split; [intros ? ? []|intros ? []]. }
  pose proof (tuple_variable_ok strings ev P O D xs Hv Hd Hn c i (sq_len sq) a0 E T) as R. destruct (tuple_variable c i (sq_len sq) a0) as [a|e s']; [|destruct e; try exact I; exact R].
  destruct R as [n R]. destruct (ti_err (ta_iter a)); [exact I|]. destruct (is_nil _) eqn:N; [|exact I].
  assert (Z : ta_errs a = [] /\ forall m, tu_min c = Some m -> m <= length (ta_out a)).
  { match type of N with is_nil ?l = true => assert (N' : l = []) by (destruct l; [reflexivity|discriminate]) end. apply app_eq_nil in N'. destruct N' as [N1 N2]. split; [exact N1|].
    intros m M. rewrite M in N2. destruct (_ <? m) eqn:Q; [discriminate|]. now apply Nat.ltb_ge. }
  destruct Z as [Z1 Z2]. destruct R as [[R1|(slots & (R1 & R2 & R3) & R4)] RM _]; [contradiction|].
  exists slots, n. rewrite <- R4. auto 10.
Qed.

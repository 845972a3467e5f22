(** C12 - C17, C60: lists, sets and dicts over arbitrary child validators. *)
From Coq Require Import List NArith ZArith Bool Lia.
From Verif Require Import Base Float64 Values VState Collections CollectionsSpec CollectionsProofs.
Import ListNotations.
Open Scope nat_scope.
Local Arguments Nat.ltb : simpl never.

Lemma min_check_none c i mn n : min_check c i mn n = None <-> at_least mn n.
Proof. unfold min_check, at_least. destruct mn as [m|]; [|tauto]. destruct (Nat.ltb_spec n m); split; try discriminate; try reflexivity; lia. Qed.
Lemma max_check_none c i mx n : max_check_err c i mx n = None <-> within mx n.
Proof. unfold max_check_err, within. destruct mx as [m|]; [|tauto]. destruct (Nat.ltb_spec m n); split; try discriminate; try reflexivity; lia. Qed.

(** C12: a list schema succeeds iff the input is a list, every item validates (or
    is omitted, or is the forgiven last item of a partial input) and the length
    rules hold; the output is exactly the item results in order. *)
Theorem C12_list_success : forall c child vl i s v s', nonempty_errors child ->
  (list_validate c (Some child) vl i s = (VOk v, s') <->
   exists sq xs rs, vl (strict_or s (co_strict c)) i = VOk sq /\ sq_items sq = map It xs /\
     trace child (st_partial s) xs (floor_exactness (sq_exactness sq) s) = (rs, s') /\
     Forall regular rs /\
     (forall k es, nth_error rs k = Some (VErr (LineErrors es)) -> forgiven (st_partial s) k (length rs)) /\
     within (co_max c) (counted rs) /\ at_least (co_min c) (length (values rs)) /\
     v = PList (values rs)).
Proof.
  intros c child vl i s v s' Ne. unfold list_validate. destruct (vl _ i) as [sq|e]; [|split; [discriminate|intros (? & ? & ? & ? & _); discriminate]].
  set (s0 := floor_exactness _ s).
  assert (P : st_partial s0 = st_partial s) by (unfold s0, floor_exactness; destruct (st_exactness s) as [[| |]|]; try reflexivity; destruct (sq_exactness sq); reflexivity).
  set (mc := Build_max_check _ _ _ _ _).
  pose proof (fun o s1 => vec_success child (co_fail_fast c) mc (sq_items sq) s0 o s1 Ne eq_refl) as V. rewrite P in V.
  destruct (validate_iter_to_vec child (co_fail_fast c) mc (sq_items sq) s0) as [[out|e] s1] eqn:E.
  - destruct (proj1 (V out s1) eq_refl) as (xs & rs & I1 & T & R & W & O & F).
    destruct (min_check CList i (co_min c) (length out)) eqn:M.
    + split; [discriminate|]. intros (sq' & xs' & rs' & H1 & H2 & H3 & H4 & H5 & H6 & H7 & H8). injection H1 as <-.
      rewrite I1 in H2. assert (xs = xs') by (clear - H2; revert xs' H2; induction xs as [|a xs IH]; intros [|b xs'] H; try discriminate; [reflexivity|]; injection H as -> H; f_equal; auto).
      subst xs'. assert (Es : rs = rs') by (fold s0 in H3; rewrite T in H3; congruence). subst rs' out.
      apply min_check_none with (c := CList) (i := i) in H7. congruence.
    + apply min_check_none in M. split.
      * intros H. injection H as <- <-. exists sq, xs, rs. rewrite O. subst out. auto 10.
      * intros (sq' & xs' & rs' & H1 & H2 & H3 & H4 & H5 & H6 & H7 & H8). injection H1 as <-.
        rewrite I1 in H2. assert (xs = xs') by (clear - H2; revert xs' H2; induction xs as [|a xs IH]; intros [|b xs'] H; try discriminate; [reflexivity|]; injection H as -> H; f_equal; auto).
        subst xs'. fold s0 in H3. rewrite T in H3. injection H3 as <- <-. subst. reflexivity.
  - split; [discriminate|]. intros (sq' & xs' & rs' & H1 & H2 & H3 & H4 & H5 & H6 & H7 & H8). injection H1 as <-.
    assert (X : (VErr e, s1) = (VOk (values rs'), s')) by (apply V; exists xs', rs'; auto 10). discriminate X.
Qed.
Print Assumptions C12_list_success.

(** C12: without an items schema the list is copied. *)
Theorem C12_untyped_list : forall c vl i s v s',
  list_validate c None vl i s = (VOk v, s') ->
  exists sq xs, vl (strict_or s (co_strict c)) i = VOk sq /\
    (sq_py_list sq = false -> sq_items sq = map It xs /\ v = PList (map input_object xs)) /\
    (sq_py_list sq = true -> v = PList (items_of (sq_items sq))) /\
    (exists l, v = PList l /\ within (co_max c) (length l) /\ at_least (co_min c) (length l)).
Proof.
  intros c vl i s v s' H. unfold list_validate in H. destruct (vl _ i) as [sq|e]; [|discriminate]. exists sq.
  destruct (sq_py_list sq) eqn:Ep.
  - exists []. destruct (min_check CList i (co_min c) _) eqn:M; [discriminate|]. destruct (max_check_err CList i (co_max c) _) eqn:X; [discriminate|].
    injection H as <- <-. apply min_check_none in M. apply max_check_none in X. repeat split; try discriminate; eauto.
  - set (mc := Build_max_check _ _ _ _ _) in H.
    assert (L : forall items mc0 k out, room mc0 0 -> no_validator_loop mc0 i k items = VOk out ->
              exists xs, items = map It xs /\ out = map input_object xs /\ room mc0 (length out)).
    { induction items as [|it items IH]; intros mc0 k out Rm E; cbn in E.
      - injection E as <-. exists []. repeat split; assumption.
      - destruct it as [x|ex]; [|discriminate]. destruct (mc_incr mc0) as [[u|er] mc1] eqn:I1; [|discriminate].
        apply incr_inv in I1 as [R1 ->]. destruct (no_validator_loop _ i (S k) items) as [vs|er] eqn:E1; [|discriminate].
        injection E as <-. destruct (IH _ _ _ (proj2 (room_split mc0 1 0 R1)) E1) as (xs & -> & -> & R2).
        exists (x :: xs). repeat split. cbn [length]. apply (room_join mc0 1); assumption. }
    destruct (no_validator_loop mc i 0 (sq_items sq)) as [out|er] eqn:E; [|discriminate].
    destruct (min_check CList i (co_min c) (length out)) eqn:M; [discriminate|]. injection H as <- <-.
    apply L in E; [|unfold room, mc; cbn; destruct (co_max c); cbn; auto; lia].
    destruct E as (xs & Hi & -> & Rm). apply min_check_none in M. exists xs. repeat split; auto; try discriminate.
    exists (map input_object xs). unfold room, mc in Rm. cbn in Rm. repeat split; assumption.
Qed.
Print Assumptions C12_untyped_list.

(** C13: without fail_fast, when no item stops the validation (internal error,
    length limit), the errors are exactly those of the failing items, in order,
    each located under its item's index. *)
Theorem C13_errors_complete : forall child mc xs s rs s',
  mc_current mc = 0 -> trace child (st_partial s) xs s = (rs, s') -> Forall regular rs -> within (mc_max mc) (counted rs) ->
  validate_iter_to_vec child false mc (map It xs) s =
  (match located (st_partial s) 0 rs with [] => VOk (values rs) | es => VErr (LineErrors es) end, s').
Proof.
  intros child mc xs s rs s' M T R W. unfold validate_iter_to_vec, enumerate_last_partial.
  rewrite (vec_loop_run child false _ xs 0 mc [] [] s rs s' T R); [|discriminate|unfold room; rewrite M; assumption].
  unfold finish. cbn [app]. destruct (located (st_partial s) 0 rs); reflexivity.
Qed.
Print Assumptions C13_errors_complete.

(** C13: reading the error list: an error is reported iff it is some failing item's
    error with the item's index put in front of its location. *)
Theorem C13_error_location : forall p rs e,
  In e (located p 0 rs) <->
  exists k es e0, nth_error rs k = Some (VErr (LineErrors es)) /\ ~ forgiven p k (length rs) /\ In e0 es /\
    le_type e = le_type e0 /\ le_input e = le_input e0 /\ e = with_outer (LInt (Z.of_nat k)) e0 /\
    loc_path (le_loc e) = LInt (Z.of_nat k) :: loc_path (le_loc e0).
Proof.
  intros p rs e.
  assert (G : forall rs n, In e (located p n rs) <->
    exists k es e0, nth_error rs k = Some (VErr (LineErrors es)) /\ ~ forgiven p k (length rs) /\ In e0 es /\ e = with_outer (LInt (Z.of_nat (n + k))) e0).
  { clear rs. induction rs as [|r rs IH]; intros n; cbn [located].
    - split; [contradiction|]. intros ([|k] & es & e0 & H & _); discriminate.
    - rewrite in_app_iff, IH. split.
      + intros [H|H].
        * destruct r as [v|[es| | | |]]; try contradiction.
          destruct (is_active p && _) eqn:L; [contradiction|]. apply in_map_iff in H as (e0 & <- & H0).
          exists 0, es, e0. rewrite Nat.add_0_r. repeat split; auto. intros [A B]. cbn in B. destruct rs; [|discriminate B]. rewrite A in L. discriminate.
        * destruct H as (k & es & e0 & H1 & H2 & H3 & H4). exists (S k), es, e0. rewrite Nat.add_succ_r. repeat split; auto.
          intros [A B]. apply H2. split; [assumption|]. cbn in B. lia.
      + intros ([|k] & es & e0 & H1 & H2 & H3 & H4).
        * left. cbn in H1. injection H1 as ->. destruct (is_active p && _) eqn:L.
          -- exfalso. apply H2. apply andb_true_iff in L as [L1 L2]. split; [assumption|]. destruct rs; [reflexivity|discriminate].
          -- apply in_map_iff. exists e0. rewrite Nat.add_0_r in H4. auto.
        * right. exists k, es, e0. rewrite Nat.add_succ_r in H4. repeat split; auto.
          intros [A B]. apply H2. split; [assumption|]. cbn. lia. }
  rewrite G. split.
  - intros (k & es & e0 & H1 & H2 & H3 & ->). exists k, es, e0. cbn [Nat.add]. destruct (with_outer_path (LInt (Z.of_nat k)) e0) as (P1 & P2 & P3). auto 10.
  - intros (k & es & e0 & H1 & H2 & H3 & H4 & H5 & H6 & H7). exists k, es, e0. auto.
Qed.
Print Assumptions C13_error_location.

(** C13: an internal error (or a request for the default) of the first item that
    raises one is returned unchanged, whatever the later items. *)
Theorem C13_other_errors_escape : forall child ff mc pre x post s rs s1 e s2,
  mc_current mc = 0 -> trace child PartialOff pre s = (rs, s1) -> Forall regular rs ->
  (ff = true -> forall es, ~ In (VErr (LineErrors es)) rs) -> within (mc_max mc) (counted rs) ->
  later (st_partial s) post -> child x (set_partial PartialOff s1) = (VErr e, s2) -> ~ regular (VErr e) ->
  validate_iter_to_vec child ff mc (map It pre ++ It x :: post) s = (VErr e, s2).
Proof.
  intros child ff mc pre x post s rs s1 e s2 M T R F W L C N. unfold validate_iter_to_vec, enumerate_last_partial.
  rewrite (vec_prefix child ff _ pre 0 mc [] [] s rs s1 (It x) post T R F); [|unfold room; rewrite M; assumption].
  cbn [enumerate_from vec_loop]. rewrite (later_mode _ _ L), C. destruct e as [es| | | |]; try reflexivity; exfalso; apply N; exact Logic.I.
Qed.
Print Assumptions C13_other_errors_escape.

(** C14: with fail_fast the errors are exactly those of the first failing item;
    outcome and state do not depend on what follows, i.e. nothing later is looked
    at. *)
Theorem C14_fail_fast : forall child mc pre x post s rs s1 es s2,
  mc_current mc = 0 -> trace child PartialOff pre s = (rs, s1) -> Forall regular rs ->
  (forall es, ~ In (VErr (LineErrors es)) rs) -> within (mc_max mc) (S (counted rs)) ->
  later (st_partial s) post -> child x (set_partial PartialOff s1) = (VErr (LineErrors es), s2) ->
  validate_iter_to_vec child true mc (map It pre ++ It x :: post) s =
  (VErr (LineErrors (map (with_outer (LInt (Z.of_nat (length pre)))) es)), s2).
Proof.
  intros child mc pre x post s rs s1 es s2 M T R F W L C. unfold validate_iter_to_vec, enumerate_last_partial.
  assert (W' : room mc (counted rs + 1)) by (unfold room; rewrite M, Nat.add_1_r; assumption).
  apply room_split in W' as [W1 W2].
  rewrite (vec_prefix child true _ pre 0 mc [] [] s rs s1 (It x) post T R (fun _ => F) W1).
  cbn [enumerate_from vec_loop]. rewrite (later_mode _ _ L), C, (incr_ok _ W2).
  assert (Hn : located PartialOff 0 rs = []).
  { assert (G : forall n l, (forall es, ~ In (VErr (LineErrors es)) l) -> located PartialOff n l = []).
    { intros n l. revert n. induction l as [|r l IH]; intros n H; cbn; [reflexivity|]. rewrite IH by (intros es0 Hi; apply (H es0); right; assumption).
      rewrite app_nil_r. destruct r as [v|[es0| | | |]]; try reflexivity. exfalso. apply (H es0). left. reflexivity. }
    apply G. assumption. }
  rewrite Hn. cbn [app]. unfold index_loc. rewrite Nat.add_0_l. reflexivity.
Qed.
Print Assumptions C14_fail_fast.

(** C14, sets: the same (an unhashable value is a failing item too). *)
Theorem C14_set_fail_fast : forall child c i0 mx pre x post s rs s1 es s2,
  trace (hashing child) PartialOff pre s = (rs, s1) -> Forall regular rs ->
  (forall es, ~ In (VErr (LineErrors es)) rs) -> within mx (length (values rs)) ->
  later (st_partial s) post -> hashing child x (set_partial PartialOff s1) = (VErr (LineErrors es), s2) -> es <> [] ->
  validate_iter_to_set child true c i0 mx (map It pre ++ It x :: post) s =
  (VErr (LineErrors (map (with_outer (LInt (Z.of_nat (length pre)))) es)), s2).
Proof.
  intros child c i0 mx pre x post s rs s1 es s2 T R F W L C N. unfold validate_iter_to_set, enumerate_last_partial.
  assert (G : forall pre i set s rs, trace (hashing child) PartialOff pre s = (rs, s1) -> Forall regular rs ->
    (forall es, ~ In (VErr (LineErrors es)) rs) -> forall p, within mx (length set + length (values rs)) -> later p post ->
    set_loop child true c i0 mx p set [] (enumerate_from (is_active p) i (map It pre ++ It x :: post)) s =
    (VErr (LineErrors (map (with_outer (LInt (Z.of_nat (i + length pre)))) es)), s2)).
  { clear s T L. clear R F W rs pre. induction pre as [|y pre IH]; intros i set s rs T R F p W L.
    - cbn in T. injection T as <- <-. cbn [map app enumerate_from set_loop length]. rewrite (later_mode _ _ L), validate_add_hashing, C, Nat.add_0_r. cbn [app]. unfold index_loc.
      destruct es; [congruence|reflexivity].
    - cbn [trace] in T. destruct (hashing child y _) as [r s0] eqn:Cy. destruct (trace (hashing child) PartialOff pre s0) as [rs1 s3] eqn:T1.
      injection T as <- <-. inversion R as [|? ? R1 R2]; subst.
      cbn [map app enumerate_from set_loop].
      assert (La : match map It pre ++ It x :: post with [] => true | _ => false end = false) by (destruct pre; reflexivity).
      rewrite La, andb_false_r, validate_add_hashing. assert (Hm : match pre with [] => PartialOff | _ => PartialOff end = PartialOff) by (destruct pre; reflexivity).
      rewrite Hm in Cy. rewrite Cy. assert (F1 : forall es, ~ In (VErr (LineErrors es)) rs1) by (intros es0 Hi; apply (F es0); right; assumption).
      replace (i + length (y :: pre)) with (S i + length pre) by (cbn; lia).
      destruct r as [v|[es0| | | |]]; cbn [regular] in R1; try contradiction.
      + pose proof (set_add_length v set). change (values (VOk v :: rs1)) with (v :: values rs1) in W. cbn [length] in W.
        assert (E : set_loop child true c i0 mx p (set_add v set) [] (enumerate_from (is_active p) (S i) (map It pre ++ It x :: post)) s0 = (VErr (LineErrors (map (with_outer (LInt (Z.of_nat (S i + length pre)))) es)), s2)).
        { apply (IH (S i) _ s0 rs1 T1 R2 F1 p); [|assumption]. destruct mx; [unfold within in *; lia|exact I]. }
        cbn [is_nil negb andb]. rewrite E. destruct mx as [n|]; [|reflexivity]. destruct (Nat.ltb_spec n (length (set_add v set))); [unfold within in W; lia|reflexivity].
      + exfalso. apply (F es0). left. reflexivity.
      + cbn [is_nil negb andb]. apply (IH (S i) set s0 rs1 T1 R2 F1 p); assumption. }
  apply (G pre 0 [] s rs T R F); assumption.
Qed.
Print Assumptions C14_set_fail_fast.

(** C15: the results of lists, sets, frozensets and dicts respect the limits. *)
Lemma values_counted rs : length (values rs) <= counted rs.
Proof.
  induction rs as [|r rs IH]; [cbn; lia|]. rewrite counted_cons. unfold values in *. cbn [flat_map]. rewrite app_length.
  destruct r as [v|[es| | | |]]; cbn [length]; lia.
Qed.

Theorem C15_limits_respected :
  (forall c child vl i s v s', nonempty_errors child -> list_validate c (Some child) vl i s = (VOk v, s') ->
     exists l, v = PList l /\ within (co_max c) (length l) /\ at_least (co_min c) (length l)) /\
  (forall fr c child vs i s v s', nonempty_errors child -> set_validate fr c child vs i s = (VOk v, s') ->
     exists l, v = (if fr then PFrozenSet l else PSet l) /\ within (co_max c) (length l) /\ at_least (co_min c) (length l)) /\
  (forall c kv vv vd i s v s', dict_validate c kv vv vd i s = (VOk v, s') ->
     exists l, v = PDict l /\ within (co_max c) (length l) /\ at_least (co_min c) (length l)).
Proof.
  split; [|split].
  - intros c child vl i s v s' Ne H. apply C12_list_success in H; [|assumption].
    destruct H as (sq & xs & rs & _ & _ & _ & _ & _ & W & A & ->). exists (values rs). repeat split; auto.
    pose proof (values_counted rs). destruct (co_max c); cbn in *; auto; lia.
  - intros fr c child vs i s v s' Ne H. unfold set_validate in H. destruct (vs _ i) as [sq|e]; [|discriminate].
    destruct (validate_iter_to_set _ _ _ _ _ _ _) as [[out|e] s1] eqn:E; [|discriminate].
    destruct (min_check _ i (co_min c) (length out)) eqn:M; [discriminate|]. injection H as <- <-.
    apply set_success in E; [|assumption]. destruct E as (_ & _ & _ & _ & _ & W & _). apply min_check_none in M.
    exists out. destruct fr; auto.
  - intros c kv vv vd i s v s' H. unfold dict_validate in H. destruct (vd _ i) as [es|e]; [|discriminate].
    destruct (dict_loop _ _ _ _ _ _ _) as [[[out|e] errs] s1]; [|discriminate]. destruct (is_nil errs); [|discriminate].
    destruct (min_check _ i _ _) eqn:M; [discriminate|]. destruct (max_check_err _ i _ _) eqn:X; [discriminate|]. injection H as <- <-.
    apply min_check_none in M. apply max_check_none in X. exists out. auto.
Qed.
Print Assumptions C15_limits_respected.

(** C15: the item that exceeds max_length ends the list validation with one error
    at the list itself reporting the configured limit; nothing later is looked at,
    so an endless iterator is cut. *)
Theorem C15_list_max_stops : forall child ff mc m pre x post s rs s1 r s2,
  mc_current mc = 0 -> mc_max mc = Some m -> trace child PartialOff pre s = (rs, s1) -> Forall regular rs ->
  (ff = true -> forall es, ~ In (VErr (LineErrors es)) rs) -> counted rs = m ->
  later (st_partial s) post -> child x (set_partial PartialOff s1) = (r, s2) -> (exists v, r = VOk v) \/ is_failure r ->
  validate_iter_to_vec child ff mc (map It pre ++ It x :: post) s =
  (VErr (LineErrors [new_error (ETooLong (mc_field mc) m (mc_actual mc)) (mc_input mc)]), s2).
Proof.
  intros child ff mc m pre x post s rs s1 r s2 M Mx T R F W L C K. unfold validate_iter_to_vec, enumerate_last_partial.
  rewrite (vec_prefix child ff _ pre 0 mc [] [] s rs s1 (It x) post T R F); [|unfold room; rewrite M, Mx; cbn; lia].
  cbn [enumerate_from vec_loop]. rewrite (later_mode _ _ L), C.
  assert (Full : fst (mc_incr (mc_after mc (counted rs))) = VErr (LineErrors [new_error (ETooLong (mc_field mc) m (mc_actual mc)) (mc_input mc)])).
  { rewrite (incr_full _ m); [destruct mc; reflexivity|destruct mc; exact Mx|].
    unfold room, mc_after. cbn. rewrite Mx. cbn. lia. }
  destruct (mc_incr (mc_after mc (counted rs))) as [u mc']. cbn in Full. subst u.
  destruct K as [[v ->]|[es ->]]; reflexivity.
Qed.
Print Assumptions C15_list_max_stops.

(** C15: too few items: the error reports the configured minimum and the count. *)
Theorem C15_list_min_reported : forall c child vl i s sq xs rs s' n, nonempty_errors child ->
  vl (strict_or s (co_strict c)) i = VOk sq -> sq_items sq = map It xs ->
  trace child (st_partial s) xs (floor_exactness (sq_exactness sq) s) = (rs, s') -> Forall regular rs ->
  (forall k es, nth_error rs k = Some (VErr (LineErrors es)) -> forgiven (st_partial s) k (length rs)) ->
  within (co_max c) (counted rs) -> co_min c = Some n -> length (values rs) < n ->
  list_validate c (Some child) vl i s = (VErr (LineErrors [new_error (ETooShort CList n (length (values rs))) i]), s').
Proof.
  intros c child vl i s sq xs rs s' n Ne Hv Hi T R F W Hn Hl. unfold list_validate. rewrite Hv.
  set (s0 := floor_exactness _ s) in *.
  assert (P : st_partial s0 = st_partial s) by (unfold s0, floor_exactness; destruct (st_exactness s) as [[| |]|]; try reflexivity; destruct (sq_exactness sq); reflexivity).
  set (mc := Build_max_check _ _ _ _ _).
  assert (E : validate_iter_to_vec child (co_fail_fast c) mc (sq_items sq) s0 = (VOk (values rs), s')).
  { apply vec_success; [assumption|reflexivity|]. exists xs, rs. rewrite P. auto 10. }
  rewrite E. unfold min_check. rewrite Hn. destruct (Nat.ltb_spec (length (values rs)) n); [reflexivity|lia].
Qed.
Print Assumptions C15_list_min_reported.

(** C16: a set schema succeeds iff every item validates to a hashable value (or is
    omitted / forgiven) and the limits hold on the number of distinct values; the
    result has no two equal members, only contains item results, and every item
    result is in it (up to Python equality). *)
Theorem C16_set_success : forall fr c child vs i s v s', nonempty_errors child ->
  (exists v', set_validate fr c child vs i s = (VOk v', s') /\ v' = v) ->
  exists sq xs rs out, vs (strict_or s (co_strict c)) i = VOk sq /\ sq_items sq = map It xs /\
    trace (hashing child) (st_partial s) xs (floor_exactness (sq_exactness sq) s) = (rs, s') /\ Forall regular rs /\
    (forall k es, nth_error rs k = Some (VErr (LineErrors es)) -> forgiven (st_partial s) k (length rs)) /\
    v = (if fr then PFrozenSet out else PSet out) /\
    (forall x, In x out -> In x (values rs)) /\
    (forall x, In x (values rs) -> exists y, In y out /\ (y = x \/ py_eq y x = true)) /\
    ForallOrdPairs (fun y x => py_eq y x = false) out /\
    within (co_max c) (length out) /\ at_least (co_min c) (length out).
Proof.
  intros fr c child vs i s v s' Ne (v' & H & <-). unfold set_validate in H. destruct (vs _ i) as [sq|e]; [|discriminate].
  set (s0 := floor_exactness _ s) in *.
  assert (P : st_partial s0 = st_partial s) by (unfold s0, floor_exactness; destruct (st_exactness s) as [[| |]|]; try reflexivity; destruct (sq_exactness sq); reflexivity).
  destruct (validate_iter_to_set _ _ _ _ _ _ _) as [[out|e] s1] eqn:E; [|discriminate].
  destruct (min_check _ i (co_min c) (length out)) eqn:M; [discriminate|]. injection H as <- <-.
  apply set_success in E; [|assumption]. destruct E as (xs & rs & I1 & T & R & W & O & F). apply min_check_none in M. rewrite P in *.
  exists sq, xs, rs, out. subst out. split; [reflexivity|]. split; [assumption|]. split; [assumption|]. split; [assumption|]. split; [assumption|]. split; [reflexivity|].
  split; [intros x Hx; apply adds_sound in Hx as [[]|Hx]; assumption|].
  split; [intros x Hx; apply adds_complete; assumption|].
  split; [apply adds_distinct; constructor|]. auto.
Qed.
Print Assumptions C16_set_success.

(** C16, converse: these conditions are sufficient. *)
Theorem C16_set_accepts : forall fr c child vs i s sq xs rs s', nonempty_errors child ->
  vs (strict_or s (co_strict c)) i = VOk sq -> sq_items sq = map It xs ->
  trace (hashing child) (st_partial s) xs (floor_exactness (sq_exactness sq) s) = (rs, s') -> Forall regular rs ->
  (forall k es, nth_error rs k = Some (VErr (LineErrors es)) -> forgiven (st_partial s) k (length rs)) ->
  within (co_max c) (length (values rs)) -> co_min c = None ->
  exists v, set_validate fr c child vs i s = (VOk v, s').
Proof.
  intros fr c child vs i s sq xs rs s' Ne Hv Hi T R F W Hn. unfold set_validate. rewrite Hv.
  set (s0 := floor_exactness _ s) in *.
  assert (P : st_partial s0 = st_partial s) by (unfold s0, floor_exactness; destruct (st_exactness s) as [[| |]|]; try reflexivity; destruct (sq_exactness sq); reflexivity).
  assert (Len : forall vs set, length (adds set vs) <= length set + length vs).
  { induction vs0 as [|x vs0 IH]; intros set; cbn; [lia|]. specialize (IH (set_add x set)). pose proof (set_add_length x set). unfold adds in IH. lia. }
  assert (E : validate_iter_to_set child (co_fail_fast c) (if fr then CFrozenset else CSet) i (co_max c) (sq_items sq) s0 = (VOk (adds [] (values rs)), s')).
  { apply set_success; [assumption|]. exists xs, rs. rewrite P. repeat split; auto; try apply (F _ _ H).
    specialize (Len (values rs) []). destruct (co_max c); cbn in *; auto; lia. }
  rewrite E. unfold min_check. rewrite Hn. eexists. reflexivity.
Qed.
Print Assumptions C16_set_accepts.

(** C16: errors of a set, complete and located. *)
Theorem C16_set_errors : forall child c i0 mx xs s rs s',
  trace (hashing child) (st_partial s) xs s = (rs, s') -> Forall regular rs -> within mx (length (values rs)) ->
  located (st_partial s) 0 rs <> [] ->
  validate_iter_to_set child false c i0 mx (map It xs) s = (VErr (LineErrors (located (st_partial s) 0 rs)), s').
Proof.
  intros child c i0 mx xs s rs s' T R W L. unfold validate_iter_to_set, enumerate_last_partial.
  assert (Len : forall vs set, length (adds set vs) <= length set + length vs).
  { induction vs as [|x vs IH]; intros set; cbn; [lia|]. specialize (IH (set_add x set)). pose proof (set_add_length x set). unfold adds in IH. lia. }
  rewrite (set_loop_run child c i0 mx false _ xs 0 [] [] s rs s' T R); [|discriminate|].
  - unfold finish. cbn [app]. destruct (located (st_partial s) 0 rs); [contradiction|reflexivity].
  - specialize (Len (values rs) []). destruct mx; cbn in *; auto; lia.
Qed.
Print Assumptions C16_set_errors.

(** C17: dict validation.  Every entry's key and value are validated; if none fails
    the result holds, for each key, the value of the last entry that produced an
    equal key, and nothing else. *)
Theorem C17_dict_success : forall c kv vv vd i s v s',
  dict_validate c kv vv vd i s = (VOk v, s') ->
  exists es rs out, vd (strict_or s (co_strict c)) i = VOk (map to_entry es) /\
    dict_trace kv vv (st_partial s) (map kv_of es) s = (rs, s') /\ Forall dict_regular rs /\
    dict_located (st_partial s) (map loc_of es) rs = [] /\ v = PDict out /\
    within (co_max c) (length out) /\ at_least (co_min c) (length out) /\
    ForallOrdPairs (fun a b => py_eq a b = false) (map fst out) /\
    (equiv_on (map fst (pairs rs)) ->
       (forall k x, In (k, x) out -> last_value (pairs rs) k x) /\
       (forall k x, In (k, x) (pairs rs) -> exists k', In k' (map fst out) /\ py_eq k' k = true)).
Proof.
  intros c kv vv vd i s v s' H. unfold dict_validate in H. destruct (vd _ i) as [ens|e]; [|discriminate].
  unfold enumerate_last_partial in H.
  destruct (dict_loop _ _ _ _ _ _ _) as [[[out|e] errs] s1] eqn:E; [|discriminate]. destruct (is_nil errs) eqn:Ee; [|discriminate].
  destruct (min_check _ i _ _) eqn:M; [discriminate|]. destruct (max_check_err _ i _ _) eqn:X; [discriminate|]. injection H as <- <-.
  apply min_check_none in M. apply max_check_none in X. apply is_nil_true in Ee. subst errs.
  destruct (dict_loop_ok _ _ _ _ _ _ _ _ _ _ _ E) as (es & rs & -> & T & R).
  rewrite (dict_loop_run kv vv _ es 0 [] [] s rs s1 T R) in E. injection E as <- L.
  exists es, rs, (sets [] (pairs rs)).
  split; [reflexivity|]. split; [assumption|]. split; [assumption|]. split; [assumption|]. split; [reflexivity|]. split; [assumption|]. split; [assumption|].
  split; [apply sets_distinct; constructor|]. intros Q. split.
  - intros k x Hk. apply sets_last; assumption.
  - intros k x Hk. eapply sets_complete; [apply Q|eassumption].
Qed.
Print Assumptions C17_dict_success.

(** C17: whether entries fail or not, the verdict is determined by the results on
    keys and values: every error of every entry is reported, key errors under
    (key, "[key]"), value errors under the key. *)
Theorem C17_dict_errors : forall c kv vv vd i s es rs s',
  vd (strict_or s (co_strict c)) i = VOk (map to_entry es) ->
  dict_trace kv vv (st_partial s) (map kv_of es) s = (rs, s') -> Forall dict_regular rs ->
  dict_located (st_partial s) (map loc_of es) rs <> [] ->
  dict_validate c kv vv vd i s = (VErr (LineErrors (dict_located (st_partial s) (map loc_of es) rs)), s').
Proof.
  intros c kv vv vd i s es rs s' Hv T R L. unfold dict_validate, enumerate_last_partial. rewrite Hv.
  rewrite (dict_loop_run kv vv _ es 0 [] [] s rs s' T R). cbn [app].
  destruct (dict_located (st_partial s) (map loc_of es) rs); [contradiction|reflexivity].
Qed.
Print Assumptions C17_dict_errors.

Theorem C17_dict_accepts : forall c kv vv vd i s es rs s',
  vd (strict_or s (co_strict c)) i = VOk (map to_entry es) ->
  dict_trace kv vv (st_partial s) (map kv_of es) s = (rs, s') -> Forall dict_regular rs ->
  dict_located (st_partial s) (map loc_of es) rs = [] -> co_min c = None -> co_max c = None ->
  exists v, dict_validate c kv vv vd i s = (VOk v, s').
Proof.
  intros c kv vv vd i s es rs s' Hv T R L Mn Mx. unfold dict_validate, enumerate_last_partial. rewrite Hv.
  rewrite (dict_loop_run kv vv _ es 0 [] [] s rs s' T R). cbn [app]. rewrite L, Mn, Mx. eexists. reflexivity.
Qed.
Print Assumptions C17_dict_accepts.

(** C17, error paths: a key error's path starts with the key and "[key]". *)
Theorem C17_key_error_path : forall l e,
  loc_path (le_loc (with_outer l (with_outer (LStr (lit "[key]")) e))) = l :: LStr (lit "[key]") :: loc_path (le_loc e).
Proof. intros l e. rewrite (proj1 (with_outer_path _ _)), (proj1 (with_outer_path _ _)). reflexivity. Qed.
Print Assumptions C17_key_error_path.

(** C60: in partial mode the items before the last are validated as without it, and
    only the last item's errors are dropped. *)
Theorem C60_partial_list : forall child mc pre x s rs s1 r s2,
  is_active (st_partial s) = true -> mc_current mc = 0 ->
  trace child PartialOff pre s = (rs, s1) -> Forall regular rs ->
  child x (set_partial (st_partial s) s1) = (r, s2) -> regular r -> within (mc_max mc) (counted rs + counted [r]) ->
  validate_iter_to_vec child false mc (map It (pre ++ [x])) s =
  (match located PartialOff 0 rs with [] => VOk (values rs ++ values [r]) | es => VErr (LineErrors es) end, s2).
Proof.
  intros child mc pre x s rs s1 r s2 A M T R C Rr W. unfold validate_iter_to_vec, enumerate_last_partial.
  rewrite map_app. cbn [map].
  assert (W0 : room mc (counted rs + counted [r])) by (unfold room; rewrite M; assumption). apply room_split in W0 as [W1 W2].
  rewrite (vec_prefix child false _ pre 0 mc [] [] s rs s1 (It x) [] T R); [|discriminate|assumption].
  cbn [enumerate_from vec_loop]. rewrite A. cbn [andb]. rewrite C.
  destruct r as [v|[es| | | |]]; cbn [regular] in Rr; try contradiction.
  - rewrite (incr_ok _ W2). cbn [app values flat_map]. unfold is_nil. destruct (located PartialOff 0 rs); reflexivity.
  - rewrite (incr_ok _ W2). cbn [app values flat_map]. rewrite app_nil_r. unfold is_nil. destruct (located PartialOff 0 rs); reflexivity.
  - cbn [app values flat_map]. rewrite app_nil_r. unfold is_nil. destruct (located PartialOff 0 rs); reflexivity.
Qed.
Print Assumptions C60_partial_list.

(** C60 for dicts: key errors are never forgiven, value errors only in the last
    entry. *)
Theorem C60_partial_dict : forall p locs l rs r, length locs = length rs ->
  dict_located p (locs ++ [l]) (rs ++ [r]) =
  dict_located PartialOff locs rs ++
  map (fun e => with_outer l (with_outer (LStr (lit "[key]")) e)) (errors_of (fst r)) ++
  (if is_active p then [] else match snd r with Some rv => map (with_outer l) (errors_of rv) | None => [] end).
Proof.
  intros p locs. induction locs as [|l0 locs IH]; intros l [|[rk0 ro0] rs] [rk ro] H; try discriminate.
  - cbn [dict_located app fst snd]. destruct (is_active p), ro; cbn [andb]; rewrite ?app_nil_r; reflexivity.
  - cbn [app dict_located]. rewrite (IH l rs (rk, ro)) by (cbn in H; lia). cbn [fst snd].
    assert (Hx : match rs ++ [(rk, ro)] with [] => true | _ => false end = false) by (destruct rs; reflexivity).
    rewrite Hx, andb_false_r. cbn [is_active andb]. rewrite <- !app_assoc. destruct ro0; reflexivity.
Qed.
Print Assumptions C60_partial_dict.

(** A concrete child: accepts ints, omits None, rejects the rest. *)
Definition ex_child : validator := fun i s =>
  match i with
  | IPy (PInt z) => (VOk (PInt z), s)
  | IPy PNone => (VErr Omit, s)
  | i => (VErr (LineErrors [new_error EIntType i]), s)
  end.
Lemma ex_child_nonempty : nonempty_errors ex_child.
Proof. intros i s es s' H. unfold ex_child in H. destruct i as [[]| | |]; try discriminate; injection H as <- _; discriminate. Qed.
Definition ex_state (p : partial_mode) : state :=
  {| st_exactness := Some Exact; st_fields_set := None; st_partial := p;
     st_extra := {| x_input_type := ITPython; x_strict := None; x_from_attributes := None; x_by_alias := None; x_by_name := None; x_data := None; x_field_name := None |} |}.
Definition ex_list (strict : bool) (i : input) : vres seq :=
  match i with
  | IPy (PList l) => VOk {| sq_items := map (fun v => It (IPy v)) l; sq_len := Some (length l); sq_exactness := Exact; sq_py_list := true |}
  | i => val_err EListType i
  end.
Definition ex_coll := {| co_strict := false; co_min := Some 1; co_max := Some 3; co_fail_fast := false |}.

Example C12_ex : fst (list_validate ex_coll (Some ex_child) ex_list (IPy (PList [PInt 1; PNone; PInt 2; PNone; PInt 1])) (ex_state PartialOff)) = VOk (PList [PInt 1; PInt 2; PInt 1]).
Proof. vm_compute. reflexivity. Qed.
Example C13_ex : fst (list_validate ex_coll (Some ex_child) ex_list (IPy (PList [PBool true; PInt 2; PStr []])) (ex_state PartialOff)) =
  VErr (LineErrors [with_outer (LInt 0) (new_error EIntType (IPy (PBool true))); with_outer (LInt 2) (new_error EIntType (IPy (PStr [])))]).
Proof. vm_compute. reflexivity. Qed.
Example C14_ex : later PartialOff [Raise XTypeError] /\ fst (validate_iter_to_vec ex_child true {| mc_current := 0; mc_max := None; mc_field := CList; mc_input := IPy PNone; mc_actual := None |}
   [It (IPy (PInt 1)); It (IPy (PStr [])); Raise XTypeError] (ex_state PartialOff)) = VErr (LineErrors [with_outer (LInt 1) (new_error EIntType (IPy (PStr [])))]).
Proof. split; [left; reflexivity|vm_compute; reflexivity]. Qed.
Example C15_ex : fst (list_validate ex_coll (Some ex_child) ex_list (IPy (PList [PInt 1; PInt 2; PStr []; PInt 4])) (ex_state PartialOff)) =
  VErr (LineErrors [new_error (ETooLong CList 3 (Some 4)) (IPy (PList [PInt 1; PInt 2; PStr []; PInt 4]))]).
Proof. vm_compute. reflexivity. Qed.
Example C16_ex : fst (set_validate false ex_coll ex_child ex_list (IPy (PList [PInt 1; PInt 2; PInt 1; PInt 2])) (ex_state PartialOff)) = VOk (PSet [PInt 1; PInt 2]).
Proof. vm_compute. reflexivity. Qed.
Example C17_ex :
  let vd := fun (_ : bool) (i : input) => VOk (map to_entry [(IPy (PInt 1), LInt 1, IPy (PInt 10)); (IPy (PInt 2), LInt 2, IPy (PInt 20)); (IPy (PInt 1), LInt 1, IPy (PInt 11))]) in
  fst (dict_validate ex_coll ex_child ex_child vd (IPy PNone) (ex_state PartialOff)) = VOk (PDict [(PInt 1, PInt 11); (PInt 2, PInt 20)]) /\
  equiv_on [PInt 1; PInt 2; PInt 1].
Proof.
  split; [vm_compute; reflexivity|]. split; [|split].
  - intros a [<-|[<-|[<-|[]]]]; reflexivity.
  - intros a b [<-|[<-|[<-|[]]]] [<-|[<-|[<-|[]]]] H; try reflexivity; discriminate.
  - intros a b c [<-|[<-|[<-|[]]]] [<-|[<-|[<-|[]]]] [<-|[<-|[<-|[]]]] H1 H2; try reflexivity; discriminate.
Qed.
Example C60_ex : is_active PartialOn = true /\
  fst (list_validate ex_coll (Some ex_child) ex_list (IPy (PList [PInt 1; PInt 2; PStr []])) (ex_state PartialOn)) = VOk (PList [PInt 1; PInt 2]).
Proof. split; vm_compute; reflexivity. Qed.

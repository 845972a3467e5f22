From Coq Require Import List NArith ZArith Bool Lia.
From Verif Require Import Base Float64 Values VState LookupKey Collections Child Inputs Union UnionSpec.
Import ListNotations.
Open Scope nat_scope.

Definition rejected_dec (r : vres pyval) : {es | r = VErr (LineErrors es)} + {forall es, r <> VErr (LineErrors es)}.
Proof. destruct r as [v|[l|e| | |]]; [right; discriminate|left; exists l; reflexivity|right; discriminate..]. Defined.

Definition key (o : outcome) : nat :=
  match o_count o with Some n => 3 * n + exactness_rank (exactness_of o) | None => exactness_rank (exactness_of o) end.

Lemma exact_lt_rank : forall a b, exact_lt a b <-> exactness_rank a < exactness_rank b.
Proof. destruct a, b; cbn; split; try tauto; lia. Qed.

Lemma rank_small : forall e, exactness_rank e <= 2. Proof. destruct e; cbn; lia. Qed.

Lemma better_key : forall a b, (o_count a = None <-> o_count b = None) -> (better a b <-> key b < key a).
Proof.
  intros a b H. unfold better, key.
  pose proof (rank_small (exactness_of a)); pose proof (rank_small (exactness_of b)).
  destruct (o_count a) as [m|], (o_count b) as [n|].
  - rewrite exact_lt_rank. lia.
  - destruct H as [_ H]. discriminate (H eq_refl).
  - destruct H as [H _]. discriminate (H eq_refl).
  - apply exact_lt_rank.
Qed.

Lemma replaces_key : forall a b v, (o_count a = None <-> o_count b = None) ->
  replaces (Some (v, exactness_of b, o_count b)) (exactness_of a) (o_count a) = (key b <? key a).
Proof.
  intros a b v H. unfold replaces, key, exactness_lt.
  pose proof (rank_small (exactness_of a)); pose proof (rank_small (exactness_of b)).
  destruct (o_count a) as [m|], (o_count b) as [n|].
  - destruct (Nat.eqb_spec n m); cbn [negb].
    + subst. destruct (Nat.ltb_spec (exactness_rank (exactness_of b)) (exactness_rank (exactness_of a)));
      destruct (Nat.ltb_spec (3 * m + exactness_rank (exactness_of b)) (3 * m + exactness_rank (exactness_of a))); lia.
    + destruct (Nat.ltb_spec n m); destruct (Nat.ltb_spec (3 * n + exactness_rank (exactness_of b)) (3 * m + exactness_rank (exactness_of a))); lia.
  - destruct H as [_ H]. discriminate (H eq_refl).
  - destruct H as [H _]. discriminate (H eq_refl).
  - reflexivity.
Qed.

(** The best of the accepted outcomes, scanning from left to right. *)
Definition is_acc (o : outcome) : bool := match o_result o with VOk _ => true | _ => false end.
Lemma is_acc_iff : forall o, is_acc o = true <-> accepted o.
Proof. intros o. unfold is_acc, accepted. destruct (o_result o); split; intros H; eauto; try discriminate; destruct H; discriminate. Qed.

Fixpoint scan (best : option outcome) (outs : list outcome) : option outcome :=
  match outs with
  | [] => best
  | o :: outs' =>
      scan (if is_acc o then match best with None => Some o | Some b => if key b <? key o then Some o else best end else best) outs'
  end.

Lemma scan_None : forall outs best, scan best outs = None -> best = None /\ forall o, In o outs -> ~ accepted o.
Proof.
  induction outs as [|o outs IH]; intros best H; cbn [scan] in H; [split; [exact H|intros ? []]|].
  apply IH in H. destruct H as [H1 H2]. destruct (is_acc o) eqn:A.
  - destruct best as [b|]; [destruct (key b <? key o)|]; discriminate.
  - split; [exact H1|]. intros p [<-|Hp]; [|apply H2, Hp]. intros Ha. apply is_acc_iff in Ha. congruence.
Qed.

Lemma scan_key : forall outs best b, scan best outs = Some b ->
  (best = Some b /\ (forall o, In o outs -> accepted o -> key o <= key b)) \/
  (exists pre post, outs = pre ++ b :: post /\ accepted b /\
     (forall o, In o pre -> accepted o -> key o < key b) /\ (forall o, In o post -> accepted o -> key o <= key b) /\
     (forall b0, best = Some b0 -> key b0 < key b)).
Proof.
  induction outs as [|o outs IH]; intros best b H; cbn [scan] in H; [left; split; [exact H|intros ? []]|].
  apply IH in H. destruct (is_acc o) eqn:A.
  - destruct best as [b0|]; [destruct (Nat.ltb_spec (key b0) (key o)) as [L|L]|].
    + right. destruct H as [[E H]|(pre & post & -> & Hb & H1 & H2 & H3)].
      * injection E as <-. exists [], outs. split; [reflexivity|]. split; [apply is_acc_iff, A|].
        split; [intros ? []|]. split; [exact H|]. intros ? E; injection E as <-; exact L.
      * exists (o :: pre), post. split; [reflexivity|]. split; [exact Hb|]. pose proof (H3 o eq_refl).
        split; [intros p [<-|Hp]; auto|]. split; [exact H2|]. intros ? E; injection E as <-. lia.
    + destruct H as [[E H]|(pre & post & -> & Hb & H1 & H2 & H3)].
      * left. split; [exact E|]. injection E as <-. intros p [<-|Hp]; auto.
      * right. exists (o :: pre), post. split; [reflexivity|]. split; [exact Hb|]. pose proof (H3 b0 eq_refl).
        split; [intros p [<-|Hp]; [lia|auto]|]. split; [exact H2|exact H3].
    + right. destruct H as [[E H]|(pre & post & -> & Hb & H1 & H2 & H3)].
      * injection E as <-. exists [], outs. split; [reflexivity|]. split; [apply is_acc_iff, A|].
        split; [intros ? []|]. split; [exact H|discriminate].
      * exists (o :: pre), post. split; [reflexivity|]. split; [exact Hb|]. pose proof (H3 o eq_refl).
        split; [intros p [<-|Hp]; auto|]. split; [exact H2|discriminate].
  - assert (N : ~ accepted o) by (intros Ha; apply is_acc_iff in Ha; congruence).
    destruct H as [[E H]|(pre & post & -> & Hb & H1 & H2 & H3)].
    + left. split; [exact E|]. intros p [<-|Hp]; [contradiction|auto].
    + right. exists (o :: pre), post. split; [reflexivity|]. split; [exact Hb|].
      split; [intros p [<-|Hp]; [contradiction|auto]|]. split; assumption.
Qed.

(** The loop in smart mode computes [scan] when the outcomes are comparable. *)
Definition of_outcome (o : outcome) : option match_ :=
  match o_result o with VOk v => Some (v, exactness_of o, o_count o) | _ => None end.
Definition of_best (b : option outcome) : option match_ := match b with Some o => of_outcome o | None => None end.

Definition out1 (c : choice) (r : vres pyval) (s1 : state) : outcome :=
  {| o_label := ch_label c; o_result := r; o_exactness := st_exactness s1; o_count := st_fields_set s1 |}.

Definition kind (u : bool) (o : outcome) : Prop := (o_count o = None <-> u = true).

Lemma smart_scan : forall u custom old_e old_n cs i s best errs,
  (forall o, In o (outcomes cs i s) -> accepted o \/ rejected o) ->
  (forall o, In o (outcomes cs i s) -> accepted o -> kind u o) ->
  (forall b, best = Some b -> accepted b /\ kind u b /\ ~ (o_exactness b = Some Exact /\ o_count b = None)) ->
  match smart_loop custom old_e old_n cs i (of_best best) errs s with
  | Tried b' _ _ => b' = of_best (scan best (outcomes cs i s)) /\ (b' = None -> scan best (outcomes cs i s) = None)
  | Returned r s' => exists b v, scan best (outcomes cs i s) = Some b /\ o_result b = VOk v /\ r = VOk v /\
       exactness_of b = Exact /\ o_count b = None /\ st_exactness s' = old_e /\ st_fields_set s' = old_n
  end.
Proof.
  induction cs as [|c cs IH]; intros i s best errs HR HK HB.
  - cbn [smart_loop outcomes scan]. split; [reflexivity|]. destruct best as [b|]; [|reflexivity].
    destruct (HB b eq_refl) as ([v Hv] & _). cbn [of_best]. unfold of_outcome. rewrite Hv. discriminate.
  - cbn [smart_loop outcomes] in *. fold (fresh s). destruct (ch_validator c i (fresh s)) as [r s1] eqn:R.
    fold (out1 c r s1) in *. set (o := out1 c r s1) in *.
    assert (HR' : forall p, In p (outcomes cs i s1) -> accepted p \/ rejected p) by (intros p Hp; apply HR; right; exact Hp).
    assert (HK' : forall p, In p (outcomes cs i s1) -> accepted p -> kind u p) by (intros p Hp; apply HK; right; exact Hp).
    cbn [scan]. destruct r as [v|e].
    + assert (A : is_acc o = true) by reflexivity. rewrite A.
      assert (Ka : kind u o) by (apply HK; [left; reflexivity|exists v; reflexivity]).
      assert (RP : replaces (of_best best) (exactness_of o) (o_count o)
                   = match best with None => true | Some b => key b <? key o end).
      { destruct best as [b|]; [|reflexivity]. destruct (HB b eq_refl) as ([w Hw] & Kb & _).
        cbn [of_best]. unfold of_outcome. rewrite Hw. apply replaces_key. unfold kind in *. tauto. }
      assert (CONT : ~ (st_exactness s1 = Some Exact /\ st_fields_set s1 = None) ->
        match smart_loop custom old_e old_n cs i
                (if replaces (of_best best) (exactness_of o) (o_count o) then Some (v, exactness_of o, o_count o) else of_best best) errs s1 with
        | Tried b' _ _ => b' = of_best (scan (match best with None => Some o | Some b => if key b <? key o then Some o else best end) (outcomes cs i s1)) /\
            (b' = None -> scan (match best with None => Some o | Some b => if key b <? key o then Some o else best end) (outcomes cs i s1) = None)
        | Returned r s' => exists b v0, scan (match best with None => Some o | Some b => if key b <? key o then Some o else best end) (outcomes cs i s1) = Some b /\
            o_result b = VOk v0 /\ r = VOk v0 /\ exactness_of b = Exact /\ o_count b = None /\ st_exactness s' = old_e /\ st_fields_set s' = old_n
        end).
      { intros NO. rewrite RP.
        assert (NB : (if match best with Some b => key b <? key o | None => true end then (Some (v, exactness_of o, o_count o) : option match_) else of_best best)
          = of_best (match best with None => Some o | Some b => if key b <? key o then Some o else best end))
          by (destruct best as [b|]; [destruct (key b <? key o)|]; reflexivity).
        unfold match_ in *. rewrite NB. clear NB. refine (IH i s1 (match best with None => Some o | Some b => if key b <? key o then Some o else best end) errs HR' HK' _).
        intros b Eb. destruct best as [b0|]; [destruct (key b0 <? key o)|]; injection Eb as <-;
          first [exact (HB _ eq_refl)|split; [exists v; reflexivity|split; [exact Ka|exact NO]]]. }
      assert (EO : exactness_of o = unwrap_or (st_exactness s1) Lax) by reflexivity.
      assert (CO : o_count o = st_fields_set s1) by reflexivity.
      rewrite EO, CO in CONT.
      destruct (st_exactness s1) as [[| |]|] eqn:X; destruct (st_fields_set s1) as [n|] eqn:F; cbn [unwrap_or] in *.
      6:{ (* exact, no count: immediate return *) clear CONT.
        set (b := match best with None => Some o | Some b => if key b <? key o then Some o else best end).
        assert (Hb : b = Some o).
        { unfold b. destruct best as [b0|]; [|reflexivity]. destruct (HB b0 eq_refl) as (_ & Kb & NE).
          assert (Cb : o_count b0 = None) by (apply Kb, Ka; exact F).
          assert (K : key b0 <? key o = true); [|rewrite K; reflexivity].
          apply Nat.ltb_lt. unfold key. rewrite Cb. cbn [o_count o out1]. rewrite F. unfold exactness_of. cbn [o_exactness o out1]. rewrite X.
          destruct (o_exactness b0) as [[| |]|]; cbn; try lia. destruct NE; auto. }
        rewrite Hb. destruct (scan (Some o) (outcomes cs i s1)) as [b1|] eqn:S1.
        2:{ apply scan_None in S1. destruct S1; discriminate. }
        destruct (scan_key _ _ _ S1) as [[E _]|(pre & post & Ho & Hb1 & _ & _ & L)].
        - injection E as <-. exists o, v. cbn [o o_result out1 o_count set_fields_set set_exactness st_exactness st_fields_set].
          unfold exactness_of. cbn [o_exactness o out1]. rewrite X. repeat split; auto.
        - exfalso. specialize (L o eq_refl).
          assert (Kb : kind u b1) by (apply HK'; [rewrite Ho; apply in_elt|exact Hb1]).
          assert (Cb : o_count b1 = None) by (apply Kb, Ka; exact F).
          unfold key in L. rewrite Cb in L. cbn [o_count o out1] in L. rewrite F in L. unfold exactness_of at 1 in L.
          cbn [o_exactness o out1] in L. rewrite X in L. pose proof (rank_small (exactness_of b1)). cbn in L. lia. }
      all: apply CONT; intros [? ?]; discriminate.
    + assert (A : is_acc o = false) by reflexivity. rewrite A.
      destruct (HR o (or_introl eq_refl)) as [[w Hw]|[es He]]; [discriminate Hw|].
      cbn [o o_result out1] in He. injection He as ->. apply IH; assumption.
Qed.

(** Bookkeeping. *)
Lemma exactness_le_refl : forall a, exactness_le a a. Proof. destruct a as [e|]; cbn; auto. Qed.
Lemma count_le_refl : forall a, count_le a a. Proof. destruct a; cbn; auto. Qed.
Lemma floor_le : forall e s, exactness_le (st_exactness (floor_exactness e s)) (st_exactness s).
Proof. intros e s. unfold floor_exactness. destruct (st_exactness s) as [[| |]|] eqn:E; [| |destruct e|]; cbn [set_exactness st_exactness]; rewrite ?E; cbn; auto.
  destruct e; rewrite ?E; cbn; auto. Qed.
Lemma floor_count : forall e s, st_fields_set (floor_exactness e s) = st_fields_set s.
Proof. intros e s. unfold floor_exactness. destruct (st_exactness s) as [[| |]|]; try reflexivity. destruct e; reflexivity. Qed.
Lemma exactness_le_trans : forall a b c, exactness_le a b -> exactness_le b c -> exactness_le a c.
Proof. intros [[| |]|] [[| |]|] [[| |]|]; cbn; intuition congruence. Qed.
Lemma count_le_trans : forall a b c, count_le a b -> count_le b c -> count_le a c.
Proof. intros [a|] [b|] [c|]; cbn; intuition; lia. Qed.

Lemma smart_loop_returned : forall custom old_e old_n cs i best errs s r s',
  smart_loop custom old_e old_n cs i best errs s = Returned r s' ->
  (exists v, r = VOk v) /\ st_exactness s' = old_e /\ st_fields_set s' = old_n \/ (forall v, r <> VOk v) /\ (forall es, r <> VErr (LineErrors es)).
Proof.
  induction cs as [|c cs IH]; intros i best errs s r s' H; cbn [smart_loop] in H; [discriminate|].
  destruct (ch_validator c i _) as [r1 s1]. destruct r1 as [v|[l|e| | |]].
  - destruct (st_exactness s1) as [[| |]|]; destruct (st_fields_set s1) as [n|]; try (eapply IH; exact H).
    injection H as <- <-. left. split; [eauto|split; reflexivity].
  - eapply IH; exact H.
  - injection H as <- <-. right. split; discriminate.
  - injection H as <- <-. right. split; discriminate.
  - injection H as <- <-. right. split; discriminate.
  - injection H as <- <-. right. split; discriminate.
Qed.

Lemma smart_keeps : forall custom cs, keeps_books (validate_smart custom cs).
Proof.
  intros custom cs i s r s' H F. unfold validate_smart in H.
  destruct (smart_loop custom _ _ cs i None [] s) as [best errs s1|r1 s1] eqn:L.
  - destruct best as [[[v e] n]|].
    + injection H as <- <-. destruct n as [k|].
      * cbn [add_fields_set set_fields_set st_exactness st_fields_set]. split.
        { eapply exactness_le_trans; [apply floor_le|]. cbn. apply exactness_le_refl. }
        { rewrite floor_count. cbn [set_fields_set st_fields_set]. destruct (st_fields_set s); cbn; auto; lia. }
      * split; [eapply exactness_le_trans; [apply floor_le|]; cbn; apply exactness_le_refl|].
        rewrite floor_count. cbn. apply count_le_refl.
    + injection H as <- <-. cbn. split; [apply exactness_le_refl|apply count_le_refl].
  - injection H as -> ->. apply smart_loop_returned in L. destruct L as [(_ & -> & ->)|[N1 N2]].
    + split; [apply exactness_le_refl|apply count_le_refl].
    + destruct F as [[v ->]|[es ->]]; [contradiction (N1 v eq_refl)|contradiction (N2 es eq_refl)].
Qed.

(** All members fail. *)
Lemma smart_all_fail : forall custom old_e old_n cs i s errs,
  (forall o, In o (outcomes cs i s) -> rejected o) ->
  exists s', smart_loop custom old_e old_n cs i None errs s =
    Tried None (match custom with Some _ => errs | None => errs ++ map (fun o => (o_label o, errors_of o)) (outcomes cs i s) end) s'.
Proof.
  induction cs as [|c cs IH]; intros i s errs H.
  - exists s. cbn. destruct custom; rewrite ?app_nil_r; reflexivity.
  - cbn [smart_loop outcomes] in *. fold (fresh s). destruct (ch_validator c i (fresh s)) as [r s1].
    destruct (H _ (or_introl eq_refl)) as [es He]. cbn in He. subst r.
    destruct (IH i s1 (push_errors custom errs c es)) as [s' E]; [intros o Ho; apply H; right; exact Ho|].
    exists s'. rewrite E. f_equal. destruct custom; cbn [push_errors]; [reflexivity|].
    rewrite <- app_assoc. reflexivity.
Qed.

Lemma labelled_flat : forall outs,
  flat_map (fun e : str * list line_error => map (with_outer (LStr (fst e))) (snd e)) (map (fun o => (o_label o, errors_of o)) outs) = labelled outs.
Proof. intros outs. unfold labelled. rewrite flat_map_concat_map, map_map. reflexivity. Qed.

Lemma smart_some : forall custom old_e old_n cs i s best errs,
  (forall o, In o (outcomes cs i s) -> accepted o \/ rejected o) ->
  (best <> None \/ Exists accepted (outcomes cs i s)) ->
  match smart_loop custom old_e old_n cs i best errs s with
  | Tried b _ _ => b <> None
  | Returned r _ => exists v, r = VOk v
  end.
Proof.
  induction cs as [|c cs IH]; intros i s best errs HR HE.
  - cbn. destruct HE as [H|H]; [exact H|inversion H].
  - cbn [smart_loop outcomes] in *. fold (fresh s). destruct (ch_validator c i (fresh s)) as [r s1].
    assert (HR' : forall p, In p (outcomes cs i s1) -> accepted p \/ rejected p) by (intros p Hp; apply HR; right; exact Hp).
    destruct r as [v|e].
    + assert (P : forall e n, (if replaces best e n then Some (v, e, n) else best) <> None).
      { intros e n. destruct best; [destruct replaces; discriminate|discriminate]. }
      destruct (st_exactness s1) as [[| |]|]; destruct (st_fields_set s1) as [n|];
        first [exists v; reflexivity|apply IH; [exact HR'|left; apply P]].
    + destruct (HR _ (or_introl eq_refl)) as [[w Hw]|[es He]]; [discriminate Hw|]. cbn in He. injection He as ->.
      apply IH; [exact HR'|]. destruct HE as [H|H]; [left; exact H|right].
      inversion H as [? ? [w Hw]|]; subst; [discriminate Hw|assumption].
Qed.

Lemma last_shift : forall {A} (l : list A) x d, last (x :: l) d = last l x.
Proof.
  intros A l. induction l as [|y l IH]; intros x d; [reflexivity|].
  change (last (x :: y :: l) d) with (last (y :: l) d). rewrite !IH. reflexivity.
Qed.

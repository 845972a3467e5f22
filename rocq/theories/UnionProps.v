(** C22-C25: unions over arbitrary member validators. *)
From Coq Require Import List NArith ZArith Bool Lia.
From Verif Require Import Base Float64 Values VState LookupKey Collections Child Inputs Wrappers Union UnionSpec UnionProofs ModelFieldsProps.
Import ListNotations.
Open Scope nat_scope.

(** A member that returns [v], matched with exactness [e] and setting [n] fields. *)
Definition member (l : str) (e : exactness) (n : option nat) (v : pyval) : choice :=
  {| ch_validator := fun _ s => let s1 := floor_exactness e s in (VOk v, match n with Some k => add_fields_set k s1 | None => s1 end);
     ch_label := l |}.
(** A member that rejects its input. *)
Definition rejecting (l : str) (t : etype) : choice := {| ch_validator := fun i s => (val_err t i, s); ch_label := l |}.

(** ** C22: smart mode *)

(** It succeeds iff some member accepts. *)
Theorem C22_succeeds_iff : forall custom cs i s,
  (forall o, In o (outcomes cs i s) -> accepted o \/ rejected o) ->
  ((exists v, fst (validate_smart custom cs i s) = VOk v) <-> exists o, In o (outcomes cs i s) /\ accepted o).
Proof.
  intros custom cs i s HR. split.
  - intros [v Hv]. destruct (Exists_dec accepted (outcomes cs i s)) as [E|E].
    + intros o. unfold accepted. destruct (o_result o); [left; eauto|right; intros [? ?]; discriminate].
    + apply Exists_exists in E. exact E.
    + exfalso. assert (HF : forall o, In o (outcomes cs i s) -> rejected o).
      { intros o Ho. destruct (HR o Ho) as [A|A]; [|exact A]. exfalso. apply E, Exists_exists. eauto. }
      destruct (smart_all_fail custom (st_exactness s) (st_fields_set s) cs i s [] HF) as [s' L].
      unfold validate_smart in Hv. rewrite L in Hv. discriminate Hv.
  - intros (o & Ho & A). pose proof (smart_some custom (st_exactness s) (st_fields_set s) cs i s None [] HR) as H.
    unfold validate_smart. destruct (smart_loop _ _ _ _ _ _ _ _) as [b e s1|r s1].
    + destruct b as [[[v e0] n]|]; [exists v; reflexivity|]. destruct H; [right; apply Exists_exists; eauto|reflexivity].
    + destruct H as [v ->]; [right; apply Exists_exists; eauto|]. exists v. reflexivity.
Qed.
Print Assumptions C22_succeeds_iff.

(** The value is the one of the best member, the earliest among equals; the caller's
    exactness is lowered to that member's and its fields are added to the count. *)
Theorem C22_best_match : forall custom cs i s,
  (forall o, In o (outcomes cs i s) -> accepted o \/ rejected o) ->
  comparable (outcomes cs i s) ->
  (exists o, In o (outcomes cs i s) /\ accepted o) ->
  exists o v s', best_of (outcomes cs i s) o /\ o_result o = VOk v /\ validate_smart custom cs i s = (VOk v, s') /\
    st_exactness s' = st_exactness (floor_exactness (exactness_of o) s) /\
    st_fields_set s' = match o_count o with
                       | Some n => Some (n + match st_fields_set s with Some m => m | None => 0 end)
                       | None => st_fields_set s
                       end.
Proof.
  intros custom cs i s HR HC (a & Ha & Aa).
  assert (U : exists u, forall o, In o (outcomes cs i s) -> accepted o -> kind u o).
  { destruct HC as [H|H]; [exists false|exists true]; intros o Ho Ao; specialize (H o Ho Ao); unfold kind; split; intros; congruence || auto. }
  destruct U as [u HK].
  pose proof (smart_scan u custom (st_exactness s) (st_fields_set s) cs i s None [] HR HK) as L.
  specialize (L ltac:(discriminate)). cbn [of_best] in L.
  destruct (scan None (outcomes cs i s)) as [b|] eqn:S.
  2:{ apply scan_None in S. destruct S as [_ S]. contradiction (S a Ha Aa). }
  assert (B : best_of (outcomes cs i s) b).
  { apply scan_key in S. destruct S as [[E _]|(pre & post & Ho & Ab & H1 & H2 & _)]; [discriminate E|].
    assert (Kb : kind u b) by (apply HK; [rewrite Ho; apply in_elt|exact Ab]).
    exists pre, post. split; [exact Ho|]. split; [exact Ab|]. split.
    - intros p Hp Ap. assert (Kp : kind u p) by (apply HK; [rewrite Ho; apply in_or_app; left; exact Hp|exact Ap]).
      apply better_key; [unfold kind in *; tauto|]. apply H1; assumption.
    - intros p Hp Ap. assert (Kp : kind u p) by (apply HK; [rewrite Ho; apply in_or_app; right; right; exact Hp|exact Ap]).
      rewrite better_key; [|unfold kind in *; tauto]. specialize (H2 p Hp Ap). lia. }
  assert (Ab : accepted b) by (destruct B as (? & ? & _ & A & _); exact A). destruct Ab as [v Hv].
  unfold validate_smart. destruct (smart_loop _ _ _ _ _ _ _ _) as [b' errs s1|r s1].
  - destruct L as [-> _]. cbn [of_best]. unfold of_outcome. rewrite Hv.
    exists b, v. eexists. split; [exact B|]. split; [exact Hv|]. split; [reflexivity|]. destruct (o_count b) as [n|].
    + cbn [add_fields_set set_fields_set st_exactness st_fields_set]. rewrite floor_count. split.
      * unfold floor_exactness. cbn [set_fields_set set_exactness st_exactness].
        destruct (st_exactness s) as [[| |]|] eqn:X; cbn; try reflexivity; [symmetry; exact X| |symmetry; exact X].
        destruct (exactness_of b); cbn; congruence.
      * cbn. unfold unwrap_or. f_equal. lia.
    + rewrite floor_count. cbn [set_fields_set st_fields_set]. split; [|reflexivity].
      unfold floor_exactness. cbn [set_fields_set set_exactness st_exactness].
      destruct (st_exactness s) as [[| |]|] eqn:X; cbn; try reflexivity; [symmetry; exact X| |symmetry; exact X].
      destruct (exactness_of b); cbn; congruence.
  - destruct L as (b1 & v1 & E & Hv1 & -> & EX & CN & SE & SF). injection E as <-.
    exists b, v1, s1. split; [exact B|]. split; [exact Hv1|]. split; [reflexivity|]. rewrite CN, SF, EX, SE. split; [|reflexivity].
    unfold floor_exactness. destruct (st_exactness s) as [[| |]|] eqn:X; cbn; congruence.
Qed.
Print Assumptions C22_best_match.

Example C22_nonvacuous :
  let cs := [rejecting (lit "a") EIntType; member (lit "b") Lax (Some 1) (PInt 1); member (lit "c") Strict (Some 2) (PInt 2);
             member (lit "d") Exact (Some 2) (PInt 3); member (lit "e") Exact (Some 2) (PInt 4)] in
  fst (validate_smart None cs (IPy PNone) ex_state) = VOk (PInt 3) /\
  (forall o, In o (outcomes cs (IPy PNone) ex_state) -> accepted o \/ rejected o) /\ comparable (outcomes cs (IPy PNone) ex_state).
Proof.
  split; [reflexivity|]. split.
  - intros o H. cbn in H. repeat (destruct H as [<-|H]; [first [left; eexists; reflexivity|right; eexists; reflexivity]|]). destruct H.
  - left. intros o H A. cbn in H. destruct H as [<-|H]; [destruct A as [? A]; discriminate A|].
    repeat (destruct H as [<-|H]; [discriminate|]). destruct H.
Qed.

(** With members that count fields and members that do not, the member chosen need
    not be maximal: an earlier one, which set more fields, is better. *)
Theorem C22_maximal_refuted : exists cs i s o, 
  (forall o, In o (outcomes cs i s) -> accepted o) /\ In o (outcomes cs i s) /\
  fst (validate_smart None cs i s) = VOk (PInt 3) /\
  exists chosen, In chosen (outcomes cs i s) /\ o_result chosen = VOk (PInt 3) /\ better o chosen /\
    (forall p, In p (outcomes cs i s) -> o_result p = VOk (PInt 3) -> p = chosen).
Proof.
  exists [member (lit "five fields") Lax (Some 5) (PInt 1); member (lit "str") Strict None (PInt 2); member (lit "one field") Exact (Some 1) (PInt 3)],
    (IPy PNone), ex_state, {| o_label := lit "five fields"; o_result := VOk (PInt 1); o_exactness := Some Lax; o_count := Some 5 |}.
  split; [|split; [left; reflexivity|split; [reflexivity|]]].
  - intros o H. cbn in H. repeat (destruct H as [<-|H]; [eexists; reflexivity|]). destruct H.
  - exists {| o_label := lit "one field"; o_result := VOk (PInt 3); o_exactness := Some Exact; o_count := Some 1 |}.
    split; [right; right; left; reflexivity|]. split; [reflexivity|]. split; [cbn; left; lia|].
    intros p H E. cbn in H. destruct H as [<-|[<-|[<-|[]]]]; try discriminate E. reflexivity.
Qed.
Print Assumptions C22_maximal_refuted.

(** An exact match that sets no fields wins against an earlier, equally exact match
    that does. *)
Theorem C22_ties_refuted : exists cs i s o1 o2,
  outcomes cs i s = [o1; o2] /\ accepted o1 /\ ~ better o2 o1 /\
  fst (validate_smart None cs i s) = o_result o2 /\ o_result o1 <> o_result o2.
Proof.
  exists [member (lit "model") Exact (Some 1) (PInt 1); member (lit "instance") Exact None (PInt 2)], (IPy PNone), ex_state.
  eexists. eexists. split; [reflexivity|]. split; [eexists; reflexivity|]. split; [cbn; tauto|]. split; [reflexivity|discriminate].
Qed.
Print Assumptions C22_ties_refuted.

(** ** C23: left-to-right mode *)

(** The first member that does not fail with line errors decides, whatever the later
    members are. *)
Theorem C23_first_match : forall custom pre c post i s,
  Forall (fun o => rejected (fst o)) (ltr_outcomes pre i s) ->
  let s0 := last (map snd (ltr_outcomes pre i s)) s in
  (forall es, fst (ch_validator c i s0) <> VErr (LineErrors es)) ->
  validate_left_to_right custom (pre ++ c :: post) i s = ch_validator c i s0.
Proof.
  intros custom pre c post i s HF s0 HN. unfold validate_left_to_right. subst s0. generalize (@nil (str * list line_error)).
  revert s HF HN. induction pre as [|p pre IH]; intros s HF HN errs.
  - cbn [app ltr_loop ltr_outcomes map last] in *. destruct (ch_validator c i s) as [r s1].
    destruct r as [v|[es|e| | |]]; try reflexivity. contradiction (HN es eq_refl).
  - cbn [app ltr_loop ltr_outcomes] in *. destruct (ch_validator p i s) as [r s1]. inversion HF as [|? ? [es He] HF']; subst.
    cbn in He. subst r. cbn [map snd] in *. rewrite last_shift in *. apply IH; assumption.
Qed.
Print Assumptions C23_first_match.

Example C23_nonvacuous :
  fst (validate_left_to_right None ([rejecting (lit "a") EIntType] ++ member (lit "b") Lax (Some 1) (PInt 1) :: [member (lit "c") Exact None (PInt 2)])
    (IPy PNone) ex_state) = VOk (PInt 1).
Proof. reflexivity. Qed.

(** It fails with line errors only when every member does. *)
Theorem C23_fails_iff : forall custom cs i s,
  (exists es, fst (validate_left_to_right custom cs i s) = VErr (LineErrors es)) <->
  Forall (fun o => rejected (fst o)) (ltr_outcomes cs i s).
Proof.
  intros custom cs i s. unfold validate_left_to_right. generalize (@nil (str * list line_error)). revert s.
  induction cs as [|c cs IH]; intros s errs; cbn [ltr_loop ltr_outcomes].
  - split; [constructor|]. intros _. unfold into_val_error. destruct custom; eexists; reflexivity.
  - destruct (ch_validator c i s) as [r s1]. destruct (rejected_dec r) as [[es ->]|N].
    + rewrite IH. split; intros H; [constructor; [exists es; reflexivity|exact H]|inversion H; assumption].
    + split.
      * intros [es He]. exfalso. destruct r as [v|[l|e| | |]]; try discriminate He. contradiction (N l eq_refl).
      * intros H. inversion H as [|? ? [es He] ?]; subst. cbn in He. contradiction (N es He).
Qed.
Print Assumptions C23_fails_iff.

(** ** C24: errors of a failed union *)
Theorem C24_smart_errors : forall custom cs i s,
  (forall o, In o (outcomes cs i s) -> rejected o) ->
  fst (validate_smart custom cs i s) =
    VErr (LineErrors (match custom with Some t => [new_error t i] | None => labelled (outcomes cs i s) end)).
Proof.
  intros custom cs i s HF. destruct (smart_all_fail custom (st_exactness s) (st_fields_set s) cs i s [] HF) as [s' L].
  unfold validate_smart. rewrite L. cbn [fst]. destruct custom as [t|]; [reflexivity|].
  cbn [into_val_error app]. rewrite labelled_flat. reflexivity.
Qed.
Print Assumptions C24_smart_errors.

Theorem C24_left_to_right_errors : forall custom cs i s,
  Forall (fun o => rejected (fst o)) (ltr_outcomes cs i s) ->
  fst (validate_left_to_right custom cs i s) =
    VErr (LineErrors (match custom with Some t => [new_error t i] | None => labelled (map fst (ltr_outcomes cs i s)) end)).
Proof.
  intros custom cs i s HF. unfold validate_left_to_right.
  enough (G : forall errs, fst (ltr_loop custom cs i errs s) = VErr (into_val_error custom
     (match custom with Some _ => errs | None => errs ++ map (fun o => (o_label o, errors_of o)) (map fst (ltr_outcomes cs i s)) end) i)).
  { rewrite G. destruct custom as [t|]; [reflexivity|]. cbn [into_val_error app]. rewrite labelled_flat. reflexivity. }
  revert s HF. induction cs as [|c cs IH]; intros s HF errs; cbn [ltr_loop ltr_outcomes] in *.
  - destruct custom; [reflexivity|]. cbn [map]. rewrite app_nil_r. reflexivity.
  - destruct (ch_validator c i s) as [r s1]. inversion HF as [|? ? [es He] HF']; subst. cbn in He. subst r.
    rewrite IH; [|exact HF']. destruct custom as [t|]; cbn [push_errors map fst]; [reflexivity|]. rewrite <- app_assoc. reflexivity.
Qed.
Print Assumptions C24_left_to_right_errors.

Example C24_nonvacuous :
  let cs := [rejecting (lit "int") EIntType; rejecting (lit "str") EStringType] in
  (forall o, In o (outcomes cs (IPy PNone) ex_state) -> rejected o) /\
  fst (validate_smart None cs (IPy PNone) ex_state) =
    VErr (LineErrors [with_outer (LStr (lit "int")) (new_error EIntType (IPy PNone)); with_outer (LStr (lit "str")) (new_error EStringType (IPy PNone))]).
Proof.
  split; [|reflexivity]. intros o H. cbn in H. repeat (destruct H as [<-|H]; [eexists; reflexivity|]). destruct H.
Qed.

(** ** C25: bookkeeping *)

(** A smart union leaves the caller's books in order whatever its members do. *)
Theorem C25_smart : forall custom cs, keeps_books (validate_smart custom cs).
Proof. exact smart_keeps. Qed.
Print Assumptions C25_smart.

Theorem C25_left_to_right : forall custom cs,
  (forall c, In c cs -> keeps_books (ch_validator c)) -> keeps_books (validate_left_to_right custom cs).
Proof.
  intros custom cs HC i s r s' H F. unfold validate_left_to_right in H. revert H. generalize (@nil (str * list line_error)). revert s.
  induction cs as [|c cs IH]; intros s errs H; cbn [ltr_loop] in H.
  - injection H as <- <-. split; [apply exactness_le_refl|apply count_le_refl].
  - destruct (ch_validator c i s) as [r1 s1] eqn:R. destruct (rejected_dec r1) as [[es ->]|N].
    + destruct (HC c (or_introl eq_refl) i s _ _ R) as [E1 E2]; [right; eauto|].
      destruct (IH (fun c Hc => HC c (or_intror Hc)) s1 _ H) as [E3 E4].
      split; [eapply exactness_le_trans; eassumption|eapply count_le_trans; eassumption].
    + assert (E : (r1, s1) = (r, s')) by (destruct r1 as [v|[l|e| | |]]; try exact H; contradiction (N l eq_refl)).
      injection E as -> ->. exact (HC c (or_introl eq_refl) i s r s' R F).
Qed.
Print Assumptions C25_left_to_right.

Example C25_nonvacuous : forall custom,
  keeps_books (validate_left_to_right custom [{| ch_validator := validate_smart None [member (lit "x") Lax (Some 1) (PInt 1)]; ch_label := lit "u" |}]) /\
  validate_smart None [member (lit "x") Lax (Some 1) (PInt 1)] (IPy PNone) (set_exactness (Some Exact) ex_state)
    = (VOk (PInt 1), add_fields_set 1 (set_exactness (Some Lax) ex_state)).
Proof. intros custom. split; [apply C25_left_to_right; intros c [<-|[]]; apply C25_smart|reflexivity]. Qed.

(** The claim is false of a list whose items are a union with a member that omits:
    the union forgets to restore the exactness, and the list, which drops the item,
    succeeds with a higher exactness than it was given. *)
Theorem C25_omit_refuted : exists items i s v s',
  list_validate {| co_strict := false; co_min := None; co_max := None; co_fail_fast := false |}
    (Some (validate_smart None items)) validate_list i s = (VOk v, s') /\
  st_exactness s = Some Lax /\ st_exactness s' = Some Exact.
Proof.
  exists [{| ch_validator := cv_validate (wd_cv 1 {| wd_default_kind := DNone; wd_on_error := OnOmit; wd_inner := ex_int; wd_validate_default := false |});
             ch_label := lit "omit" |}], (IPy (PList [PStr (lit "x")])), (set_exactness (Some Lax) ex_state).
  eexists. eexists. split; [reflexivity|]. split; reflexivity.
Qed.
Print Assumptions C25_omit_refuted.

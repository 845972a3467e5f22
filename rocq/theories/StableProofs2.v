From Coq Require Import List NArith ZArith Bool Lia.
From Verif Require Import Base Float64 Values VState LookupKey Collections Child Inputs Scalars Wrappers Tuple Interp InterpSpec ConformSpec StableSpec StableProofs.
Import ListNotations.
Open Scope nat_scope.

(** ** Tuples *)
Lemma take_py n : forall it m, ti_rest it = py_items m -> ti_err it = None -> n <= length m ->
  exists it', ti_take n it = (map IPy (firstn n m), it') /\ ti_rest it' = py_items (skipn n m) /\ ti_err it' = None.
Proof.
  induction n as [|n IH]; intros it m R E L; cbn [ti_take firstn skipn map]; [now exists it|].
  destruct m as [|x m]; [cbn in L; lia|]. unfold ti_next. rewrite R. cbn [py_items map].
  destruct (IH {| ti_rest := map (fun v => It (IPy v)) m; ti_pos := S (ti_pos it); ti_err := ti_err it |} m eq_refl E ltac:(cbn in L; lia)) as (it' & -> & R' & E').
  exists it'. now repeat split.
Qed.
Section TupleForward.
Variable lim : bool.
Variable c : tuple_cfg. Variable i : input. Variable actual : option nat.
Variable total : nat.
Hypothesis fits : forall m, tu_max c = Some m -> total <= m.

Definition clean (it : titer) : Prop := ti_err it = None /\ exists m, ti_rest it = py_items m.
Definition halted (a : tacc) : Prop := calm (ta_state a) /\ lim = true /\ badl (ta_errs a) /\ clean (ta_iter a) /\ stop_now c a = true.
Definition reached (done : list pyval) (a : tacc) : Prop :=
  calm (ta_state a) /\ (ta_errs a = [] /\ ta_out a = done \/ lim = true /\ badl (ta_errs a) /\ length (ta_out a) <= length done) /\ clean (ta_iter a).
Lemma next_clean it : clean it -> clean (snd (ti_next it)).
Proof. intros [A [[|x m] B]]; unfold ti_next; rewrite B; cbn; split; try assumption; [now exists []|now exists m]. Qed.
Lemma stop_halted done a : reached done a -> stop_now c a = true -> halted a.
Proof.
  intros (C & Q & K) S. pose proof S as S0. unfold stop_now in S. apply andb_prop in S. destruct S as [_ S]. destruct Q as [[Q _]|(L & B & _)]; [rewrite Q in S; discriminate|].
  split; [exact C|]. split; [exact L|]. now split.
Qed.
Lemma use_forward done a v x ix it : reached done a -> fixes lim v x -> S (length done) <= total -> clean it ->
  exists a', use_item c i actual ix (v (IPy x) (ta_state a)) (ta_move it a) = TDone a' /\ reached (done ++ [x]) a' /\ ta_iter a' = it.
Proof.
  intros (C & Q & K) F T CI. destruct (F _ C) as [C1 R]. destruct (v (IPy x) (ta_state a)) as [r s1]. cbn in C1, R. destruct R as [->|(L & e & -> & l & -> & B)]; cbn [use_item].
  - unfold push_output_item. cbn [ta_move ta_out ta_errs].
    assert (LN : length (ta_out a ++ [x]) <= S (length done)). { rewrite app_length. destruct Q as [[_ ->]|(_ & _ & Q)]; cbn; lia. }
    assert (G : exists a', TDone (ta_with (ta_out a ++ [x]) (ta_errs a) s1 (ta_move it a)) = TDone a' /\ reached (done ++ [x]) a' /\ ta_iter a' = it).
    { eexists. split; [reflexivity|]. split; [|reflexivity]. split; [exact C1|]. split; [|exact CI]. cbn. destruct Q as [[A ->]|(L & B & D)]; [left; now split|right]. split; [exact L|]. split; [exact B|]. rewrite !app_length. cbn. lia. }
    destruct (tu_max c) as [m|] eqn:M; [|exact G]. specialize (fits m eq_refl). destruct (Nat.ltb_spec m (length (ta_out a ++ [x]))); [lia|exact G].
  - eexists. split; [reflexivity|]. split; [|reflexivity]. split; [exact C1|]. split; [|exact CI]. right. split; [exact L|]. cbn. split; [apply badl_r, badl_outer; [reflexivity|exact B]|].
    rewrite app_length. destruct Q as [[_ ->]|(_ & _ & Q)]; cbn; lia.
Qed.
Lemma items_forward vs zs more : Forall2 (fun v z => fixes lim (cv_validate v) z) vs zs -> forall done a, reached done a -> ti_rest (ta_iter a) = py_items (zs ++ more) -> length done + length zs <= total ->
  exists a', tuple_items c i actual vs a = TDone a' /\ (halted a' \/ reached (done ++ zs) a' /\ ti_rest (ta_iter a') = py_items more).
Proof.
  induction 1 as [|v z vs zs FV F IH]; intros done a RA RI T; cbn [tuple_items].
  - exists a. split; [reflexivity|]. right. rewrite app_nil_r. now split.
  - cbn [app py_items map] in RI. cbn in T. destruct (ti_next (ta_iter a)) as [o it] eqn:N. pose proof (next_clean (ta_iter a)) as CI. rewrite N in CI. cbn in CI. unfold ti_next in N. rewrite RI in N. injection N as <- <-.
    destruct (use_forward done a (cv_validate v) z (ta_count a) _ RA FV ltac:(lia) (CI ltac:(apply RA))) as (a' & -> & RA' & IT).
    destruct (stop_now c a') eqn:SN; [exists a'; split; [reflexivity|]; left; exact (stop_halted _ _ RA' SN)|].
    destruct (IH (done ++ [z]) a' RA') as (a2 & -> & Q); [now rewrite IT|rewrite app_length; cbn; lia|]. exists a2. split; [reflexivity|]. destruct Q as [Q|[Q1 Q2]]; [now left|right].
    rewrite <- app_assoc in Q1. now split.
Qed.
Lemma move_reached done a it : reached done a -> clean it -> reached done (ta_move it a).
Proof. intros (A & B & C) D. split; [exact A|]. now split. Qed.
Lemma rest_forward v zs : (forall z, In z zs -> fixes lim (cv_validate v) z) -> forall done a, reached done a -> length done + length zs <= total ->
  exists a', tuple_rest c i actual v (py_items zs) a = TDone a' /\ (halted a' \/ reached (done ++ zs) a').
Proof.
  induction zs as [|z zs IH]; intros H done a RA T; cbn [py_items map tuple_rest].
  - eexists. split; [reflexivity|]. right. rewrite app_nil_r. apply move_reached; [exact RA|]. apply next_clean, RA.
  - cbn in T. assert (CI : clean (snd (ti_next (ta_iter a)))) by (apply next_clean, RA).
    destruct (use_forward done a (cv_validate v) z (ta_count a) _ RA (H z (or_introl eq_refl)) ltac:(lia) CI) as (a' & -> & RA' & IT).
    destruct (stop_now c a') eqn:SN; [exists a'; split; [reflexivity|]; left; exact (stop_halted _ _ RA' SN)|].
    destruct (IH (fun y Y => H y (or_intror Y)) (done ++ [z]) a' RA') as (a2 & A2 & Q); [rewrite app_length; cbn; lia|]. exists a2. split; [exact A2|]. now rewrite <- app_assoc in Q.
Qed.
Lemma buffered_forward v rs : forall mid tl bs done ix a, (forall z, In z mid -> fixes lim (cv_validate v) z) -> bs ++ rs = mid ++ tl -> length bs = length tl ->
  reached done a -> length done + length mid <= total ->
  match tuple_buffered c i actual v (py_items rs) (map IPy bs) ix a with
  | BEnd a' buf' _ => buf' = map IPy tl /\ reached (done ++ mid) a'
  | BReturn r => exists a', r = TDone a' /\ halted a'
  end.
Proof.
  induction rs as [|x rs IH]; intros mid tl bs done ix a H EQ LN RA T; cbn [py_items map tuple_buffered].
  - rewrite app_nil_r in EQ. assert (mid = []) as ->. { apply (f_equal (@length _)) in EQ. rewrite app_length in EQ. destruct mid; [reflexivity|cbn in EQ; lia]. }
    cbn in EQ. subst bs. rewrite app_nil_r. split; [reflexivity|]. apply move_reached; [exact RA|]. apply next_clean, RA.
  - destruct mid as [|y mid]. { exfalso. apply (f_equal (@length _)) in EQ. rewrite app_length in EQ. cbn in EQ. lia. }
    assert (E2 : exists bs', bs ++ [x] = y :: bs' /\ bs' ++ rs = mid ++ tl /\ length bs' = length tl).
    { destruct bs as [|b bs]; cbn in EQ |- *; injection EQ as -> EQ.
      - exists []. split; [reflexivity|]. now split.
      - exists (bs ++ [x]). split; [reflexivity|]. split; [now rewrite <- app_assoc|]. rewrite app_length. cbn in *. lia. }
    destruct E2 as (bs' & E2 & E3 & E4). replace (map IPy bs ++ [IPy x]) with (map IPy (bs ++ [x])) by now rewrite map_app. rewrite E2. cbn [map].
    cbn in T. assert (CI : clean (snd (ti_next (ta_iter a)))) by (apply next_clean, RA).
    destruct (use_forward done a (cv_validate v) y (ta_count a) _ RA (H y (or_introl eq_refl)) ltac:(lia) CI) as (a' & -> & RA' & IT).
    destruct (stop_now c a') eqn:SN; [exists a'; split; [reflexivity|]; exact (stop_halted _ _ RA' SN)|].
    specialize (IH mid tl bs' (done ++ [y]) (ta_count a) a' (fun z Z => H z (or_intror Z)) E3 E4 RA'). rewrite <- app_assoc in IH. apply IH. rewrite app_length. cbn. lia.
Qed.
End TupleForward.

(** The values of a tuple, position by position. *)
Lemma Forall2_app_l A B (R : A -> B -> Prop) l1 l2 m : Forall2 R (l1 ++ l2) m -> exists m1 m2, m = m1 ++ m2 /\ Forall2 R l1 m1 /\ Forall2 R l2 m2.
Proof. intros H. apply Forall2_app_inv_l in H. destruct H as (m1 & m2 & A1 & A2 & ->). now exists m1, m2. Qed.
Lemma Forall2_rep A B (R : A -> B -> Prop) x n m : Forall2 R (repeat x n) m -> forall z, In z m -> R x z.
Proof. revert m. induction n as [|n IH]; intros m H; inversion H; subst; intros z Z; [destruct Z|]. destruct Z as [<-|Z]; [assumption|]. eapply IH; eassumption. Qed.
Lemma F2_len A B (R : A -> B -> Prop) l m : Forall2 R l m -> length l = length m. Proof. induction 1; cbn; congruence. Qed.
Lemma F2_map A B C (f : A -> B) (R : B -> C -> Prop) l m : Forall2 (fun a c => R (f a) c) l m -> Forall2 R (map f l) m.
Proof. induction 1; cbn; constructor; auto. Qed.

Lemma tuple_stays lim ev c xs n l : tu_validators c = map ev xs -> (forall k, tu_variadic c = Some k -> k < length xs) ->
  Forall2 (fun sc z => fixes lim (cv_validate (ev sc)) z) (expanded xs (tu_variadic c) n) l ->
  (forall m, tu_min c = Some m -> m <= length l) -> (forall m, tu_max c = Some m -> length l <= m) ->
  fixes lim (tuple_validate c validate_tuple) (PTuple l).
Proof.
  intros EV VK F MN MX s C. unfold tuple_validate. cbv zeta. cbn [validate_tuple strip py_seq sq_items sq_len sq_exactness]. fold (py_items l).
  set (i := IPy (PTuple l)). set (s1 := floor_exactness Exact (set_partial PartialOff s)). assert (C1 : calm s1) by (apply calm_floor, calm_partial, C).
  set (a0 := {| ta_out := []; ta_errs := []; ta_count := 0; ta_iter := {| ti_rest := py_items l; ti_pos := 0; ti_err := None |}; ta_state := s1 |}).
  assert (R0 : reached lim [] a0). { split; [exact C1|]. split; [left; now split|]. split; [reflexivity|]. now exists l. }
  assert (G : exists a, tuple_variable c i (Some (length l)) a0 = TDone a /\ (halted lim c a \/ reached lim l a)).
  { unfold tuple_variable. rewrite EV. unfold expanded in F. destruct (tu_variadic c) as [k|].
    - specialize (VK k eq_refl). rewrite skipn_map, firstn_map.
      destruct (nth_error xs k) as [x|] eqn:NE; [|apply nth_error_None in NE; lia].
      assert (SK : skipn k xs = x :: skipn (S k) xs). { clear - NE. revert xs NE. induction k as [|k IH]; intros [|y xs]; try discriminate; cbn; [now intros [= <-]|]. intros. now apply IH. }
      rewrite SK. cbn [map]. set (tl := skipn (S k) xs) in *.
      apply Forall2_app_l in F. destruct F as (l1 & l' & -> & F1 & F). apply Forall2_app_l in F. destruct F as (l2 & l3 & -> & F2 & F3).
      pose proof (Forall2_rep _ _ _ _ _ _ F2) as F2'. pose proof (F2_len _ _ _ _ _ F3) as L3.
      destruct (items_forward lim c i (Some (length (l1 ++ l2 ++ l3))) (length (l1 ++ l2 ++ l3)) MX _ _ (l2 ++ l3) (F2_map _ _ _ ev (fun v z => fixes lim (cv_validate v) z) _ _ F1) [] a0 R0 eq_refl) as (a1 & -> & Q1); [rewrite app_length; cbn; lia|].
      destruct (stop_now c a1) eqn:SN. { exists a1. split; [reflexivity|left]. destruct Q1 as [Q1|[Q1 _]]; [exact Q1|exact (stop_halted lim c _ _ Q1 SN)]. }
      destruct Q1 as [(_ & _ & _ & _ & Q1)|[Q1 RI]]; [rewrite Q1 in SN; discriminate|]. cbn [app] in Q1.
      destruct tl as [|y tl'] eqn:TL; cbn [map].
      + destruct l3; [|discriminate]. rewrite app_nil_r in *. rewrite RI.
        destruct (rest_forward lim c i (Some (length (l1 ++ l2))) (length (l1 ++ l2)) MX (ev x) l2 F2' l1 a1 Q1) as (a2 & -> & Q2); [rewrite app_length; lia|]. exists a2. now split.
      + rewrite <- map_cons. rewrite map_length, L3. destruct (take_py (length l3) (ta_iter a1) (l2 ++ l3) RI) as (it & -> & RT & ET); [apply Q1|rewrite app_length; lia|].
        set (a2 := {| ta_out := ta_out a1; ta_errs := ta_errs a1; ta_count := ta_count a1; ta_iter := it; ta_state := ta_state a1 |}).
        assert (Q2 : reached lim l1 a2). { destruct Q1 as (A & B & _). split; [exact A|]. split; [exact B|]. split; [exact ET|]. now exists (skipn (length l3) (l2 ++ l3)). }
        rewrite RT. 
        pose proof (buffered_forward lim c i (Some (length (l1 ++ l2 ++ l3))) (length (l1 ++ l2 ++ l3)) MX (ev x) (skipn (length l3) (l2 ++ l3)) l2 l3 (firstn (length l3) (l2 ++ l3)) l1 (ta_count a2) a2 F2') as B.
        specialize (B (firstn_skipn _ _)). rewrite firstn_length_le in B by (rewrite app_length; lia). specialize (B eq_refl Q2). rewrite !app_length in B. specialize (B ltac:(lia)). rewrite !app_length.
        destruct (tuple_buffered _ _ _ _ _ _ _ _) as [a3 buf' ix|r].
        * destruct B as [-> B]. set (a3' := {| ta_out := ta_out a3; ta_errs := ta_errs a3; ta_count := ix; ta_iter := {| ti_rest := map It (map IPy l3); ti_pos := 0; ti_err := None |}; ta_state := ta_state a3 |}).
          assert (RI3 : ti_rest (ta_iter a3') = py_items (l3 ++ [])). { rewrite app_nil_r. cbn. now rewrite map_map. }
          assert (Q3 : reached lim (l1 ++ l2) a3'). { destruct B as (A & B & _). split; [exact A|]. split; [exact B|]. split; [reflexivity|]. now exists (l3 ++ []). }
          destruct (items_forward lim c i (Some (length l1 + (length l2 + length l3))) (length (l1 ++ l2 ++ l3)) MX _ _ [] (F2_map _ _ _ ev (fun v z => fixes lim (cv_validate v) z) _ _ F3) (l1 ++ l2) a3' Q3 RI3) as (a4 & -> & Q4); [rewrite !app_length; lia|].
          eexists. split; [reflexivity|]. destruct Q4 as [(A & B1 & B2 & B3 & B4)|[(A & B1 & B2) _]].
          -- left. split; [exact A|]. split; [exact B1|]. split; [exact B2|]. split; [apply B|exact B4].
          -- right. rewrite <- app_assoc in B1. split; [exact A|]. split; [exact B1|]. apply B.
        * destruct B as (a3 & -> & B). exists a3. split; [reflexivity|now left].
    - destruct (items_forward lim c i (Some (length l)) (length l) MX _ _ [] (F2_map _ _ _ ev (fun v z => fixes lim (cv_validate v) z) _ _ F) [] a0 R0) as (a1 & -> & Q1); [now rewrite app_nil_r|cbn; lia|].
      destruct (stop_now c a1) eqn:SN. { exists a1. split; [reflexivity|left]. destruct Q1 as [Q1|[Q1 _]]; [exact Q1|exact (stop_halted lim c _ _ Q1 SN)]. }
      destruct Q1 as [(_ & _ & _ & _ & Q1)|[Q1 RI]]; [rewrite Q1 in SN; discriminate|]. unfold ti_next. rewrite RI. cbn [py_items map]. eexists. split; [reflexivity|]. right. apply move_reached; [exact Q1|]. split; [apply Q1|now exists []]. }
  destruct G as (a & -> & Q). cbv iota.
  assert (K : ti_err (ta_iter a) = None) by (destruct Q as [(_ & _ & _ & Q & _)|(_ & _ & Q)]; apply Q). rewrite K. cbv zeta.
  assert (CA : calm (ta_state a)) by (destruct Q as [Q|Q]; apply Q).
  assert (BB : lim = true /\ badl (ta_errs a) \/ ta_errs a = [] /\ ta_out a = l). { destruct Q as [(_ & L & B & _)|(_ & [B|(L & B & _)] & _)]; auto. }
  destruct BB as [[L B]|[-> ->]].
  - rewrite (badl_nonnil _ (badl_l _ _ B)). split; [exact CA|right]. split; [exact L|]. eexists. split; [reflexivity|]. eexists. split; [reflexivity|]. now apply badl_l.
  - cbn [app]. assert (Z : match tu_min c with Some mn => if length l <? mn then [new_error (ETooShort CTuple mn (length l)) i] else [] | None => [] end = []).
    { destruct (tu_min c) as [m|]; [|reflexivity]. specialize (MN m eq_refl). destruct (Nat.ltb_spec (length l) m); [lia|reflexivity]. }
    rewrite Z. cbn [is_nil]. split; [exact CA|now left].
Qed.

(** Validators that read every item of their input give a value with the items read. *)
From Coq Require Import List NArith ZArith Bool Lia.
From Verif Require Import Base Float64 Values VState LookupKey Collections Child Inputs Scalars Wrappers Tuple ModelFields TypedDict Assign Classes Interp InterpSpec InterpProofs ConformSpec ConformProofs5 StableSpec StableProofs StableProofs2 StableProofs3.
Import ListNotations.
Open Scope nat_scope.

Section Forward.
Variables vba vbn : option bool.
Record fresh (s : state) : Prop := { fr_partial : st_partial s = PartialOff; fr_alias : x_by_alias (st_extra s) = vba; fr_name : x_by_name (st_extra s) = vbn }.
Definition gives (P : pyval -> Prop) (v : validator) (i : input) : Prop := forall s, fresh s -> exists y s', v i s = (VOk y, s') /\ P y /\ fresh s'.

Lemma fresh_partial s : fresh s -> fresh (set_partial PartialOff s). Proof. intros []. now constructor. Qed.
Lemma fresh_floor e s : fresh s -> fresh (floor_exactness e s).
Proof. unfold floor_exactness. destruct (st_exactness s) as [[]|]; try destruct e; auto; intros []; now constructor. Qed.
Lemma fresh_data d s : fresh s -> fresh (set_extra (set_data d (st_extra s)) s). Proof. intros []. now constructor. Qed.
Lemma fresh_field n s : fresh s -> fresh (set_extra (set_field_name n (st_extra s)) s). Proof. intros []. now constructor. Qed.
Lemma fresh_count n s : fresh s -> fresh (add_fields_set n s). Proof. intros []. now constructor. Qed.
Lemma fresh_back s s' : fresh s -> fresh s' -> fresh (set_extra (st_extra s) s'). Proof. intros [] []. now constructor. Qed.
Lemma gives_impl (P Q : pyval -> Prop) v i : (forall y, P y -> Q y) -> gives P v i -> gives Q v i.
Proof. intros H G s F. destruct (G s F) as (y & s' & A & B & C). exists y, s'. auto. Qed.

Section Seqs.
Variable R : pyval -> pyval -> Prop.
Lemma vec_gives child ff is xs : Forall2 (fun i x => gives (R x) child i) is xs -> forall mc out k s, fresh s ->
  (forall mx, mc_max mc = Some mx -> mc_current mc + length xs <= mx) ->
  exists ys s', vec_loop child ff PartialOff mc out [] (enumerate_from false k (map It is)) s = (VOk (out ++ ys), s') /\ Forall2 R xs ys /\ fresh s'.
Proof.
  induction 1 as [|i x is xs G F IH]; intros mc out k s C M; cbn [map enumerate_from vec_loop].
  - exists [], s. rewrite app_nil_r. split; [reflexivity|]. split; [constructor|exact C].
  - cbv zeta. cbn [andb]. cbv iota. destruct (G _ (fresh_partial _ C)) as (y & s1 & -> & RY & C1).
    assert (MI : exists mc', mc_incr mc = (VOk tt, mc') /\ mc_max mc' = mc_max mc /\ forall mx, mc_max mc = Some mx -> mc_current mc' + length xs <= mx).
    { unfold mc_incr. destruct (mc_max mc) as [mx|] eqn:MM; [|exists mc; repeat split; [assumption|discriminate]]. specialize (M _ eq_refl). cbn in M.
      destruct (Nat.ltb_spec mx (S (mc_current mc))); [lia|]. eexists. split; [reflexivity|]. split; [reflexivity|]. intros mx' [= <-]. cbn. lia. }
    destruct MI as (mc' & -> & MM & MB). destruct (IH mc' (out ++ [y]) (S k) s1 C1 ltac:(now rewrite MM)) as (ys & s2 & -> & RS & C2).
    exists (y :: ys), s2. rewrite <- app_assoc. split; [reflexivity|]. split; [now constructor|exact C2].
Qed.
Lemma list_gives c child vl i sq is xs : (forall st, vl st i = VOk sq) -> sq_items sq = map It is -> Forall2 (fun i x => gives (R x) child i) is xs ->
  within (co_min c) (co_max c) (length xs) -> gives (fun y => exists ys, y = PList ys /\ Forall2 R xs ys) (list_validate c (Some child) vl) i.
Proof.
  intros V I F [W1 W2] s C. unfold list_validate. rewrite V, I. cbv zeta. pose proof (fresh_floor (sq_exactness sq) s C) as C1.
  unfold validate_iter_to_vec, enumerate_last_partial. rewrite (fr_partial _ C1). cbn [is_active].
  match goal with |- context [vec_loop child ?ff PartialOff ?mc [] [] _ _] => destruct (vec_gives child ff is xs F mc [] 0 _ C1 W2) as (ys & s2 & -> & RS & C2) end.
  cbn [app]. rewrite <- (F2_len _ _ _ _ _ RS). rewrite min_check_pass by exact W1. exists (PList ys), s2. split; [reflexivity|]. split; [now exists ys|exact C2].
Qed.

Lemma set_gives_loop child ff c i0 mx is xs : Forall2 (fun i x => gives (eq x) child i) is xs -> (forall x, In x xs -> hashable x = true) -> forall done k s,
  distinct (fun x => x) (done ++ xs) -> (forall m, mx = Some m -> length (done ++ xs) <= m) -> fresh s ->
  exists s', set_loop child ff c i0 mx PartialOff done [] (enumerate_from false k (map It is)) s = (VOk (done ++ xs), s') /\ fresh s'.
Proof.
  induction 1 as [|i x is xs G F IH]; intros H done k s D M C; cbn [map enumerate_from set_loop].
  - exists s. rewrite app_nil_r. now split.
  - cbv zeta. cbn [andb]. cbv iota. destruct (G _ (fresh_partial _ C)) as (y & s1 & Q & <- & C1). unfold validate_add. rewrite Q, (H x (or_introl eq_refl)).
    rewrite (set_add_new x done) by exact (FOP_app _ _ _ _ _ D). rewrite andb_false_r.
    assert (EA : done ++ x :: xs = (done ++ [x]) ++ xs) by now rewrite <- app_assoc. rewrite EA in D, M.
    destruct (IH (fun y Y => H y (or_intror Y)) (done ++ [x]) (S k) s1 D M C1) as (s2 & Q2 & C2). rewrite Q2, EA.
    destruct mx as [m|]; [|now exists s2]. specialize (M m eq_refl). destruct (Nat.ltb_spec m (length (done ++ [x]))); [rewrite app_length in M; lia|now exists s2].
Qed.
Lemma set_gives (frozen : bool) c child vs i sq is xs : (forall st, vs st i = VOk sq) -> sq_items sq = map It is -> Forall2 (fun i x => gives (eq x) child i) is xs ->
  (forall x, In x xs -> hashable x = true) -> distinct (fun x => x) xs -> within (co_min c) (co_max c) (length xs) ->
  gives (eq (if frozen then PFrozenSet xs else PSet xs)) (set_validate frozen c child vs) i.
Proof.
  intros V I F H D [W1 W2] s C. unfold set_validate. rewrite V, I. cbv zeta. pose proof (fresh_floor (sq_exactness sq) s C) as C1.
  unfold validate_iter_to_set, enumerate_last_partial. rewrite (fr_partial _ C1). cbn [is_active].
  destruct (set_gives_loop child (co_fail_fast c) (if frozen then CFrozenset else CSet) i (co_max c) is xs F H [] 0 _ D W2 C1) as (s2 & -> & C2).
  cbn [app]. rewrite min_check_pass by exact W1. eexists _, s2. split; [reflexivity|]. split; [reflexivity|exact C2].
Qed.

Definition entry_gives (kv vv : validator) (e : entry) (x : pyval * pyval) : Prop :=
  exists key kl val, e = Entry key kl val /\ gives (eq (fst x)) kv key /\ gives (R (snd x)) vv val.
Lemma dict_gives_loop kv vv es xs : Forall2 (entry_gives kv vv) es xs -> (forall a b, In (a, b) xs -> hashable a = true) -> forall out k s,
  (exists done, map fst done = map fst out /\ distinct fst (done ++ xs)) -> fresh s ->
  exists ys s', dict_loop kv vv PartialOff out [] (enumerate_from false k es) s = (VOk (out ++ ys), [], s') /\ map fst xs = map fst ys /\ Forall2 R (map snd xs) (map snd ys) /\ fresh s'.
Proof.
  induction 1 as [|e [a b] es xs (key & kl & val & -> & GK & GV) F IH]; intros H out k s (done & DM & D) C; cbn [enumerate_from dict_loop].
  - exists [], s. rewrite app_nil_r. split; [reflexivity|]. split; [reflexivity|]. split; [constructor|exact C].
  - cbv zeta. cbn [andb fst snd] in *. cbv iota. destruct (GK _ (fresh_partial _ C)) as (y & s1 & -> & <- & C1). destruct (GV _ (fresh_partial _ C1)) as (w & s2 & -> & RW & C2).
    unfold set_item. rewrite (H a b (or_introl eq_refl)).
    assert (NW : Forall (fun kv => py_eq (fst kv) a = false) out).
    { pose proof (FOP_app _ _ _ _ _ D) as Q. cbn [fst] in Q. clear - Q DM. revert out DM. induction Q as [|x l Q QS IH]; intros [|o out] DM; try discriminate; constructor; cbn in DM; injection DM as D1 D2; [now rewrite <- D1|now apply IH]. }
    rewrite (dict_set_new _ _ _ NW).
    destruct (IH (fun a b J => H a b (or_intror J)) (out ++ [(a, w)]) (S k) s2) as (ys & s3 & -> & E1 & E2 & C3); [|exact C2|].
    + exists (done ++ [(a, b)]). split; [rewrite !map_app, DM; reflexivity|now rewrite <- app_assoc].
    + exists ((a, w) :: ys), s3. rewrite <- app_assoc. split; [reflexivity|]. cbn. rewrite E1. split; [reflexivity|]. split; [now constructor|exact C3].
Qed.
Lemma dict_gives c kv vv vd i es xs : (forall st, vd st i = VOk es) -> Forall2 (entry_gives kv vv) es xs -> (forall a b, In (a, b) xs -> hashable a = true) -> distinct fst xs ->
  within (co_min c) (co_max c) (length xs) ->
  gives (fun y => exists ys, y = PDict ys /\ map fst xs = map fst ys /\ Forall2 R (map snd xs) (map snd ys)) (dict_validate c kv vv vd) i.
Proof.
  intros V F H D [W1 W2] s C. unfold dict_validate. rewrite V. unfold enumerate_last_partial. rewrite (fr_partial _ C). cbn [is_active].
  destruct (dict_gives_loop kv vv es xs F H [] 0 s ltac:(now exists []) C) as (ys & s' & -> & E1 & E2 & C'). cbn [app is_nil].
  assert (L : length ys = length xs) by (rewrite <- (map_length fst ys), <- E1; apply map_length). rewrite L, min_check_pass by exact W1. rewrite max_check_pass by exact W2.
  eexists _, s'. split; [reflexivity|]. split; [now exists ys|exact C'].
Qed.

(** *** Tuples *)
Lemma take_all n : forall it (m : list input), ti_rest it = map It m -> ti_err it = None -> n <= length m ->
  exists it', ti_take n it = (firstn n m, it') /\ ti_rest it' = map It (skipn n m) /\ ti_err it' = None.
Proof.
  induction n as [|n IH]; intros it m RI E L; cbn [ti_take firstn skipn]; [now exists it|].
  destruct m as [|x m]; [cbn in L; lia|]. unfold ti_next. rewrite RI. cbn [map].
  destruct (IH {| ti_rest := map It m; ti_pos := S (ti_pos it); ti_err := ti_err it |} m eq_refl E ltac:(cbn in L; lia)) as (it' & -> & R' & E').
  exists it'. now repeat split.
Qed.
Section TupleGives.
Variable c : tuple_cfg. Variable i : input. Variable actual : option nat.
Variable total : nat.
Hypothesis fits : forall m, tu_max c = Some m -> total <= m.
Record at_point (done : list pyval) (a : tacc) : Prop := { ap_fresh : fresh (ta_state a); ap_errs : ta_errs a = []; ap_out : Forall2 R done (ta_out a); ap_end : ti_err (ta_iter a) = None }.
Lemma no_stop done a : at_point done a -> stop_now c a = false.
Proof. intros []. unfold stop_now. rewrite ap_errs0. apply andb_false_r. Qed.
Lemma next_end it m : ti_rest it = map It m -> ti_err it = None -> ti_err (snd (ti_next it)) = None.
Proof. intros A B. unfold ti_next. rewrite A. destruct m; exact B. Qed.
Lemma use_gives done a v x z ix it : at_point done a -> gives (R z) v x -> S (length done) <= total -> ti_err it = None ->
  exists a', use_item c i actual ix (v x (ta_state a)) (ta_move it a) = TDone a' /\ at_point (done ++ [z]) a' /\ ta_iter a' = it.
Proof.
  intros [A1 A2 A3 A4] G T E. destruct (G _ A1) as (y & s1 & -> & RY & C1). cbn [use_item]. unfold push_output_item. cbn [ta_move ta_out ta_errs].
  assert (LN : length (ta_out a ++ [y]) = S (length done)). { rewrite app_length, <- (F2_len _ _ _ _ _ A3). cbn. lia. }
  assert (X : exists a', TDone (ta_with (ta_out a ++ [y]) (ta_errs a) s1 (ta_move it a)) = TDone a' /\ at_point (done ++ [z]) a' /\ ta_iter a' = it).
  { eexists. split; [reflexivity|]. split; [|reflexivity]. constructor; cbn; [exact C1|exact A2| |exact E]. apply Forall2_app; [exact A3|now constructor]. }
  destruct (tu_max c) as [m|] eqn:M; [|exact X]. specialize (fits m eq_refl). destruct (Nat.ltb_spec m (length (ta_out a ++ [y]))); [lia|exact X].
Qed.
Definition each (v : cv) (iz : input * pyval) : Prop := gives (R (snd iz)) (cv_validate v) (fst iz).
Lemma items_gives vs izs more : Forall2 each vs izs -> forall done a, at_point done a -> ti_rest (ta_iter a) = map It (map fst izs ++ more) -> length done + length izs <= total ->
  exists a', tuple_items c i actual vs a = TDone a' /\ at_point (done ++ map snd izs) a' /\ ti_rest (ta_iter a') = map It more.
Proof.
  induction 1 as [|v [x z] vs izs FV F IH]; intros done a RA RI T; cbn [tuple_items].
  - exists a. split; [reflexivity|]. cbn. rewrite app_nil_r. now split.
  - cbn [app map fst snd] in RI |- *. cbn in T. pose proof (next_end (ta_iter a) (x :: map fst izs ++ more) RI (ap_end _ _ RA)) as CI. destruct (ti_next (ta_iter a)) as [o it] eqn:N. cbn in CI. unfold ti_next in N. rewrite RI in N. injection N as <- <-.
    destruct (use_gives done a (cv_validate v) x z (ta_count a) _ RA FV ltac:(lia) CI) as (a' & -> & RA' & IT). rewrite (no_stop _ _ RA').
    destruct (IH (done ++ [z]) a' RA') as (a2 & -> & Q1 & Q2); [now rewrite IT|rewrite app_length; cbn; lia|]. exists a2. split; [reflexivity|]. rewrite <- app_assoc in Q1. now split.
Qed.
Lemma move_point done a it : at_point done a -> ti_err it = None -> at_point done (ta_move it a).
Proof. intros []. now constructor. Qed.
Lemma rest_gives v izs : (forall iz, In iz izs -> each v iz) -> forall done a, at_point done a -> ti_rest (ta_iter a) = map It (map fst izs) -> length done + length izs <= total ->
  exists a', tuple_rest c i actual v (map It (map fst izs)) a = TDone a' /\ at_point (done ++ map snd izs) a'.
Proof.
  induction izs as [|[x z] izs IH]; intros H done a RA RI T; cbn [map tuple_rest fst snd].
  - eexists. split; [reflexivity|]. rewrite app_nil_r. apply move_point; [exact RA|]. apply (next_end _ [] RI), RA.
  - cbn in T. pose proof (next_end _ (x :: map fst izs) RI (ap_end _ _ RA)) as CI.
    destruct (use_gives done a (cv_validate v) x z (ta_count a) _ RA (H (x, z) (or_introl eq_refl)) ltac:(lia) CI) as (a' & -> & RA' & IT). rewrite (no_stop _ _ RA').
    destruct (IH (fun y Y => H y (or_intror Y)) (done ++ [z]) a' RA') as (a2 & A2 & Q); [rewrite IT; unfold ti_next; rewrite RI; reflexivity|rewrite app_length; cbn; lia|]. exists a2. split; [exact A2|]. now rewrite <- app_assoc in Q.
Qed.
Lemma buffered_gives v rs : forall mid tl bs done ix a, (forall iz, In iz mid -> each v iz) -> bs ++ rs = map fst mid ++ tl -> length bs = length tl ->
  at_point done a -> ti_rest (ta_iter a) = map It rs -> length done + length mid <= total ->
  match tuple_buffered c i actual v (map It rs) bs ix a with
  | BEnd a' buf' _ => buf' = tl /\ at_point (done ++ map snd mid) a'
  | BReturn r => False
  end.
Proof.
  induction rs as [|x rs IH]; intros mid tl bs done ix a H EQ LN RA RI T; cbn [map tuple_buffered].
  - rewrite app_nil_r in EQ. assert (mid = []) as ->. { apply (f_equal (@length _)) in EQ. rewrite app_length, map_length in EQ. destruct mid; [reflexivity|cbn in EQ; lia]. }
    cbn in EQ. subst bs. cbn. rewrite app_nil_r. split; [reflexivity|]. apply move_point; [exact RA|]. apply (next_end _ [] RI), RA.
  - destruct mid as [|[y z] mid]. { exfalso. apply (f_equal (@length _)) in EQ. rewrite app_length in EQ. cbn in EQ. lia. }
    assert (E2 : exists bs', bs ++ [x] = y :: bs' /\ bs' ++ rs = map fst mid ++ tl /\ length bs' = length tl).
    { destruct bs as [|b bs]; cbn in EQ |- *; injection EQ as -> EQ.
      - exists []. split; [reflexivity|]. now split.
      - exists (bs ++ [x]). split; [reflexivity|]. split; [now rewrite <- app_assoc|]. rewrite app_length. cbn in *. lia. }
    destruct E2 as (bs' & E2 & E3 & E4). rewrite E2.
    cbn in T. pose proof (next_end _ (x :: rs) RI (ap_end _ _ RA)) as CI.
    destruct (use_gives done a (cv_validate v) y z (ta_count a) _ RA (H (y, z) (or_introl eq_refl)) ltac:(lia) CI) as (a' & -> & RA' & IT). rewrite (no_stop _ _ RA').
    specialize (IH mid tl bs' (done ++ [z]) (ta_count a) a' (fun z Z => H z (or_intror Z)) E3 E4 RA'). cbn [map snd]. rewrite <- app_assoc in IH. apply IH; [rewrite IT; unfold ti_next; rewrite RI; reflexivity|]. rewrite app_length. cbn. lia.
Qed.
End TupleGives.

Lemma F2_map_l A B C (f : A -> B) (Q : B -> C -> Prop) l m : Forall2 (fun a c => Q (f a) c) l m -> Forall2 Q (map f l) m.
Proof. induction 1; cbn; constructor; auto. Qed.
Lemma tuple_gives ev c xs n vt i sq izs : (forall st, vt st i = VOk sq) -> sq_items sq = map It (map fst izs) ->
  tu_validators c = map ev xs -> (forall k, tu_variadic c = Some k -> k < length xs) ->
  Forall2 (fun (sc : schema) iz => each (ev sc) iz) (expanded xs (tu_variadic c) n) izs ->
  (forall m, tu_min c = Some m -> m <= length izs) -> (forall m, tu_max c = Some m -> length izs <= m) ->
  gives (fun y => exists ys, y = PTuple ys /\ Forall2 R (map snd izs) ys) (tuple_validate c vt) i.
Proof.
  intros V SI EV VK F MN MX s C. unfold tuple_validate. cbv zeta. rewrite V, SI.
  set (s1 := floor_exactness _ (set_partial PartialOff s)). assert (C1 : fresh s1) by (apply fresh_floor, fresh_partial, C).
  set (a0 := {| ta_out := []; ta_errs := []; ta_count := 0; ta_iter := {| ti_rest := map It (map fst izs); ti_pos := 0; ti_err := None |}; ta_state := s1 |}).
  assert (R0 : at_point [] a0) by (constructor; [exact C1|reflexivity|constructor|reflexivity]).
  assert (G : exists a, tuple_variable c i (sq_len sq) a0 = TDone a /\ at_point (map snd izs) a).
  { unfold tuple_variable. rewrite EV. unfold expanded in F. destruct (tu_variadic c) as [k|].
    - specialize (VK k eq_refl). rewrite skipn_map, firstn_map.
      destruct (nth_error xs k) as [x|] eqn:NE; [|apply nth_error_None in NE; lia].
      assert (SK : skipn k xs = x :: skipn (S k) xs). { clear - NE. revert xs NE. induction k as [|k IH]; intros [|y xs]; try discriminate; cbn; [now intros [= <-]|]. intros. now apply IH. }
      rewrite SK. cbn [map]. set (tl := skipn (S k) xs) in *.
      apply Forall2_app_l in F. destruct F as (l1 & l' & -> & F1 & F). apply Forall2_app_l in F. destruct F as (l2 & l3 & -> & F2 & F3).
      pose proof (Forall2_rep _ _ _ _ _ _ F2) as F2'. pose proof (F2_len _ _ _ _ _ F3) as L3.
      assert (RI0 : ti_rest (ta_iter a0) = map It (map fst l1 ++ map fst (l2 ++ l3))) by (cbn; now rewrite !map_app).
      destruct (items_gives c i (sq_len sq) (length (l1 ++ l2 ++ l3)) MX _ l1 (map fst (l2 ++ l3)) (F2_map_l _ _ _ ev each _ _ F1) [] a0 R0 RI0) as (a1 & -> & Q1 & RI); [rewrite app_length; cbn; lia|].
      rewrite (no_stop c _ _ Q1). cbn [app] in Q1.
      destruct tl as [|y tl'] eqn:TL; cbn [map].
      + destruct l3; [|discriminate]. rewrite app_nil_r in *. rewrite RI.
        destruct (rest_gives c i (sq_len sq) (length (l1 ++ l2)) MX (ev x) l2 F2' _ a1 Q1 RI) as (a2 & -> & Q2); [rewrite app_length, map_length; lia|]. exists a2. rewrite map_app. now split.
      + rewrite <- map_cons. rewrite map_length, L3.
        destruct (take_all (length l3) (ta_iter a1) _ RI) as (it & -> & RT & ET); [apply Q1|rewrite map_length, app_length; lia|].
        set (a2 := {| ta_out := ta_out a1; ta_errs := ta_errs a1; ta_count := ta_count a1; ta_iter := it; ta_state := ta_state a1 |}).
        assert (Q2 : at_point (map snd l1) a2) by (destruct Q1; now constructor).
        rewrite RT.
        pose proof (buffered_gives c i (sq_len sq) (length (l1 ++ l2 ++ l3)) MX (ev x) (skipn (length l3) (map fst (l2 ++ l3))) l2 (map fst l3) (firstn (length l3) (map fst (l2 ++ l3))) (map snd l1) (ta_count a2) a2 F2') as B.
        specialize (B ltac:(rewrite firstn_skipn, map_app; reflexivity)). rewrite firstn_length_le in B by (rewrite map_length, app_length; lia). specialize (B ltac:(now rewrite map_length) Q2 RT). rewrite map_length, !app_length in B. specialize (B ltac:(lia)).
        destruct (tuple_buffered _ _ _ _ _ _ _ _) as [a3 buf' ix|r]; [|destruct B].
        destruct B as [-> B]. set (a3' := {| ta_out := ta_out a3; ta_errs := ta_errs a3; ta_count := ix; ta_iter := {| ti_rest := map It (map fst l3); ti_pos := 0; ti_err := None |}; ta_state := ta_state a3 |}).
        assert (Q3 : at_point (map snd l1 ++ map snd l2) a3') by (destruct B; now constructor).
        assert (RI3 : ti_rest (ta_iter a3') = map It (map fst l3 ++ [])) by (now rewrite app_nil_r).
        destruct (items_gives c i (sq_len sq) (length (l1 ++ l2 ++ l3)) MX _ l3 [] (F2_map_l _ _ _ ev each _ _ F3) _ a3' Q3 RI3) as (a4 & -> & Q4 & _); [rewrite !app_length, !map_length; lia|].
        eexists. split; [reflexivity|]. rewrite !map_app, app_assoc. destruct Q4, B. now constructor.
    - destruct (items_gives c i (sq_len sq) (length izs) MX _ izs [] (F2_map_l _ _ _ ev each _ _ F) [] a0 R0) as (a1 & -> & Q1 & RI); [cbn; now rewrite app_nil_r|cbn; lia|].
      rewrite (no_stop c _ _ Q1). cbn [app] in Q1. unfold ti_next. rewrite RI. cbn [map]. eexists. split; [reflexivity|]. apply move_point; [exact Q1|apply Q1]. }
  destruct G as (a & -> & [A1 A2 A3 A4]). cbv iota. rewrite A4. cbv zeta. rewrite A2.
  pose proof (F2_len _ _ _ _ _ A3) as L. rewrite map_length in L. rewrite <- L. cbn [app].
  assert (Z : match tu_min c with Some mn => if length izs <? mn then [new_error (ETooShort CTuple mn (length izs)) i] else [] | None => [] end = []).
  { destruct (tu_min c) as [m|]; [|reflexivity]. specialize (MN m eq_refl). destruct (Nat.ltb_spec (length izs) m); [lia|reflexivity]. }
  rewrite Z. cbn [is_nil]. eexists _, _. split; [reflexivity|]. split; [now exists (ta_out a)|exact A1].
Qed.
End Seqs.
End Forward.

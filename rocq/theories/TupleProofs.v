(** Lemmas about the tuple loops. *)
From Coq Require Import List NArith ZArith Bool Lia.
From Verif Require Import Base Float64 Values VState Collections CollectionsSpec Child Tuple TupleSpec.
Import ListNotations.
Open Scope nat_scope.

(** All the loops at once: every slot with its location. *)
Inductive cres := CDone (out : list pyval) (errs : list line_error) (s : state)
                | CStop (out : list pyval) (errs : list line_error) (s : state)
                | CFail (e : verror) (s : state).

Section Core.
Variable c : tuple_cfg.
Variable i : input.
Variable actual : option nat.

Definition over (n : nat) : bool := match tu_max c with Some mx => Nat.ltb mx n | None => false end.
Definition too_long : verror :=
  match tu_max c with Some mx => LineErrors [new_error (ETooLong CTuple mx actual) i] | None => Panic end.

Definition one (l : nat) (v : cv) (xs : list input) (out : list pyval) (errs : list line_error) (s : state) : cres :=
  match xs with
  | x :: _ =>
      match cv_validate v x s with
      | (VOk y, s') => if over (length (out ++ [y])) then CFail too_long s' else CDone (out ++ [y]) errs s'
      | (VErr (LineErrors es), s') => CDone out (errs ++ map (with_outer (index_loc l)) es) s'
      | (VErr Omit, s') => CDone out errs s'
      | (VErr e, s') => CFail e s'
      end
  | [] =>
      match cv_default v (Some (index_loc l)) s with
      | (VOk (Some y), s') => CDone (out ++ [y]) errs s'
      | (VOk None, s') => CDone out (errs ++ [new_error_loc EMissing i (index_loc l)]) s'
      | (VErr e, s') => CFail e s'
      end
  end.
Fixpoint core (ls : list (nat * cv)) (xs : list input) (out : list pyval) (errs : list line_error) (s : state) : cres :=
  match ls with
  | [] => CDone out errs s
  | (l, v) :: ls' =>
      match one l v xs out errs s with
      | CDone out' errs' s' => if tu_fail_fast c && negb (is_nil errs') then CStop out' errs' s' else core ls' (tl xs) out' errs' s'
      | r => r
      end
  end.

Lemma core_app : forall l1 l2 xs out errs s,
  core (l1 ++ l2) xs out errs s =
  match core l1 xs out errs s with CDone o e s' => core l2 (skipn (length l1) xs) o e s' | r => r end.
Proof.
  induction l1 as [|[l v] l1 IH]; intros l2 xs out errs s; [reflexivity|]. cbn [app core length].
  destruct (one l v xs out errs s) as [o e s'|o e s'|e s']; try reflexivity.
  destruct (tu_fail_fast c && negb (is_nil e)); [reflexivity|]. rewrite IH.
  replace (skipn (S (length l1)) xs) with (skipn (length l1) (tl xs)); [reflexivity|]. destruct xs; cbn [tl skipn]; [apply skipn_nil|reflexivity].
Qed.

Definition locs (n : nat) (vs : list cv) : list (nat * cv) := combine (List.seq n (length vs)) vs.

Definition agrees (a : tacc) (n : nat) (xs : list input) (r : cres) (t : tres) : Prop :=
  match r with
  | CFail e s' => t = TFail e s'
  | CStop out errs s' => exists a', t = TDone a' /\ ta_out a' = out /\ ta_errs a' = errs /\ ta_state a' = s' /\
      stop_now c a' = true /\ ti_err (ta_iter a') = None
  | CDone out errs s' => exists a', t = TDone a' /\ ta_out a' = out /\ ta_errs a' = errs /\ ta_state a' = s' /\
      stop_now c a' = false /\ ti_err (ta_iter a') = None /\ ti_rest (ta_iter a') = map It (skipn n xs) /\ ta_count a' = ta_count a + n
  end.

Lemma use_item_one : forall l v x xs it a, 
  match one l v (x :: xs) (ta_out a) (ta_errs a) (ta_state a) with
  | CDone o e s' => use_item c i actual l (cv_validate v x (ta_state a)) (ta_move it a) =
      TDone (ta_with o e s' (ta_move it a))
  | CFail e s' => use_item c i actual l (cv_validate v x (ta_state a)) (ta_move it a) = TFail e s'
  | CStop _ _ _ => False
  end.
Proof.
  intros l v x xs it a. cbn [one]. destruct (cv_validate v x (ta_state a)) as [[y|[es|e| | |]] s']; cbn [use_item]; try reflexivity.
  unfold push_output_item, over, too_long. cbn [ta_out ta_move ta_errs].
  destruct (tu_max c) as [mx|]; [|reflexivity]. destruct (mx <? length (ta_out a ++ [y])); reflexivity.
Qed.

Lemma items_core : forall vs a xs, ti_rest (ta_iter a) = map It xs -> ti_err (ta_iter a) = None -> stop_now c a = false ->
  agrees a (length vs) xs (core (locs (ta_count a) vs) xs (ta_out a) (ta_errs a) (ta_state a)) (tuple_items c i actual vs a).
Proof.
  induction vs as [|v vs IH]; intros a xs HR HE HS.
  - cbn. exists a. rewrite Nat.add_0_r. repeat split; auto.
  - cbn [tuple_items locs length List.seq combine core]. unfold ti_next. rewrite HR.
    destruct xs as [|x xs]; cbn [map].
    + cbn [one ta_count ta_move]. rewrite Nat.sub_succ, Nat.sub_0_r.
      assert (K : forall out errs s', 
         agrees a (length (v :: vs)) [] (if tu_fail_fast c && negb (is_nil errs) then CStop out errs s' else core (locs (S (ta_count a)) vs) [] out errs s')
           (let a' := ta_with out errs s' (ta_move {| ti_rest := []; ti_pos := S (ti_pos (ta_iter a)); ti_err := ti_err (ta_iter a) |} a) in
            if stop_now c a' then TDone a' else tuple_items c i actual vs a')).
      { intros out errs s'. cbv zeta. set (a' := ta_with out errs s' _).
        assert (SN : stop_now c a' = tu_fail_fast c && negb (is_nil errs)) by reflexivity. rewrite SN.
        destruct (tu_fail_fast c && negb (is_nil errs)) eqn:F.
        - exists a'. repeat split; auto.
        - specialize (IH a' [] eq_refl HE SN). change (ta_count a') with (S (ta_count a)) in IH. change (ta_out a') with out in IH. change (ta_errs a') with errs in IH. change (ta_state a') with s' in IH.
          destruct (core (locs (S (ta_count a)) vs) [] out errs s') as [o e s2|o e s2|e s2]; cbn [agrees] in *.
          + destruct IH as (b & -> & ? & ? & ? & ? & ? & ? & HC). exists b. repeat split; auto.
            { rewrite skipn_nil in *. assumption. } rewrite HC. cbn. lia.
          + exact IH.
          + exact IH. }
      destruct (cv_default v (Some (index_loc (ta_count a))) (ta_state a)) as [[[y|]|e] s'].
      * apply K.
      * apply K.
      * reflexivity.
    + cbn [tl]. pose proof (use_item_one (ta_count a) v x xs {| ti_rest := map It xs; ti_pos := S (ti_pos (ta_iter a)); ti_err := ti_err (ta_iter a) |} a) as U.
      destruct (one (ta_count a) v (x :: xs) (ta_out a) (ta_errs a) (ta_state a)) as [o e s'|o e s'|e s']; [|destruct U|rewrite U; reflexivity].
      rewrite U. set (a' := ta_with o e s' _). assert (SN : stop_now c a' = tu_fail_fast c && negb (is_nil e)) by reflexivity. rewrite SN.
      destruct (tu_fail_fast c && negb (is_nil e)) eqn:F.
      * exists a'. repeat split; auto.
      * specialize (IH a' xs eq_refl HE SN). change (ta_count a') with (S (ta_count a)) in IH. change (ta_out a') with o in IH. change (ta_errs a') with e in IH. change (ta_state a') with s' in IH.
        fold (locs (S (ta_count a)) vs).
        destruct (core (locs (S (ta_count a)) vs) xs o e s') as [o2 e2 s2|o2 e2 s2|e2 s2]; cbn [agrees length skipn] in *.
        -- destruct IH as (b & -> & ? & ? & ? & ? & ? & ? & HC). exists b. repeat split; auto. rewrite HC. cbn. lia.
        -- exact IH.
        -- exact IH.
Qed.

Lemma ti_next_rest : forall it x xs, ti_rest it = map It (x :: xs) ->
  ti_rest (snd (ti_next it)) = map It xs /\ ti_err (snd (ti_next it)) = ti_err it.
Proof. intros it x xs H. unfold ti_next. rewrite H. split; reflexivity. Qed.
Lemma ti_next_end : forall it, ti_rest it = [] -> ti_rest (snd (ti_next it)) = [] /\ ti_err (snd (ti_next it)) = ti_err it.
Proof. intros it H. unfold ti_next. rewrite H. split; reflexivity. Qed.

(** Only out, errors, state and the absence of an iteration error matter at the end. *)
Definition ends (r : cres) (t : tres) : Prop :=
  match r with
  | CFail e s' => t = TFail e s'
  | CStop out errs s' | CDone out errs s' =>
      exists a', t = TDone a' /\ ta_out a' = out /\ ta_errs a' = errs /\ ta_state a' = s' /\ ti_err (ta_iter a') = None
  end.

Lemma rest_core : forall v xs a, ti_rest (ta_iter a) = map It xs -> ti_err (ta_iter a) = None ->
  ends (core (locs (ta_count a) (repeat v (length xs))) xs (ta_out a) (ta_errs a) (ta_state a)) (tuple_rest c i actual v (map It xs) a).
Proof.
  intros v xs. induction xs as [|x xs IH]; intros a HR HE.
  - cbn. eexists. split; [reflexivity|]. repeat split. cbn. unfold ti_next. rewrite HR. exact HE.
  - cbn [map tuple_rest length repeat locs List.seq combine core tl].
    pose proof (use_item_one (ta_count a) v x xs (snd (ti_next (ta_iter a))) a) as U.
    destruct (one (ta_count a) v (x :: xs) (ta_out a) (ta_errs a) (ta_state a)) as [o e s'|o e s'|e s']; [|destruct U|rewrite U; reflexivity].
    rewrite U. set (a' := ta_with o e s' _). assert (SN : stop_now c a' = tu_fail_fast c && negb (is_nil e)) by reflexivity. rewrite SN.
    destruct (ti_next_rest _ _ _ HR) as [HR' HE']. rewrite HE in HE'.
    destruct (tu_fail_fast c && negb (is_nil e)) eqn:F.
    + exists a'. repeat split; auto.
    + apply (IH a'); assumption.
Qed.

Lemma buffered_core : forall v rest buf index a, ti_rest (ta_iter a) = map It rest -> ti_err (ta_iter a) = None ->
  match core (locs (ta_count a) (repeat v (length rest))) (buf ++ rest) (ta_out a) (ta_errs a) (ta_state a) with
  | CFail e s' => tuple_buffered c i actual v (map It rest) buf index a = BReturn (TFail e s')
  | CStop out errs s' => exists a', tuple_buffered c i actual v (map It rest) buf index a = BReturn (TDone a') /\
      ta_out a' = out /\ ta_errs a' = errs /\ ta_state a' = s' /\ ti_err (ta_iter a') = None
  | CDone out errs s' => exists a', tuple_buffered c i actual v (map It rest) buf index a =
        BEnd a' (skipn (length rest) (buf ++ rest)) (match rest with [] => index | _ => ta_count a + length rest - 1 end) /\
      ta_out a' = out /\ ta_errs a' = errs /\ ta_state a' = s' /\ ti_err (ta_iter a') = None
  end.
Proof.
  intros v rest. induction rest as [|x rest IH]; intros buf index a HR HE.
  - cbn. eexists. split; [rewrite app_nil_r; reflexivity|]. repeat split. cbn. unfold ti_next. rewrite HR. exact HE.
  - cbn [map tuple_buffered length repeat locs List.seq combine core].
    replace (buf ++ x :: rest) with ((buf ++ [x]) ++ rest) by (rewrite <- app_assoc; reflexivity).
    destruct (buf ++ [x]) as [|y buf'] eqn:EB; [destruct buf; discriminate|]. cbn [app tl].
    pose proof (use_item_one (ta_count a) v y (buf' ++ rest) (snd (ti_next (ta_iter a))) a) as U.
    destruct (one (ta_count a) v (y :: buf' ++ rest) (ta_out a) (ta_errs a) (ta_state a)) as [o e s'|o e s'|e s']; [|destruct U|rewrite U; reflexivity].
    rewrite U. set (a' := ta_with o e s' _). assert (SN : stop_now c a' = tu_fail_fast c && negb (is_nil e)) by reflexivity. rewrite SN.
    destruct (ti_next_rest _ _ _ HR) as [HR' HE']. rewrite HE in HE'.
    destruct (tu_fail_fast c && negb (is_nil e)) eqn:F.
    + exists a'. repeat split; auto.
    + specialize (IH buf' (ta_count a) a' HR' HE').
      change (ta_count a') with (S (ta_count a)) in IH. change (ta_out a') with o in IH. change (ta_errs a') with e in IH. change (ta_state a') with s' in IH.
      fold (locs (S (ta_count a)) (repeat v (length rest))).
      destruct (core (locs (S (ta_count a)) (repeat v (length rest))) (buf' ++ rest) o e s') as [o2 e2 s2|o2 e2 s2|e2 s2].
      * destruct IH as (b & E & H). exists b. split; [|exact H]. rewrite E. cbn [skipn]. f_equal. destruct rest; cbn [length]; lia.
      * exact IH.
      * exact IH.
Qed.

Lemma ti_take_ok : forall n it xs, ti_rest it = map It xs -> ti_err it = None ->
  fst (ti_take n it) = firstn n xs /\ ti_rest (snd (ti_take n it)) = map It (skipn n xs) /\ ti_err (snd (ti_take n it)) = None.
Proof.
  induction n as [|n IH]; intros it xs HR HE; [repeat split; assumption|].
  cbn [ti_take]. unfold ti_next. rewrite HR. destruct xs as [|x xs]; cbn [map].
  - repeat split. exact HE.
  - specialize (IH {| ti_rest := map It xs; ti_pos := S (ti_pos it); ti_err := ti_err it |} xs eq_refl HE).
    destruct (ti_take n _) as [ys it'] eqn:E. cbn [fst snd firstn skipn] in *. destruct IH as (-> & H1 & H2). auto.
Qed.

(** The located slots of an input of length [n]. *)
Definition located_slots (n : nat) : list (nat * cv) :=
  combine (map (reported_position c n) (List.seq 0 (length (slots c n)))) (slots c n).

Lemma combine_app {A B} : forall (l1 l2 : list A) (m1 m2 : list B), length l1 = length m1 -> combine (l1 ++ l2) (m1 ++ m2) = combine l1 m1 ++ combine l2 m2.
Proof. induction l1 as [|a l1 IH]; intros l2 [|b m1] m2 H; try discriminate; [reflexivity|]. cbn. f_equal. apply IH. injection H as H. exact H. Qed.
Lemma locs_app : forall n vs1 vs2, locs n (vs1 ++ vs2) = locs n vs1 ++ locs (n + length vs1) vs2.
Proof. intros n vs1 vs2. unfold locs. rewrite app_length, seq_app. apply combine_app. apply seq_length. Qed.
Lemma locs_length : forall n vs, length (locs n vs) = length vs.
Proof. intros n vs. unfold locs. rewrite combine_length, seq_length. apply Nat.min_id. Qed.

Lemma map_seq_ext : forall f g n k, (forall j, k <= j < k + n -> f j = g j) -> map (f : nat -> nat) (List.seq k n) = map g (List.seq k n).
Proof. intros f g n. induction n as [|n IH]; intros k H; [reflexivity|]. cbn. f_equal; [apply H; lia|]. apply IH. intros j Hj. apply H. lia. Qed.
Lemma map_seq_shift : forall d n k, map (fun j => j - d) (List.seq (k + d) n) = List.seq k n.
Proof. intros d n. induction n as [|n IH]; intros k; [reflexivity|]. cbn. f_equal; [lia|]. apply (IH (S k)). Qed.

(** [located_slots] for a variadic tuple. *)
Lemma located_variadic : forall k v tail n, tu_variadic c = Some k -> skipn k (tu_validators c) = v :: tail ->
  let m := n - (length (tu_validators c) - 1) in
  located_slots n = locs 0 (firstn k (tu_validators c)) ++ locs k (repeat v m) ++ locs (match m with 0 => k | _ => k + m - 1 end) tail.
Proof.
  intros k v tail n HV HT m. unfold located_slots.
  assert (HL : length (firstn k (tu_validators c)) = k).
  { rewrite firstn_length. assert (length (skipn k (tu_validators c)) = S (length tail)) by (rewrite HT; reflexivity). rewrite skipn_length in H. lia. }
  assert (ES : slots c n = firstn k (tu_validators c) ++ repeat v m ++ tail) by (unfold slots; rewrite HV, HT; reflexivity).
  rewrite ES. rewrite !app_length, HL, repeat_length. rewrite !seq_app, !map_app. cbn [Nat.add].
  rewrite combine_app by (rewrite map_length, seq_length; auto). rewrite combine_app by (rewrite map_length, seq_length, repeat_length; auto).
  unfold locs. rewrite HL, repeat_length. f_equal; [|f_equal].
  - f_equal. rewrite <- (map_id (List.seq 0 k)) at 2. apply map_seq_ext. intros j Hj. unfold reported_position. rewrite HV. fold m.
    destruct (k + m <=? j) eqn:E; [apply Nat.leb_le in E; lia|reflexivity].
  - f_equal. rewrite <- (map_id (List.seq k m)) at 2. apply map_seq_ext. intros j Hj. unfold reported_position. rewrite HV. fold m.
    destruct (k + m <=? j) eqn:E; [apply Nat.leb_le in E; lia|reflexivity].
  - f_equal. destruct m as [|m'] eqn:Em.
    + rewrite Nat.add_0_r. transitivity (map (fun x : nat => x) (List.seq k (length tail))); [|apply map_id]. apply map_seq_ext. intros j Hj. unfold reported_position. rewrite HV. fold m. rewrite Em. cbn [Nat.eqb negb]. rewrite andb_false_r. reflexivity.
    + replace (k + S m') with ((k + S m' - 1) + 1) at 1 by lia. transitivity (map (fun j => j - 1) (List.seq (k + S m' - 1 + 1) (length tail))); [|apply map_seq_shift]. apply map_seq_ext. intros j Hj. unfold reported_position. rewrite HV. fold m. rewrite Em.
      assert (H1 : k + S m' <=? j = true) by (apply Nat.leb_le; lia). rewrite H1. reflexivity.
Qed.

Lemma located_fixed : forall n, tu_variadic c = None -> located_slots n = locs 0 (tu_validators c).
Proof.
  intros n HV. unfold located_slots, slots, locs. rewrite HV. f_equal. rewrite <- (map_id (List.seq 0 _)) at 2. apply map_seq_ext.
  intros j _. unfold reported_position. rewrite HV. reflexivity.
Qed.

(** The whole loop. *)
Lemma variable_core : forall xs a, good_tuple c ->
  ti_rest (ta_iter a) = map It xs -> ti_err (ta_iter a) = None -> ta_count a = 0 -> ta_errs a = [] ->
  match core (located_slots (length xs)) xs (ta_out a) [] (ta_state a) with
  | CDone out errs s' =>
      match tu_variadic c with
      | None => if length (tu_validators c) <? length xs
                then tuple_variable c i actual a = TFail (LineErrors [new_error (ETooLong CTuple (length (tu_validators c)) actual) i]) s'
                else ends (CDone out errs s') (tuple_variable c i actual a)
      | Some _ => ends (CDone out errs s') (tuple_variable c i actual a)
      end
  | r => ends r (tuple_variable c i actual a)
  end.
Proof.
  intros xs a HG HR HE HC HN.
  assert (HS : stop_now c a = false) by (unfold stop_now; rewrite HN; apply andb_false_r).
  unfold tuple_variable, good_tuple in *. destruct (tu_variadic c) as [k|] eqn:HV.
  - destruct (skipn k (tu_validators c)) as [|v tail] eqn:HT.
    { assert (length (skipn k (tu_validators c)) = 0) by (rewrite HT; reflexivity). rewrite skipn_length in H. lia. }
    rewrite (located_variadic k v tail _ HV HT). cbv zeta. rewrite core_app.
    assert (HL : length (firstn k (tu_validators c)) = k) by (rewrite firstn_length; lia).
    assert (HLT : length (tu_validators c) = k + S (length tail)).
    { rewrite <- (firstn_skipn k (tu_validators c)), app_length, HL, HT. reflexivity. }
    pose proof (items_core (firstn k (tu_validators c)) a xs HR HE HS) as IC. rewrite HC, HN in IC.
    destruct (core (locs 0 (firstn k (tu_validators c))) xs (ta_out a) [] (ta_state a)) as [o e s1|o e s1|e s1]; cbn [agrees] in IC.
    2:{ destruct IC as (a1 & -> & ? & ? & ? & -> & ?). exists a1. auto. }
    2:{ rewrite IC. reflexivity. }
    destruct IC as (a1 & -> & <- & <- & <- & HS1 & HE1 & HR1 & HC1). rewrite HS1. rewrite locs_length, HL in *.
    set (ys := skipn k xs) in *. assert (HY : length ys = length xs - k) by (apply skipn_length).
    set (m := length xs - (length (tu_validators c) - 1)) in *.
    destruct tail as [|t tail'].
    + (* nothing after the variadic item *)
      assert (Em : m = length ys) by (unfold m; rewrite HLT, HY; cbn [length]; lia).
      rewrite core_app. rewrite HR1. pose proof (rest_core v ys a1 HR1 HE1) as RC. rewrite HC1, Nat.add_comm in RC. cbn [Nat.add] in RC. rewrite HC in RC. rewrite Nat.add_0_r in RC.
      rewrite Em. destruct (core (locs k (repeat v (length ys))) ys _ _ _); exact RC.
    + set (tail := t :: tail') in *.
      pose proof (ti_take_ok (length tail) (ta_iter a1) ys HR1 HE1) as TK.
      destruct (ti_take (length tail) (ta_iter a1)) as [buf it]. cbn [fst snd] in TK. destruct TK as (EB & ER & EE).
      set (a2 := {| ta_out := ta_out a1; ta_errs := ta_errs a1; ta_count := ta_count a1; ta_iter := it; ta_state := ta_state a1 |}).
      rewrite ER. pose proof (buffered_core v (skipn (length tail) ys) buf (ta_count a2) a2 ER EE) as BC.
      assert (EY : buf ++ skipn (length tail) ys = ys) by (rewrite EB; apply firstn_skipn). rewrite EY in BC.
      assert (Em : length (skipn (length tail) ys) = m) by (rewrite skipn_length, HY; unfold m; rewrite HLT; lia). rewrite Em in BC.
      change (ta_count a2) with (ta_count a1) in BC. rewrite HC1, HC in BC. cbn [Nat.add ta_out ta_errs ta_state a2] in BC.
      rewrite core_app. 
      destruct (core (locs k (repeat v m)) ys (ta_out a1) (ta_errs a1) (ta_state a1)) as [o e s2|o e s2|e s2] eqn:EC2.
      2:{ cbn [ta_count a2]. rewrite HC1, HC. cbn [Nat.add]. destruct BC as (a3 & -> & ? & ? & ? & ?). exists a3. auto. }
      2:{ cbn [ta_count a2]. rewrite HC1, HC. cbn [Nat.add]. rewrite BC. reflexivity. }
      cbn [ta_count a2]. rewrite HC1, HC. cbn [Nat.add]. destruct BC as (a3 & -> & <- & <- & <- & HE3).
      rewrite locs_length, repeat_length.
      assert (Eidx : match skipn (length tail) ys with [] => k | _ :: _ => k + m - 1 end = match m with 0 => k | S _ => k + m - 1 end).
      { destruct (skipn (length tail) ys); cbn [length] in Em; subst m; rewrite <- Em; reflexivity. }
      rewrite Eidx. set (idx := match m with 0 => k | S _ => k + m - 1 end).
      set (a4 := {| ta_out := ta_out a3; ta_errs := ta_errs a3; ta_count := idx; ta_iter := {| ti_rest := map It (skipn m ys); ti_pos := 0; ti_err := None |}; ta_state := ta_state a3 |}).
      assert (HS4 : stop_now c a4 = false).
      { (* the core did not stop *)
        unfold stop_now. cbn [ta_errs a4].
        assert (NS : forall ls zs o e s' o2 e2 s2', tu_fail_fast c && negb (is_nil e) = false -> core ls zs o e s' = CDone o2 e2 s2' -> tu_fail_fast c && negb (is_nil e2) = false).
        { clear. induction ls as [|[l w] ls IH]; intros zs o e s' o2 e2 s2' F H; cbn [core] in H; [injection H as <- <- <-; exact F|].
          destruct (one l w zs o e s') as [o3 e3 s3|o3 e3 s3|e3 s3]; try discriminate H.
          destruct (tu_fail_fast c && negb (is_nil e3)) eqn:F3; [discriminate H|]. eapply IH; eassumption. }
        eapply NS; [|exact EC2].
        exact HS1. }
      pose proof (items_core tail a4 (skipn m ys) eq_refl eq_refl HS4) as IC.
      change (ta_count a4) with idx in IC. cbn [ta_out ta_errs ta_state a4] in IC.
      destruct (core (locs idx tail) (skipn m ys) (ta_out a3) (ta_errs a3) (ta_state a3)) as [o e s3|o e s3|e s3]; cbn [agrees] in IC.
      * destruct IC as (a5 & -> & ? & ? & ? & _). eexists. split; [reflexivity|]. cbn. auto.
      * destruct IC as (a5 & -> & ? & ? & ? & _). eexists. split; [reflexivity|]. cbn. auto.
      * rewrite IC. reflexivity.
  - rewrite (located_fixed _ HV). pose proof (items_core (tu_validators c) a xs HR HE HS) as IC. rewrite HC, HN in IC.
    destruct (core (locs 0 (tu_validators c)) xs (ta_out a) [] (ta_state a)) as [o e s1|o e s1|e s1]; cbn [agrees] in IC.
    + destruct IC as (a1 & -> & ? & ? & <- & -> & HE1 & HR1 & HC1). unfold ti_next. rewrite HR1.
      destruct (length (tu_validators c) <? length xs) eqn:L.
      * apply Nat.ltb_lt in L. assert (Q : length (skipn (length (tu_validators c)) xs) > 0) by (rewrite skipn_length; lia).
        destruct (skipn (length (tu_validators c)) xs); [cbn in Q; lia|]. reflexivity.
      * apply Nat.ltb_ge in L. rewrite skipn_all2 by exact L. cbn [map]. eexists. split; [reflexivity|]. cbn. auto.
    + destruct IC as (a1 & -> & ? & ? & ? & -> & ?). exists a1. auto.
    + rewrite IC. reflexivity.
Qed.
End Core.

(** ** The loop and the results of the slots *)
Section Runs.
Variable c : tuple_cfg.
Variable i : input.
Variable actual : option nat.
Notation core := (core c i actual).

Lemma over_within : forall n, over c n = false <-> within (tu_max c) n.
Proof. intro n. unfold over, within. destruct (tu_max c); [rewrite Nat.ltb_ge; tauto|tauto]. Qed.

Definition at_pos (loc : nat -> nat) (k : nat) (vs : list cv) : list (nat * cv) := combine (map loc (List.seq k (length vs))) vs.

Lemma given_cons : forall r rs, given_values (r :: rs) = (match r with Given (VOk _) => 1 | _ => 0 end) + given_values rs.
Proof. intros r rs. unfold given_values. cbn [filter]. destruct r as [[v|e]|[[v|]|e]]; reflexivity. Qed.
Lemma no_given : forall vs k s, given_values (fst (run_slots k vs [] s)) = 0.
Proof.
  induction vs as [|v vs IH]; intros k s; [reflexivity|]. cbn [run_slots tl].
  destruct (cv_default v (Some (LInt (Z.of_nat k))) s) as [r s1]. specialize (IH (S k) s1). destruct (run_slots (S k) vs [] s1) as [rs s2].
  cbn [fst] in *. rewrite given_cons. exact IH.
Qed.

(** One step of the loop, by the slot's result. *)
Definition run_one (k : nat) (v : cv) (xs : list input) (s : state) : slot_result * state :=
  match xs with
  | x :: _ => let '(r, s1) := cv_validate v x s in (Given r, s1)
  | [] => let '(r, s1) := cv_default v (Some (LInt (Z.of_nat k))) s in (Absent r, s1)
  end.
Lemma run_slots_cons : forall k v vs xs s,
  run_slots k (v :: vs) xs s =
  (fst (run_one k v xs s) :: fst (run_slots (S k) vs (tl xs) (snd (run_one k v xs s))), snd (run_slots (S k) vs (tl xs) (snd (run_one k v xs s)))).
Proof.
  intros k v vs xs s. cbn [run_slots]. fold (run_one k v xs s).
  destruct (run_one k v xs s) as [r s1]. cbn [fst snd]. destruct (run_slots (S k) vs (tl xs) s1). reflexivity.
Qed.
Lemma one_step : forall l k v xs out errs s, (xs = [] -> l = k) ->
  one c i actual l v xs out errs s =
  match run_one k v xs s with
  | (Given (VOk y), s') => if over c (S (length out)) then CFail (too_long c i actual) s' else CDone (out ++ [y]) errs s'
  | (Given (VErr (LineErrors es)), s') => CDone out (errs ++ slot_errors i l (Given (VErr (LineErrors es)))) s'
  | (Given (VErr Omit), s') => CDone out errs s'
  | (Given (VErr e), s') => CFail e s'
  | (Absent (VOk (Some y)), s') => CDone (out ++ [y]) errs s'
  | (Absent (VOk None), s') => CDone out (errs ++ slot_errors i l (Absent (VOk None))) s'
  | (Absent (VErr e), s') => CFail e s'
  end.
Proof.
  intros l k v xs out errs s H. unfold one, run_one. destruct xs as [|x xs].
  - rewrite (H eq_refl). unfold index_loc. destruct (cv_default v (Some (LInt (Z.of_nat k))) s) as [[[y|]|e] s']; reflexivity.
  - destruct (cv_validate v x s) as [[y|[es|e| | |]] s']; try reflexivity. rewrite app_length, Nat.add_comm. reflexivity.
Qed.

Lemma core_regular : forall loc vs k xs out errs s,
  (forall j, k + length xs <= j < k + length vs -> loc j = j) ->
  Forall slot_regular (fst (run_slots k vs xs s)) ->
  xs = [] \/ within (tu_max c) (length out + given_values (fst (run_slots k vs xs s))) ->
  tu_fail_fast c = false \/ (errs = [] /\ slots_errors i loc k (fst (run_slots k vs xs s)) = []) ->
  core (at_pos loc k vs) xs out errs s =
    CDone (out ++ slot_values (fst (run_slots k vs xs s))) (errs ++ slots_errors i loc k (fst (run_slots k vs xs s))) (snd (run_slots k vs xs s)).
Proof.
  intros loc vs. induction vs as [|v vs IH]; intros k xs out errs s HL HR HW HF.
  - cbn. rewrite !app_nil_r. reflexivity.
  - rewrite run_slots_cons in *. cbn [fst snd] in *. cbn [at_pos length List.seq map combine TupleProofs.core].
    rewrite (one_step (loc k) k) by (intros ->; apply HL; cbn; lia).
    destruct (run_one k v xs s) as [r s1] eqn:Er. cbn [fst snd] in *.
    set (rs := fst (run_slots (S k) vs (tl xs) s1)) in *.
    inversion HR as [|? ? HR1 HR2]; subst.
    assert (HL' : forall j, S k + length (tl xs) <= j < S k + length vs -> loc j = j).
    { intros j Hj. apply HL. cbn [length]. destruct xs; cbn [tl length] in *; lia. }
    cbn [slots_errors] in *.
    assert (STEP : forall out' errs', out' = out ++ slot_value r -> errs' = errs ++ slot_errors i (loc k) r ->
      (tl xs = [] \/ within (tu_max c) (length out' + given_values rs)) ->
      (if tu_fail_fast c && negb (is_nil errs') then CStop out' errs' s1 else core (at_pos loc (S k) vs) (tl xs) out' errs' s1) =
      CDone (out ++ slot_values (r :: rs)) (errs ++ slot_errors i (loc k) r ++ slots_errors i loc (S k) rs) (snd (run_slots (S k) vs (tl xs) s1))).
    { intros out' errs' -> -> W'.
      assert (F : tu_fail_fast c && negb (is_nil (errs ++ slot_errors i (loc k) r)) = false).
      { destruct HF as [->|[-> E]]; [reflexivity|]. apply app_eq_nil in E. destruct E as [-> _]. apply andb_false_r. }
      rewrite F. rewrite IH; [|exact HL'|exact HR2|exact W'|].
      - change (slot_values (r :: rs)) with (slot_value r ++ slot_values rs). rewrite !app_assoc. reflexivity.
      - destruct HF as [F0|[-> E]]; [left; exact F0|right]. apply app_eq_nil in E. destruct E as [-> E]. split; [reflexivity|exact E]. }
    rewrite given_cons in HW.
    destruct r as [[y|[es|e| | |]]|[[y|]|e]]; cbn [slot_regular regular] in HR1; try destruct HR1.
    + assert (HX : xs <> []) by (destruct xs; [unfold run_one in Er; destruct (cv_default _ _ _); discriminate Er|discriminate]).
      destruct HW as [HW|HW]; [contradiction|].
      assert (O : over c (S (length out)) = false) by (apply over_within; unfold within in *; destruct (tu_max c); [lia|exact I]). rewrite O.
      apply STEP; cbn [slot_value slot_errors]; rewrite ?app_nil_r; auto. right. rewrite app_length. cbn [length]. unfold within in *. destruct (tu_max c); [lia|exact I].
    + apply STEP; cbn [slot_value slot_errors]; rewrite ?app_nil_r; auto. destruct HW as [->|HW]; [left; reflexivity|right; exact HW].
    + apply STEP; cbn [slot_value slot_errors]; rewrite ?app_nil_r; auto. destruct HW as [->|HW]; [left; reflexivity|right; exact HW].
    + assert (HX : xs = []) by (destruct xs; [reflexivity|unfold run_one in Er; destruct (cv_validate _ _ _); discriminate Er]). subst xs.
      apply STEP; cbn [slot_value slot_errors]; rewrite ?app_nil_r; auto.
    + assert (HX : xs = []) by (destruct xs; [reflexivity|unfold run_one in Er; destruct (cv_validate _ _ _); discriminate Er]). subst xs.
      apply STEP; cbn [slot_value slot_errors]; rewrite ?app_nil_r; auto.
Qed.

(** When the loop runs to its end nothing irregular happened. *)
Lemma core_done : forall loc vs k xs out errs s o e s',
  (forall j, k + length xs <= j < k + length vs -> loc j = j) ->
  core (at_pos loc k vs) xs out errs s = CDone o e s' ->
  Forall slot_regular (fst (run_slots k vs xs s)) /\ o = out ++ slot_values (fst (run_slots k vs xs s)) /\
  e = errs ++ slots_errors i loc k (fst (run_slots k vs xs s)) /\ s' = snd (run_slots k vs xs s) /\
  (given_values (fst (run_slots k vs xs s)) = 0 \/ within (tu_max c) (length out + given_values (fst (run_slots k vs xs s)))).
Proof.
  intros loc vs. induction vs as [|v vs IH]; intros k xs out errs s o e s' HL H.
  - cbn in H |- *. injection H as <- <- <-. rewrite !app_nil_r. repeat split; [constructor|left; reflexivity].
  - rewrite run_slots_cons. cbn [fst snd]. cbn [at_pos length List.seq map combine TupleProofs.core] in H.
    rewrite (one_step (loc k) k) in H by (intros ->; apply HL; cbn; lia).
    destruct (run_one k v xs s) as [r s1] eqn:Er. cbn [fst snd]. set (rs := fst (run_slots (S k) vs (tl xs) s1)) in *.
    assert (HL' : forall j, S k + length (tl xs) <= j < S k + length vs -> loc j = j).
    { intros j Hj. apply HL. cbn [length]. destruct xs; cbn [tl length] in *; lia. }
    assert (STEP : forall out' errs', out' = out ++ slot_value r -> errs' = errs ++ slot_errors i (loc k) r -> slot_regular r ->
      (if tu_fail_fast c && negb (is_nil errs') then CStop out' errs' s1 else core (at_pos loc (S k) vs) (tl xs) out' errs' s1) = CDone o e s' ->
      Forall slot_regular (r :: rs) /\ o = out ++ slot_values (r :: rs) /\ e = errs ++ slots_errors i loc k (r :: rs) /\ s' = snd (run_slots (S k) vs (tl xs) s1) /\
      (given_values rs = 0 \/ within (tu_max c) (length out' + given_values rs))).
    { intros out' errs' -> -> HR1 H1. destruct (tu_fail_fast c && _); [discriminate H1|].
      destruct (IH _ _ _ _ _ _ _ _ HL' H1) as (A & B & C & D & E). fold rs in A, B, C, E.
      change (slot_values (r :: rs)) with (slot_value r ++ slot_values rs). cbn [slots_errors]. rewrite !app_assoc. auto. }
    assert (SAME : match r with Given (VOk _) => False | _ => True end -> forall P : Prop,
       (Forall slot_regular (r :: rs) /\ o = out ++ slot_values (r :: rs) /\ e = errs ++ slots_errors i loc k (r :: rs) /\ s' = snd (run_slots (S k) vs (tl xs) s1) /\
         (given_values rs = 0 \/ within (tu_max c) (length out + length (slot_value r) + given_values rs))) ->
       (match r with Absent _ => given_values rs = 0 | _ => True end) ->
       Forall slot_regular (r :: rs) /\ o = out ++ slot_values (r :: rs) /\ e = errs ++ slots_errors i loc k (r :: rs) /\ s' = snd (run_slots (S k) vs (tl xs) s1) /\
         (given_values (r :: rs) = 0 \/ within (tu_max c) (length out + given_values (r :: rs)))).
    { intros N _ (A & B & C & D & E) G. repeat split; auto. rewrite given_cons. destruct r as [[y|[es|er| | |]]|[[y|]|er]]; try destruct N; cbn [slot_value length] in E; rewrite ?Nat.add_0_r in E; cbn [Nat.add]; auto. }
    assert (AB : xs = [] -> given_values rs = 0) by (intros ->; apply no_given).
    assert (ABX : match r with Absent _ => xs = [] | _ => True end) by (destruct xs; unfold run_one in Er; [destruct (cv_default _ _ _) in Er|destruct (cv_validate _ _ _) in Er]; injection Er as <- <-; auto).
    destruct r as [[y|[es|er| | |]]|[[y|]|er]]; try discriminate H.
    + destruct (over c (S (length out))) eqn:O; [discriminate H|].
      destruct (STEP _ _ eq_refl (eq_sym (app_nil_r errs)) I H) as (A & B & C & D & E). repeat split; auto. right. rewrite given_cons. cbv beta iota.
      rewrite app_length in E. cbn [slot_value length] in E. destruct E as [E|E].
      * rewrite E. apply over_within in O. unfold within in *. destruct (tu_max c); [lia|exact I].
      * unfold within in *. destruct (tu_max c); [lia|exact I].
    + apply (SAME I True); [|exact I]. destruct (STEP _ _ (eq_sym (app_nil_r out)) eq_refl I H) as (A & B & C & D & E). rewrite Nat.add_0_r. auto.
    + apply (SAME I True); [|exact I]. destruct (STEP _ _ (eq_sym (app_nil_r out)) (eq_sym (app_nil_r errs)) I H) as (A & B & C & D & E). rewrite Nat.add_0_r. auto.
    + apply (SAME I True); [|exact (AB ABX)]. destruct (STEP _ _ eq_refl (eq_sym (app_nil_r errs)) I H) as (A & B & C & D & E). rewrite app_length in E. auto.
    + apply (SAME I True); [|exact (AB ABX)]. destruct (STEP _ _ (eq_sym (app_nil_r out)) eq_refl I H) as (A & B & C & D & E). rewrite Nat.add_0_r. auto.
Qed.

Lemma core_stop : forall ls xs out errs s o e s', core ls xs out errs s = CStop o e s' -> tu_fail_fast c = true /\ e <> [].
Proof.
  induction ls as [|[l v] ls IH]; intros xs out errs s o e s' H; cbn [TupleProofs.core] in H; [discriminate H|].
  destruct (one c i actual l v xs out errs s) as [o1 e1 s1|o1 e1 s1|e1 s1] eqn:E; try discriminate H.
  - destruct (tu_fail_fast c && negb (is_nil e1)) eqn:F.
    + injection H as <- <- <-. apply andb_true_iff in F. destruct F as [F1 F2]. split; [exact F1|]. destruct e1; [discriminate F2|discriminate].
    + eapply IH; exact H.
  - unfold one in E. destruct xs; [destruct (cv_default v _ s) as [[[?|]|?] ?]|destruct (cv_validate v i0 s) as [[?|[?|?| | |]] ?]]; try discriminate E.
    destruct (over _ _); discriminate E.
Qed.

Lemma run_slots_app : forall vs1 vs2 k xs s,
  run_slots k (vs1 ++ vs2) xs s =
  (fst (run_slots k vs1 xs s) ++ fst (run_slots (k + length vs1) vs2 (skipn (length vs1) xs) (snd (run_slots k vs1 xs s))),
   snd (run_slots (k + length vs1) vs2 (skipn (length vs1) xs) (snd (run_slots k vs1 xs s)))).
Proof.
  induction vs1 as [|v vs1 IH]; intros vs2 k xs s.
  - cbn. rewrite Nat.add_0_r. destruct (run_slots k vs2 xs s). reflexivity.
  - change ((v :: vs1) ++ vs2) with (v :: (vs1 ++ vs2)). rewrite !run_slots_cons. cbn [fst snd length]. rewrite IH. cbn [fst snd]. rewrite Nat.add_succ_r.
    replace (skipn (length vs1) (tl xs)) with (skipn (S (length vs1)) xs) by (destruct xs; [rewrite !skipn_nil; reflexivity|reflexivity]). reflexivity.
Qed.
Lemma run_slots_length : forall vs k xs s, length (fst (run_slots k vs xs s)) = length vs.
Proof. induction vs as [|v vs IH]; intros k xs s; [reflexivity|]. rewrite run_slots_cons. cbn [fst length]. f_equal. apply IH. Qed.
Lemma at_pos_app : forall loc k vs1 vs2, at_pos loc k (vs1 ++ vs2) = at_pos loc k vs1 ++ at_pos loc (k + length vs1) vs2.
Proof.
  intros loc k vs1 vs2. unfold at_pos. rewrite app_length, seq_app, map_app. apply combine_app. rewrite map_length, seq_length. reflexivity.
Qed.
Lemma at_pos_length : forall loc k vs, length (at_pos loc k vs) = length vs.
Proof. intros loc k vs. unfold at_pos. rewrite combine_length, map_length, seq_length. apply Nat.min_id. Qed.
Lemma slots_errors_app : forall loc rs1 rs2 k, slots_errors i loc k (rs1 ++ rs2) = slots_errors i loc k rs1 ++ slots_errors i loc (k + length rs1) rs2.
Proof.
  intros loc rs1. induction rs1 as [|r rs1 IH]; intros rs2 k; cbn [app slots_errors length].
  - rewrite Nat.add_0_r. reflexivity.
  - rewrite IH, app_assoc, Nat.add_succ_r. reflexivity.
Qed.
Lemma given_app : forall rs1 rs2, given_values (rs1 ++ rs2) = given_values rs1 + given_values rs2.
Proof. intros. unfold given_values. rewrite filter_app, app_length. reflexivity. Qed.

Lemma ok_no_errors : forall loc rs k, Forall slot_ok rs -> slots_errors i loc k rs = [].
Proof.
  intros loc rs. induction rs as [|r rs IH]; intros k H; [reflexivity|]. inversion H as [|? ? H1 H2]; subst. cbn [slots_errors]. rewrite IH by assumption.
  destruct r as [[v|[es|e| | |]]|[[v|]|e]]; try destruct H1; reflexivity.
Qed.
Lemma ok_regular : forall rs, Forall slot_ok rs -> Forall slot_regular rs.
Proof. intros rs. apply Forall_impl. intros [[v|[es|e| | |]]|[[v|]|e]] H; try destruct H; exact I. Qed.
End Runs.

(** Absent slots are reported at their position. *)
Lemma absent_position : forall c n j, good_tuple c -> n <= j < length (slots c n) -> reported_position c n j = j.
Proof.
  intros c n j HG Hj. unfold reported_position, slots, good_tuple in *. destruct (tu_variadic c) as [k|]; [|reflexivity].
  destruct (skipn k (tu_validators c)) as [|v tail] eqn:E; [cbn in Hj; lia|].
  assert (HL : length (tu_validators c) = k + S (length tail)).
  { rewrite <- (firstn_skipn k (tu_validators c)), app_length, E, firstn_length. cbn [length]. lia. }
  rewrite !app_length, repeat_length, firstn_length in Hj. rewrite HL in Hj |- *. set (m := n - (k + S (length tail) - 1)) in *.
  destruct m as [|m'] eqn:Em; [rewrite andb_false_r; reflexivity|]. lia.
Qed.
Lemma enough_slots : forall c n, good_tuple c -> tu_variadic c <> None -> n <= length (slots c n).
Proof.
  intros c n HG HV. unfold slots, good_tuple in *. destruct (tu_variadic c) as [k|]; [|contradiction].
  destruct (skipn k (tu_validators c)) as [|v tail] eqn:E.
  { assert (length (skipn k (tu_validators c)) = 0) by (rewrite E; reflexivity). rewrite skipn_length in H. lia. }
  assert (HL : length (tu_validators c) = k + S (length tail)).
  { rewrite <- (firstn_skipn k (tu_validators c)), app_length, E, firstn_length. cbn [length]. lia. }
  rewrite !app_length, repeat_length, firstn_length, HL. lia.
Qed.

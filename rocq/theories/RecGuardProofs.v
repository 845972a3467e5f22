From Coq Require Import List NArith Bool Lia PeanoNat.
From Verif Require Import Base RecGuard RecGuardSpec.
Import ListNotations.
Arguments N.min : simpl never.
Arguments N.succ : simpl never.
Arguments N.pred : simpl never.
Arguments N.ltb : simpl never.

Lemma key_eqb_eq a b : key_eqb a b = true <-> a = b.
Proof.
  destruct a as [a1 a2], b as [b1 b2]; unfold key_eqb; simpl.
  rewrite andb_true_iff, !N.eqb_eq. split; [intros [-> ->]; reflexivity | intros H; injection H; auto].
Qed.

Lemma key_eqb_refl a : key_eqb a a = true.
Proof. apply key_eqb_eq; reflexivity. Qed.

Lemma mem_In v l : mem v l = true <-> In v l.
Proof.
  unfold mem. rewrite existsb_exists. split.
  - intros [x [Hx He]]. apply key_eqb_eq in He. subst; assumption.
  - intros H; exists v; split; [assumption | apply key_eqb_refl].
Qed.

Lemma mem_not_In v l : mem v l = false <-> ~ In v l.
Proof.
  split; intros H.
  - intros Hi; apply mem_In in Hi; congruence.
  - destruct (mem v l) eqn:E; [apply mem_In in E; contradiction | reflexivity].
Qed.

Lemma existsb_flip v l : existsb (fun x => key_eqb x v) l = mem v l.
Proof.
  unfold mem. induction l as [|x l IH]; simpl; [reflexivity|]. rewrite IH. f_equal.
  destruct (key_eqb x v) eqn:E.
  - apply key_eqb_eq in E; subst; symmetry; apply key_eqb_refl.
  - destruct (key_eqb v x) eqn:E2; [|reflexivity]. apply key_eqb_eq in E2; subst.
    rewrite key_eqb_refl in E; discriminate.
Qed.

Lemma fold_insert_In l : forall s k,
  In k (fold_left (fun s x => snd (set_insert x s)) l s) <-> In k l \/ In k s.
Proof.
  induction l as [|x l IH]; intros s k; simpl; [tauto|].
  rewrite IH. unfold set_insert. destruct (mem x s) eqn:E; simpl.
  - apply mem_In in E. split; [tauto|]. intros [[->|H]|H]; auto.
  - tauto.
Qed.

Lemma set_remove_In v s k : In k (set_remove v s) <-> In k s /\ k <> v.
Proof.
  unfold set_remove. rewrite filter_In. rewrite negb_true_iff. split; intros [H1 H2]; split; auto.
  - intros ->. rewrite key_eqb_refl in H2; discriminate.
  - destruct (key_eqb v k) eqn:E; [apply key_eqb_eq in E; congruence | reflexivity].
Qed.

(** Exact representation of a chain of active pairs (innermost first). *)
Definition rep (a : list key) (st : rstate) : Prop :=
  NoDup a /\ depth st = N.of_nat (length a) /\
  match ids st with
  | SArray data => data = rev a /\ length a <= ARRAY_SIZE
  | SSet s => forall k, In k s <-> In k a
  end.

(** Weaker invariant that survives depth errors. *)
Definition repL (a : list key) (st : rstate) : Prop :=
  (N.of_nat (length a) <= depth st <= 255)%N /\
  match ids st with
  | SArray data => data = rev a /\ length a <= ARRAY_SIZE /\ depth st = N.of_nat (length a)
  | SSet s => True
  end.

Lemma rep_default : rep [] rstate_default.
Proof. repeat split; simpl; auto using NoDup_nil; unfold ARRAY_SIZE; lia. Qed.

Lemma repL_default : repL [] rstate_default.
Proof. repeat split; simpl; auto; unfold ARRAY_SIZE; lia. Qed.

Lemma rep_members a st k : rep a st -> (In k (members st) <-> In k a).
Proof.
  intros [_ [_ H]]. unfold members. destruct (ids st) as [d|s].
  - destruct H as [-> _]. symmetry. apply in_rev.
  - apply H.
Qed.

Lemma rep_insert a st k :
  rep a st ->
  exists ids', stack_insert k (ids st) = (negb (mem k a), ids') /\
    (mem k a = true -> rep a {| ids := ids'; depth := depth st |}) /\
    (mem k a = false -> rep (k :: a) {| ids := ids'; depth := N.succ (depth st) |}).
Proof.
  intros [Hnd [Hd Hids]]. unfold stack_insert. destruct (ids st) as [data|s].
  - destruct Hids as [-> Hlen]. rewrite rev_length.
    destruct (Nat.ltb (length a) ARRAY_SIZE) eqn:E.
    + apply Nat.ltb_lt in E. rewrite existsb_flip.
      assert (Hm : mem k (rev a) = mem k a).
      { destruct (mem k a) eqn:Em.
        - apply mem_In. apply -> in_rev. apply mem_In; assumption.
        - apply mem_not_In. intros H. apply in_rev in H. apply mem_In in H. congruence. }
      rewrite Hm. destruct (mem k a) eqn:Em.
      * eexists; split; [reflexivity|]. split; [|discriminate]. intros _. repeat split; auto.
      * eexists; split; [reflexivity|]. split; [discriminate|]. intros _.
        apply mem_not_In in Em.
        repeat split; simpl; auto.
        -- constructor; assumption.
        -- rewrite Hd. lia.
    + apply Nat.ltb_ge in E.
      set (s0 := fold_left _ (rev a) []).
      assert (Hs0 : forall x, In x s0 <-> In x a).
      { intros x. unfold s0. rewrite fold_insert_In. rewrite <- in_rev. simpl. tauto. }
      assert (Hm : mem k s0 = mem k a).
      { destruct (mem k a) eqn:Em.
        - apply mem_In. apply Hs0. apply mem_In; assumption.
        - apply mem_not_In. intros H. apply Hs0 in H. apply mem_In in H. congruence. }
      unfold set_insert. rewrite Hm. destruct (mem k a) eqn:Em.
      * eexists; split; [reflexivity|]. split; [|discriminate]. intros _. repeat split; auto; apply Hs0.
      * eexists; split; [reflexivity|]. split; [discriminate|]. intros _.
        apply mem_not_In in Em. repeat split; simpl; auto.
        -- constructor; assumption.
        -- rewrite Hd. lia.
        -- rewrite Hs0. tauto.
        -- rewrite Hs0. tauto.
  - assert (Hm : mem k s = mem k a).
    { destruct (mem k a) eqn:Em.
      - apply mem_In. apply Hids. apply mem_In; assumption.
      - apply mem_not_In. intros H. apply Hids in H. apply mem_In in H. congruence. }
    unfold set_insert. rewrite Hm. destruct (mem k a) eqn:Em.
    + eexists; split; [reflexivity|]. split; [|discriminate]. intros _. repeat split; auto; apply Hids.
    + eexists; split; [reflexivity|]. split; [discriminate|]. intros _.
      apply mem_not_In in Em. repeat split; simpl; auto.
      * constructor; assumption.
      * rewrite Hd. lia.
      * rewrite Hids. tauto.
      * rewrite Hids. tauto.
Qed.

Lemma real_build_limit b : real_build b -> (16 < depth_limit b <= 255)%N.
Proof. destruct b as [|l]; simpl; lia. Qed.

Lemma incr_depth_ok b d : real_build b -> (d < depth_limit b)%N -> incr_depth b d = (false, N.succ d).
Proof.
  intros Hb Hd. pose proof (real_build_limit b Hb) as Hl. destruct b as [|l]; simpl in *.
  - destruct (N.ltb_spec d 255); [reflexivity | lia].
  - rewrite N.min_l by lia. destruct (N.ltb_spec l (N.succ d)); [lia | reflexivity].
Qed.

Lemma incr_depth_over b d : real_build b -> (depth_limit b <= d)%N ->
  exists d', incr_depth b d = (true, d') /\ (d' = d \/ d' = N.min (N.succ d) 255).
Proof.
  intros Hb Hd. pose proof (real_build_limit b Hb) as Hl. destruct b as [|l]; simpl in *.
  - destruct (N.ltb_spec d 255); [lia|]. eauto.
  - destruct (N.ltb_spec l (N.min (N.succ d) 255)); [eauto | lia].
Qed.

Lemma guard_new_rep b a st k :
  real_build b -> rep a st ->
  match guard_new b k st with
  | GCyclic st' => In k a /\ rep a st'
  | GDepth st' => ~ In k a /\ (depth_limit b <= N.of_nat (length a))%N
  | GOk st' => ~ In k a /\ (N.of_nat (length a) < depth_limit b)%N /\ rep (k :: a) st'
  end.
Proof.
  intros Hb Hr. unfold guard_new. destruct (rep_insert a st k Hr) as [ids' [-> [H1 H2]]].
  assert (Hd : depth st = N.of_nat (length a)) by apply Hr.
  destruct (mem k a) eqn:Em; simpl.
  - apply mem_In in Em. split; auto.
  - apply mem_not_In in Em. specialize (H2 eq_refl).
    destruct (N.ltb_spec (depth st) (depth_limit b)) as [Hlt|Hge].
    + rewrite (incr_depth_ok b _ Hb Hlt). repeat split; try assumption; try lia; apply H2.
    + destruct (incr_depth_over b _ Hb Hge) as [d' [-> _]]. split; [assumption | lia].
Qed.

Lemma guard_drop_rep a st k :
  rep (k :: a) st -> exists st', guard_drop k st = Some st' /\ rep a st'.
Proof.
  intros [Hnd [Hd Hids]]. unfold guard_drop, stack_remove. inversion Hnd as [|? ? Hnk Hna]; subst.
  destruct (ids st) as [data|s].
  - destruct Hids as [-> Hlen]. rewrite rev_involutive. rewrite key_eqb_refl.
    eexists; split; [reflexivity|]. repeat split; simpl; auto.
    + rewrite Hd. simpl. unfold decr_depth. lia.
    + simpl in Hlen. lia.
  - eexists; split; [reflexivity|]. repeat split; simpl; auto.
    + rewrite Hd. simpl. unfold decr_depth. lia.
    + rewrite set_remove_In, Hids. simpl. intros [[->|H] Hne]; [congruence | assumption].
    + rewrite set_remove_In, Hids. simpl. intros H. split; [auto | intros ->; contradiction].
Qed.

(** Weak versions. *)
Lemma guard_new_repL b a st k :
  real_build b -> repL a st ->
  match guard_new b k st with
  | GCyclic st' => repL a st'
  | GDepth st' => repL a st'
  | GOk st' => (N.of_nat (length a) < depth_limit b)%N /\ repL (k :: a) st'
  end.
Proof.
  intros Hb [Hd Hids]. pose proof (real_build_limit b Hb) as Hl.
  unfold guard_new, stack_insert.
  destruct (ids st) as [data|s] eqn:Eids.
  - destruct Hids as [-> [Hlen Hd']]. rewrite rev_length.
    destruct (Nat.ltb (length a) ARRAY_SIZE) eqn:E.
    + apply Nat.ltb_lt in E. unfold ARRAY_SIZE in *.
      destruct (existsb _ (rev a)).
      * split; simpl; [lia | auto].
      * rewrite incr_depth_ok by (auto; lia).
        repeat split; simpl; unfold ARRAY_SIZE; try lia.
    + apply Nat.ltb_ge in E. unfold ARRAY_SIZE in *.
      destruct (set_insert k _) as [ins s'] eqn:Ei. destruct ins.
      * rewrite incr_depth_ok by (auto; lia).
        repeat split; simpl; try lia.
      * repeat split; simpl; lia.
  - destruct (set_insert k s) as [ins s'] eqn:Ei. destruct ins.
    + destruct (N.ltb_spec (depth st) (depth_limit b)) as [Hlt|Hge].
      * rewrite (incr_depth_ok b _ Hb Hlt). repeat split; simpl; lia.
      * destruct (incr_depth_over b _ Hb Hge) as [d' [E Hd']]. rewrite E.
        repeat split; simpl; destruct Hd' as [->| ->]; lia.
    + repeat split; simpl; lia.
Qed.

Lemma guard_drop_repL a st k :
  repL (k :: a) st -> exists st', guard_drop k st = Some st' /\ repL a st'.
Proof.
  intros [Hd Hids]. unfold guard_drop, stack_remove. simpl length in Hd.
  destruct (ids st) as [data|s].
  - destruct Hids as [-> [Hlen Hd']]. rewrite rev_involutive. rewrite key_eqb_refl.
    simpl length in *.
    eexists; split; [reflexivity|]. unfold decr_depth.
    repeat split; simpl; try lia.
  - eexists; split; [reflexivity|]. unfold decr_depth. repeat split; simpl; lia.
Qed.

(** Induction over call trees. *)
Lemma scope_rect' (P : scope -> Prop) :
  (forall k l, Forall P l -> P (Scope k l)) -> forall s, P s.
Proof.
  intros H. fix IH 1. intros [k l]. apply H.
  induction l as [|c l IHl]; constructor; [apply IH | exact IHl].
Qed.

(** The inner loop of [run], named. *)
Fixpoint run_list (b : build) (l : list scope) (st : rstate) : option (list verdict * rstate) :=
  match l with
  | [] => Some ([], st)
  | c :: l' =>
      match run b c st with
      | None => None
      | Some (v, st') =>
          match run_list b l' st' with
          | None => None
          | Some (vs, st'') => Some (v :: vs, st'')
          end
      end
  end.

Lemma run_unfold b k l st :
  run b (Scope k l) st =
  match guard_new b k st with
  | GCyclic st' => Some (VCyclic, st')
  | GDepth st' => Some (VDepth, st')
  | GOk st1 =>
      match run_list b l st1 with
      | None => None
      | Some (vs, st2) =>
          match guard_drop k st2 with
          | None => None
          | Some st3 => Some (VEntered vs, st3)
          end
      end
  end.
Proof.
  simpl. destruct (guard_new b k st); try reflexivity.
  match goal with |- match ?f l st0 with _ => _ end = _ => assert (E : forall l st, f l st = run_list b l st) end.
  { clear. induction l as [|c l IH]; intros st; simpl; [reflexivity|].
    destruct (run b c st) as [[v st']|]; [|reflexivity]. rewrite IH. reflexivity. }
  rewrite E. reflexivity.
Qed.

Lemma height_unfold k l : height (Scope k l) = S (fold_right (fun c m => Nat.max (height c) m) 0 l).
Proof. reflexivity. Qed.

Lemma run_ideal b : real_build b -> forall sc a st,
  rep a st -> (N.of_nat (length a + height sc) <= depth_limit b)%N ->
  exists st', run b sc st = Some (ideal a sc, st') /\ rep a st'.
Proof.
  intros Hb sc. induction sc as [k l IH] using scope_rect'. intros a st Hr Hh.
  rewrite run_unfold. pose proof (guard_new_rep b a st k Hb Hr) as Hg.
  rewrite height_unfold in Hh. simpl ideal.
  destruct (guard_new b k st) as [st1|st1|st1].
  - destruct Hg as [Hni [Hlt Hr1]].
    apply mem_not_In in Hni. rewrite Hni.
    assert (Hlist : exists st2, run_list b l st1 = Some (map (ideal (k :: a)) l, st2) /\ rep (k :: a) st2).
    { clear Hlt Hr Hni. revert st1 Hr1. induction l as [|c l IHl]; intros st1 Hr1; simpl.
      - eauto.
      - inversion IH as [|? ? Hc Hl]; subst. simpl in Hh.
        destruct (Hc (k :: a) st1 Hr1) as [st2 [E2 Hr2]]; [simpl length; lia|].
        rewrite E2. destruct (IHl Hl) with (st1 := st2) as [st3 [E3 Hr3]]; [lia | assumption |].
        rewrite E3. eauto. }
    destruct Hlist as [st2 [-> Hr2]]. destruct (guard_drop_rep _ _ _ Hr2) as [st3 [-> Hr3]]. eauto.
  - destruct Hg as [Hi Hr1]. apply mem_In in Hi. rewrite Hi. eauto.
  - destruct Hg as [_ Hge]. lia.
Qed.

Lemma run_no_panic b : real_build b -> forall sc a st,
  repL a st -> exists v st', run b sc st = Some (v, st') /\ repL a st'.
Proof.
  intros Hb sc. induction sc as [k l IH] using scope_rect'. intros a st Hr.
  rewrite run_unfold. pose proof (guard_new_repL b a st k Hb Hr) as Hg.
  destruct (guard_new b k st) as [st1|st1|st1]; eauto.
  destruct Hg as [_ Hr1].
  assert (Hlist : exists vs st2, run_list b l st1 = Some (vs, st2) /\ repL (k :: a) st2).
  { clear Hr. revert st1 Hr1. induction l as [|c l IHl]; intros st1 Hr1; simpl.
    - eauto.
    - inversion IH as [|? ? Hc Hl]; subst.
      destruct (Hc (k :: a) st1 Hr1) as [v [st2 [E2 Hr2]]]. rewrite E2.
      destruct (IHl Hl st2 Hr2) as [vs [st3 [E3 Hr3]]]. rewrite E3. eauto. }
  destruct Hlist as [vs [st2 [-> Hr2]]]. destruct (guard_drop_repL _ _ _ Hr2) as [st3 [-> Hr3]]. eauto.
Qed.

(** Same for graph traversal. *)
Fixpoint walk_list (b : build) (succ : key -> list key) (fuel : nat) (l : list key) (st : rstate)
  : option (list verdict * rstate) :=
  match l with
  | [] => Some ([], st)
  | c :: l' =>
      match walk b succ fuel c st with
      | None => None
      | Some (v, st') =>
          match walk_list b succ fuel l' st' with
          | None => None
          | Some (vs, st'') => Some (v :: vs, st'')
          end
      end
  end.

Lemma walk_unfold b succ f k st :
  walk b succ (S f) k st =
  match guard_new b k st with
  | GCyclic st' => Some (VCyclic, st')
  | GDepth st' => Some (VDepth, st')
  | GOk st1 =>
      match walk_list b succ f (succ k) st1 with
      | None => None
      | Some (vs, st2) =>
          match guard_drop k st2 with
          | None => None
          | Some st3 => Some (VEntered vs, st3)
          end
      end
  end.
Proof.
  simpl. destruct (guard_new b k st); try reflexivity.
  match goal with |- match ?g (succ k) st0 with _ => _ end = _ => assert (E : forall l st, g l st = walk_list b succ f l st) end.
  { clear. induction l as [|c l IH]; intros st; simpl; [reflexivity|].
    destruct (walk b succ f c st) as [[v st']|]; [|reflexivity]. rewrite IH. reflexivity. }
  rewrite E. reflexivity.
Qed.

Lemma walk_terminates b succ : real_build b -> forall f k a st,
  repL a st -> (N.of_nat (length a) <= depth_limit b)%N ->
  (depth_limit b < N.of_nat (length a + f))%N ->
  exists v st', walk b succ f k st = Some (v, st') /\ repL a st'.
Proof.
  intros Hb f. induction f as [|f IH]; intros k a st Hr Ha Hf.
  - lia.
  - rewrite walk_unfold. pose proof (guard_new_repL b a st k Hb Hr) as Hg.
    destruct (guard_new b k st) as [st1|st1|st1]; eauto.
    destruct Hg as [Hlt Hr1].
    assert (Hlist : forall l st1, repL (k :: a) st1 ->
              exists vs st2, walk_list b succ f l st1 = Some (vs, st2) /\ repL (k :: a) st2).
    { clear st1 Hr1 Hr st. induction l as [|c l IHl]; intros st1 Hr1; simpl.
      - eauto.
      - destruct (IH c (k :: a) st1 Hr1) as [v [st2 [E2 Hr2]]]; simpl length; [lia|lia|]. rewrite E2.
        destruct (IHl st2 Hr2) as [vs [st3 [E3 Hr3]]]. rewrite E3. eauto. }
    destruct (Hlist (succ k) st1 Hr1) as [vs [st2 [-> Hr2]]].
    destruct (guard_drop_repL _ _ _ Hr2) as [st3 [-> Hr3]]. eauto.
Qed.

Definition clean (v : verdict) : bool := negb (has_cyclic v) && negb (has_depth v).

Lemma clean_entered vs : clean (VEntered vs) = forallb clean vs.
Proof.
  unfold clean. simpl. induction vs as [|v vs IH]; simpl; [reflexivity|].
  rewrite <- IH. destruct (has_cyclic v), (has_depth v), (existsb has_cyclic vs), (existsb has_depth vs); reflexivity.
Qed.

(** All paths from [k] are simple, avoid the active chain [a] and stay within the limit. *)
Definition good_from b succ (a : list key) (k : key) : Prop :=
  forall p, path succ k p ->
    NoDup p /\ (forall x, In x p -> ~ In x a) /\ (N.of_nat (length a + length p) <= depth_limit b)%N.

Lemma path_head succ k p : path succ k p -> exists p', p = k :: p'.
Proof. intros H; inversion H; eauto. Qed.

Lemma good_step b succ a k :
  ~ In k a -> (N.of_nat (length a) < depth_limit b)%N ->
  (good_from b succ a k <-> forall k', In k' (succ k) -> good_from b succ (k :: a) k').
Proof.
  intros Hni Hlt. split.
  - intros H k' Hk' p Hp.
    destruct (H (k :: p) (path_cons succ k k' p Hk' Hp)) as [H1 [H2 H3]].
    inversion H1 as [|? ? H4 H5]; subst. split; [assumption|]. split.
    + intros x Hx [->|Hxa]; [contradiction | exact (H2 x (or_intror Hx) Hxa)].
    + simpl length in *. lia.
  - intros H p Hp. inversion Hp as [|? k' p' Hk' Hp']; subst.
    + repeat split; simpl; try lia.
      * repeat constructor. simpl; tauto.
      * intros x [->|[]]; assumption.
    + destruct (H k' Hk' p' Hp') as [H1 [H2 H3]]. split; [|split].
      * constructor; [|assumption]. intros Hkp. exact (H2 k Hkp (or_introl eq_refl)).
      * intros x [->|Hx]; [assumption|]. intros Hxa. exact (H2 x Hx (or_intror Hxa)).
      * simpl length in *. lia.
Qed.

Lemma walk_clean b succ : real_build b -> forall f k a st v st',
  rep a st -> walk b succ f k st = Some (v, st') ->
  (clean v = true -> rep a st') /\ (clean v = true <-> good_from b succ a k).
Proof.
  intros Hb f. induction f as [|f IH]; intros k a st v st' Hr Hw; [discriminate|].
  rewrite walk_unfold in Hw. pose proof (guard_new_rep b a st k Hb Hr) as Hg.
  destruct (guard_new b k st) as [st1|st1|st1].
  - destruct Hg as [Hni [Hlt Hr1]].
    destruct (walk_list b succ f (succ k) st1) as [[vs st2]|] eqn:El; [|discriminate].
    destruct (guard_drop k st2) as [st3|] eqn:Ed; [|discriminate]. injection Hw as <- <-.
    assert (Hlist : forall l st1 vs st2, rep (k :: a) st1 -> walk_list b succ f l st1 = Some (vs, st2) ->
      (forallb clean vs = true -> rep (k :: a) st2) /\
      (forallb clean vs = true <-> forall k', In k' l -> good_from b succ (k :: a) k')).
    { clear - IH. induction l as [|c l IHl]; intros st1 vs st2 Hr1 El; simpl in El.
      - injection El as <- <-. simpl. split; [auto|]. split; [intros _ k' [] | reflexivity].
      - destruct (walk b succ f c st1) as [[v' st1']|] eqn:Ec; [|discriminate].
        destruct (walk_list b succ f l st1') as [[vs' st1'']|] eqn:El'; [|discriminate].
        injection El as <- <-. simpl. destruct (IH _ _ _ _ _ Hr1 Ec) as [Hc1 Hc2].
        destruct (clean v') eqn:Ev; simpl.
        + specialize (Hc1 eq_refl). destruct (IHl _ _ _ Hc1 El') as [Hl1 Hl2]. split; [assumption|].
          rewrite Hl2. split.
          * intros H k' [->|Hk']; [apply Hc2; reflexivity | auto].
          * intros H k' Hk'. apply H. auto.
        + split; [discriminate|]. split; [discriminate|].
          intros H. apply Hc2. apply H. auto. }
    destruct (Hlist _ _ _ _ Hr1 El) as [Hl1 Hl2]. rewrite clean_entered. split.
    + intros Hc. specialize (Hl1 Hc). destruct (guard_drop_rep _ _ _ Hl1) as [st4 [E4 Hr4]].
      rewrite E4 in Ed. injection Ed as <-. assumption.
    + rewrite Hl2. symmetry. apply good_step; assumption.
  - injection Hw as <- <-. destruct Hg as [Hi Hr1]. split; [discriminate|].
    split; [discriminate|]. intros H. destruct (H [k] (path_one succ k)) as [_ [H2 _]].
    exfalso. exact (H2 k (or_introl eq_refl) Hi).
  - injection Hw as <- <-. destruct Hg as [_ Hge]. split; [discriminate|].
    split; [discriminate|]. intros H. destruct (H [k] (path_one succ k)) as [_ [_ H3]].
    simpl length in H3. lia.
Qed.

Lemma walk_total_and_exact b succ k : real_build b ->
  exists v st',
    walk b succ (S (N.to_nat (depth_limit b))) k rstate_default = Some (v, st') /\
    (has_cyclic v = false /\ has_depth v = false <->
     forall p, path succ k p -> NoDup p /\ (N.of_nat (length p) <= depth_limit b)%N).
Proof.
  intros Hb. destruct (walk_terminates b succ Hb (S (N.to_nat (depth_limit b))) k [] rstate_default)
    as [v [st' [E _]]]; [apply repL_default | simpl; lia | simpl; lia |].
  exists v, st'. split; [exact E|].
  destruct (walk_clean b succ Hb _ _ _ _ _ _ rep_default E) as [_ H].
  unfold clean in H. rewrite andb_true_iff, !negb_true_iff in H. rewrite H. unfold good_from. simpl. split.
  - intros G p Hp. destruct (G p Hp) as [H1 [_ H3]]. auto.
  - intros G p Hp. destruct (G p Hp) as [H1 H3]. auto.
Qed.

Lemma run_from_default b sc :
  real_build b -> (N.of_nat (height sc) <= depth_limit b)%N ->
  exists st', run b sc rstate_default = Some (ideal [] sc, st') /\ same_guard rstate_default st'.
Proof.
  intros Hb Hh. destruct (run_ideal b Hb sc [] rstate_default rep_default) as [st' [E Hr]]; [exact Hh|].
  exists st'. split; [exact E|]. split.
  - intros k. rewrite (rep_members [] st' k Hr). simpl. tauto.
  - destruct Hr as [_ [Hd _]]. rewrite Hd. reflexivity.
Qed.

Lemma run_balanced b a sc st :
  real_build b -> rep a st -> (N.of_nat (length a + height sc) <= depth_limit b)%N ->
  exists v st', run b sc st = Some (v, st') /\ same_guard st st'.
Proof.
  intros Hb Hr Hh. destruct (run_ideal b Hb sc a st Hr Hh) as [st' [E Hr']].
  exists (ideal a sc), st'. split; [exact E|]. split.
  - intros k. rewrite (rep_members a st k Hr), (rep_members a st' k Hr'). reflexivity.
  - destruct Hr as [_ [Hd _]], Hr' as [_ [Hd' _]]. congruence.
Qed.

Lemma reachable_rep b a st : real_build b -> reachable b a st -> rep a st.
Proof.
  intros Hb H. induction H as [|a st k st' _ IH E|a st sc v st' _ IH Hh E].
  - apply rep_default.
  - pose proof (guard_new_rep b a st k Hb IH) as Hg. rewrite E in Hg. apply Hg.
  - destruct (run_ideal b Hb sc a st IH Hh) as [st2 [E2 Hr]]. rewrite E in E2. injection E2 as _ <-. assumption.
Qed.

Lemma reachable_call b a st sc :
  real_build b -> reachable b a st -> (N.of_nat (length a + height sc) <= depth_limit b)%N ->
  exists st', run b sc st = Some (ideal a sc, st') /\ same_guard st st'.
Proof.
  intros Hb Hr Hh. apply (reachable_rep b a st Hb) in Hr.
  destruct (run_ideal b Hb sc a st Hr Hh) as [st' [E Hr']].
  exists st'. split; [exact E|]. split.
  - intros k. rewrite (rep_members a st k Hr), (rep_members a st' k Hr'). reflexivity.
  - destruct Hr as [_ [Hd _]], Hr' as [_ [Hd' _]]. congruence.
Qed.

Lemma run_never_panics b sc : real_build b -> run b sc rstate_default <> None.
Proof.
  intros Hb. destruct (run_no_panic b Hb sc [] rstate_default repL_default) as [v [st' [E _]]]. congruence.
Qed.

From Coq Require Import List NArith ZArith Bool Lia.
From Verif Require Import Base Float64 IntParse Numbers BytesCodec Values VState LookupKey Collections Child Inputs Scalars Literal Wrappers Union TaggedUnion Tuple ModelFields TypedDict Assign Arguments Classes Interp InterpSpec InterpProofs StrictSpec StrictProofs.
Import ListNotations.
Open Scope nat_scope.

Lemma self A (x : vres A * state) : Sub never x x -> (exists e t, x = (VErr e, t) /\ quiet e /\ R t t) \/ (exists a t, x = (VOk a, t) /\ R t t).
Proof. intros K. inversion K as [e t r Q T|a t r []|a t1 t2 T]; subst; [left; eauto|right]. exists a, t1. split; [reflexivity|eapply R_left, T]. Qed.

Ltac child :=
  match goal with
  | H : csub ?c |- Sub never (cv_validate ?c _ _) _ => apply (proj1 H); rs
  | H : csub ?c |- Sub never (cv_default ?c _ _) _ => apply (proj2 H); rs
  | H : sub ?v |- Sub never (?v _ _) _ => apply H; rs
  | |- Sub never (rebind _ _ _) _ => apply rebind_sub; [rs | intros; rs | intros; child]
  end.
(** Both runs call the child; or only the strict one is looked at. *)
Ltac kid :=
  match goal with |- _ (match ?x with _ => _ end) (match ?y with _ => _ end) =>
    let K := fresh "K" in assert (K : Sub never x y) by child; 
    let e := fresh "e" in let t := fresh "t" in let r := fresh "r" in let Q := fresh "Q" in let T := fresh "T" in let a := fresh "v" in let t2 := fresh "t" in
    destruct K as [e t r Q T|? ? ? []|a t t2 T]; [destruct e as [?es| | | |]; try contradiction Q|] end.
Ltac kid1 :=
  match goal with |- _ (match ?x with _ => _ end) _ =>
    let K := fresh "K" in assert (K : Sub never x x) by child; apply self in K;
    let e := fresh "e" in let t := fresh "t" in let EQ := fresh "EQ" in let Q := fresh "Q" in let T := fresh "T" in let a := fresh "v" in
    destruct K as [(e & t & EQ & Q & T)|(a & t & EQ & T)]; rewrite EQ; clear EQ; [destruct e as [?es| | | |]; try contradiction Q|] end.
Ltac ne := solve [ assumption | apply app_ne; ne | apply app_map_ne, quiet_lines; assumption | apply app_ne_r; easy | easy ].
Ltac dead := first [ apply SubBad; [qt|rs] | apply SubDoom; [ne|rs] ].
Ltac fin := first [ apply SubSame; rs | dead ].

(** ** Tuples *)
Section Tuple.
Variable c : tuple_cfg.
Variable i : input.
Variable actual : option nat.
Record Ta (a1 a2 : tacc) : Prop := { t_out : ta_out a1 = ta_out a2; t_errs : ta_errs a1 = ta_errs a2; t_count : ta_count a1 = ta_count a2; t_iter : ta_iter a1 = ta_iter a2; t_st : R (ta_state a1) (ta_state a2) }.
Definition badT (t : tres) : Prop := match t with TFail e s => quiet e /\ R s s | TDone a => ta_errs a <> [] /\ R (ta_state a) (ta_state a) end.
Inductive SubT (t1 t2 : tres) : Prop := STBad : badT t1 -> SubT t1 t2 | STSame a1 a2 : t1 = TDone a1 -> t2 = TDone a2 -> Ta a1 a2 -> SubT t1 t2.

Lemma push_bad v s a : ta_errs a <> [] -> R s s -> badT (push_output_item c i actual v s a).
Proof. intros. unfold push_output_item. destruct (tu_max c); [destruct (_ <? _)|]; split; try exact I; assumption. Qed.
Lemma use_bad ix r a : ta_errs a <> [] -> Sub never r r -> badT (use_item c i actual ix r a).
Proof.
  intros NE K. apply self in K. destruct K as [(e & t & -> & Q & T)|(v & t & -> & T)]; unfold use_item; [|now apply push_bad].
  destruct e; try easy. split; [now apply app_ne|exact T].
Qed.
Lemma push_sub v s1 s2 a1 a2 : ta_out a1 = ta_out a2 -> ta_errs a1 = ta_errs a2 -> ta_count a1 = ta_count a2 -> ta_iter a1 = ta_iter a2 -> R s1 s2 ->
  SubT (push_output_item c i actual v s1 a1) (push_output_item c i actual v s2 a2).
Proof.
  intros A B C D H. unfold push_output_item. rewrite A, B. destruct (tu_max c); [destruct (_ <? _)|]; try (eapply STSame; [reflexivity|reflexivity|split; try assumption; reflexivity]). apply STBad. split; [exact I|rs].
Qed.
Lemma use_sub ix r1 r2 a1 a2 : Ta a1 a2 -> Sub never r1 r2 -> SubT (use_item c i actual ix r1 a1) (use_item c i actual ix r2 a2).
Proof.
  intros [] K. destruct K as [e t r Q T|? ? ? []|v u1 u2 T]; unfold use_item; [|now apply push_sub].
  destruct e; try easy; apply STBad; (split; [|exact T]); try exact I. now apply app_map_ne, quiet_lines.
Qed.
Lemma move_sub it a1 a2 : Ta a1 a2 -> Ta (ta_move it a1) (ta_move it a2). Proof. intros []. split; cbn; congruence. Qed.
Lemma stop_same a1 a2 : Ta a1 a2 -> stop_now c a1 = stop_now c a2. Proof. intros []. unfold stop_now. congruence. Qed.

Lemma items_bad vs : Forall csub vs -> forall a, ta_errs a <> [] -> R (ta_state a) (ta_state a) -> badT (tuple_items c i actual vs a).
Proof.
  induction 1 as [|v vs V F IH]; intros a NE H; cbn [tuple_items]; [now split|].
  match goal with |- badT (match ?x with _ => _ end) => assert (B : badT x) end.
  { destruct (ti_next (ta_iter a)) as [[x|] it]; [apply use_bad; [exact NE|apply (proj1 V); exact H]|].
    assert (K : Sub never (cv_default v (Some (index_loc (ta_count (ta_move it a) - 1))) (ta_state a)) (cv_default v (Some (index_loc (ta_count (ta_move it a) - 1))) (ta_state a))) by (apply (proj2 V); exact H).
    apply self in K. destruct K as [(e & t & -> & Q & T)|([x|] & t & -> & T)]; cbn; (split; [first [assumption|ne]|assumption]). }
  revert B. match goal with |- badT ?x -> _ => destruct x as [a'|e s] end; intros B; [|exact B]. destruct (stop_now c a'); [exact B|]. now apply IH; apply B.
Qed.
Lemma items_sub vs : Forall csub vs -> forall a1 a2, Ta a1 a2 -> SubT (tuple_items c i actual vs a1) (tuple_items c i actual vs a2).
Proof.
  induction 1 as [|v vs V F IH]; intros a1 a2 H; cbn [tuple_items]; [now eapply STSame|].
  match goal with |- SubT (match ?x with _ => _ end) (match ?y with _ => _ end) => assert (B : SubT x y) end.
  { rewrite (t_iter _ _ H), (t_count _ _ H). destruct (ti_next (ta_iter a2)) as [[x|] it]; [apply use_sub; [now apply move_sub|apply (proj1 V), H]|].
    pose proof (move_sub it _ _ H) as M. rewrite (t_count _ _ M).
    assert (K : Sub never (cv_default v (Some (index_loc (ta_count (ta_move it a2) - 1))) (ta_state a1)) (cv_default v (Some (index_loc (ta_count (ta_move it a2) - 1))) (ta_state a2))) by (apply (proj2 V), H).
    destruct K as [e t r Q T|? ? ? []|[x|] u1 u2 T]; [apply STBad; now split| |].
    - eapply STSame; [reflexivity|reflexivity|]. destruct M. split; cbn in *; congruence.
    - apply STBad. split; cbn; [ne|rs]. }
  destruct B as [B|b1 b2 -> -> B].
  - revert B. match goal with |- badT ?x -> _ => destruct x as [a'|e s] end; intros B; [|now apply STBad]. apply STBad. destruct (stop_now c a'); [exact B|]. now apply items_bad; [exact F|apply B|apply B].
  - rewrite (stop_same _ _ B). destruct (stop_now c b2); [now eapply STSame|]. now apply IH.
Qed.
Lemma rest_bad v rest : csub v -> forall a, ta_errs a <> [] -> R (ta_state a) (ta_state a) -> badT (tuple_rest c i actual v rest a).
Proof.
  intros V. induction rest as [|[x|e] rest IH]; intros a NE H; cbn [tuple_rest]; [now split| |now split].
  assert (B : badT (use_item c i actual (ta_count a) (cv_validate v x (ta_state a)) (ta_move (snd (ti_next (ta_iter a))) a))) by (apply use_bad; [exact NE|apply (proj1 V); exact H]).
  destruct (use_item _ _ _ _ _ _) as [a'|e s]; [|exact B]. destruct (stop_now c a'); [exact B|]. now apply IH; apply B.
Qed.
Lemma rest_sub v rest : csub v -> forall a1 a2, Ta a1 a2 -> SubT (tuple_rest c i actual v rest a1) (tuple_rest c i actual v rest a2).
Proof.
  intros V. induction rest as [|[x|e] rest IH]; intros a1 a2 H; cbn [tuple_rest]; rewrite (t_iter _ _ H).
  - eapply STSame; [reflexivity|reflexivity|now apply move_sub].
  - rewrite (t_count _ _ H).
    assert (B : SubT (use_item c i actual (ta_count a2) (cv_validate v x (ta_state a1)) (ta_move (snd (ti_next (ta_iter a2))) a1)) (use_item c i actual (ta_count a2) (cv_validate v x (ta_state a2)) (ta_move (snd (ti_next (ta_iter a2))) a2))).
    { apply use_sub; [now apply move_sub|apply (proj1 V), H]. }
    destruct B as [B|b1 b2 -> -> B].
    + destruct (use_item c i actual (ta_count a2) (cv_validate v x (ta_state a1)) (ta_move (snd (ti_next (ta_iter a2))) a1)) as [a'|e s]; [|now apply STBad]. apply STBad. destruct (stop_now c a'); [exact B|]. now apply rest_bad; [exact V|apply B|apply B].
    + rewrite (stop_same _ _ B). destruct (stop_now c b2); [now eapply STSame|]. now apply IH.
  - eapply STSame; [reflexivity|reflexivity|now apply move_sub].
Qed.
Definition badB (b : buffered) : Prop := match b with BEnd a _ _ => ta_errs a <> [] /\ R (ta_state a) (ta_state a) | BReturn r => badT r end.
Inductive SubB (b1 b2 : buffered) : Prop :=
| SBBad : badB b1 -> SubB b1 b2
| SBEnd a1 a2 buf ix : b1 = BEnd a1 buf ix -> b2 = BEnd a2 buf ix -> Ta a1 a2 -> SubB b1 b2
| SBRet a1 a2 : b1 = BReturn (TDone a1) -> b2 = BReturn (TDone a2) -> Ta a1 a2 -> SubB b1 b2.
Lemma buffered_bad v rest : csub v -> forall buf ix a, ta_errs a <> [] -> R (ta_state a) (ta_state a) -> badB (tuple_buffered c i actual v rest buf ix a).
Proof.
  intros V. induction rest as [|[x|e] rest IH]; intros buf ix a NE H; cbn [tuple_buffered]; [now split| |now split].
  destruct (buf ++ [x]) as [|y buf']; [now split|].
  assert (B : badT (use_item c i actual (ta_count a) (cv_validate v y (ta_state a)) (ta_move (snd (ti_next (ta_iter a))) a))) by (apply use_bad; [exact NE|apply (proj1 V); exact H]).
  destruct (use_item _ _ _ _ _ _) as [a'|e s]; [|exact B]. destruct (stop_now c a'); [exact B|]. now apply IH; apply B.
Qed.
Lemma buffered_sub v rest : csub v -> forall buf ix a1 a2, Ta a1 a2 -> SubB (tuple_buffered c i actual v rest buf ix a1) (tuple_buffered c i actual v rest buf ix a2).
Proof.
  intros V. induction rest as [|[x|e] rest IH]; intros buf ix a1 a2 H; cbn [tuple_buffered]; rewrite (t_iter _ _ H).
  - eapply SBEnd; [reflexivity|reflexivity|now apply move_sub].
  - destruct (buf ++ [x]) as [|y buf']; [apply SBBad; split; [exact I|eapply R_left, H]|]. rewrite (t_count _ _ H).
    assert (B : SubT (use_item c i actual (ta_count a2) (cv_validate v y (ta_state a1)) (ta_move (snd (ti_next (ta_iter a2))) a1)) (use_item c i actual (ta_count a2) (cv_validate v y (ta_state a2)) (ta_move (snd (ti_next (ta_iter a2))) a2))).
    { apply use_sub; [now apply move_sub|apply (proj1 V), H]. }
    destruct B as [B|b1 b2 -> -> B].
    + destruct (use_item c i actual (ta_count a2) (cv_validate v y (ta_state a1)) (ta_move (snd (ti_next (ta_iter a2))) a1)) as [a'|e s]; [|now apply SBBad]. apply SBBad. destruct (stop_now c a'); [exact B|]. now apply buffered_bad; [exact V|apply B|apply B].
    + rewrite (stop_same _ _ B). destruct (stop_now c b2); [now eapply SBRet|]. now apply IH.
  - eapply SBEnd; [reflexivity|reflexivity|now apply move_sub].
Qed.
Hypothesis HV : Forall csub (tu_validators c).
Lemma fa_first A (P : A -> Prop) n l : Forall P l -> Forall P (firstn n l). Proof. intros F. revert n. induction F; intros [|n]; cbn; auto. Qed.
Lemma fa_skip A (P : A -> Prop) n l : Forall P l -> Forall P (skipn n l). Proof. intros F. revert n. induction F; intros [|n]; cbn; auto. Qed.
Lemma variable_sub a1 a2 : Ta a1 a2 -> SubT (tuple_variable c i actual a1) (tuple_variable c i actual a2).
Proof.
  intros H. unfold tuple_variable. destruct (tu_variadic c) as [k|].
  - pose proof (fa_skip _ _ k _ HV) as FS. destruct (skipn k (tu_validators c)) as [|v tail]; [apply STBad; split; [exact I|eapply R_left, H]|]. inversion FS as [|? ? V FT]; subst.
    destruct (items_sub _ (fa_first _ _ k _ HV) _ _ H) as [B|b1 b2 -> -> B].
    + apply STBad. destruct (tuple_items c i actual (firstn k (tu_validators c)) a1) as [a'|e s]; [|exact B]. destruct (stop_now c a'); [exact B|].
      destruct tail as [|w tail]; [apply rest_bad; [exact V|apply B|apply B]|]. destruct (ti_take (length (w :: tail)) (ta_iter a')) as [buf it].
      assert (BB := buffered_bad v (ti_rest it) V buf (ta_count a') {| ta_out := ta_out a'; ta_errs := ta_errs a'; ta_count := ta_count a'; ta_iter := it; ta_state := ta_state a' |} (proj1 B) (proj2 B)).
      cbn [ta_count]. destruct (tuple_buffered _ _ _ _ _ _ _ _) as [a3 buf' ix|r]; [|exact BB]. cbn in BB.
      match goal with |- badT (match tuple_items _ _ _ _ ?a with _ => _ end) => assert (B4 : badT (tuple_items c i actual (w :: tail) a)) by (apply items_bad; [exact FT|apply BB|apply BB]) end.
      destruct (tuple_items _ _ _ _ _) as [a4|e s]; exact B4.
    + rewrite (stop_same _ _ B). destruct (stop_now c b2); [now eapply STSame|]. rewrite (t_iter _ _ B), (t_out _ _ B), (t_errs _ _ B), (t_count _ _ B).
      destruct tail as [|w tail]; [now apply rest_sub|]. destruct (ti_take (length (w :: tail)) (ta_iter b2)) as [buf it]. cbn [ta_count ta_out ta_errs].
      match goal with |- SubT (match tuple_buffered _ _ _ _ _ _ _ ?x with _ => _ end) (match tuple_buffered _ _ _ _ _ _ _ ?y with _ => _ end) =>
        assert (BB := buffered_sub v (ti_rest it) V buf (ta_count b2) x y) end. destruct BB as [BB|b3 b4 buf' ix -> -> BB|b3 b4 -> -> BB].
      * destruct B. now split.
      * apply STBad. destruct (tuple_buffered _ _ _ _ _ _ _ _) as [a3 buf' ix|r]; [|exact BB]. cbn in BB.
        match goal with |- badT (match tuple_items _ _ _ _ ?a with _ => _ end) => assert (B4 : badT (tuple_items c i actual (w :: tail) a)) by (apply items_bad; [exact FT|apply BB|apply BB]) end.
        destruct (tuple_items _ _ _ _ _) as [a4|e s]; exact B4.
      * match goal with |- SubT (match tuple_items _ _ _ _ ?x with _ => _ end) (match tuple_items _ _ _ _ ?y with _ => _ end) =>
          destruct (items_sub (w :: tail) FT x y) as [B4|c1 c2 -> -> B4] end.
        -- destruct BB. now split.
        -- apply STBad. destruct (tuple_items _ _ _ _ _) as [a4|e s]; exact B4.
        -- eapply STSame; [reflexivity|reflexivity|]. destruct BB, B4. split; cbn; congruence.
      * now eapply STSame.
  - destruct (items_sub _ HV _ _ H) as [B|b1 b2 -> -> B].
    + apply STBad. destruct (tuple_items c i actual (tu_validators c) a1) as [a'|e s]; [|exact B]. destruct (stop_now c a'); [exact B|]. destruct (ti_next (ta_iter a')) as [[x|] it]; [split; [exact I|apply B]|exact B].
    + rewrite (stop_same _ _ B). destruct (stop_now c b2); [now eapply STSame|]. rewrite (t_iter _ _ B). destruct (ti_next (ta_iter b2)) as [[x|] it].
      * apply STBad. split; [exact I|eapply R_left, B].
      * eapply STSame; [reflexivity|reflexivity|now apply move_sub].
Qed.
End Tuple.
Lemma tuple_sub c vt : Forall csub (tu_validators c) -> reads vt -> sub (tuple_validate c vt).
Proof.
  intros HV HT i s1 s2 H. unfold tuple_validate. cbv zeta. apply R_partial in H. cases HT; [bad|].
  match goal with |- Sub _ (match tuple_variable _ _ _ ?x with _ => _ end) (match tuple_variable _ _ _ ?y with _ => _ end) =>
    destruct (variable_sub c i (sq_len q) HV x y) as [B|b1 b2 -> -> B] end.
  - split; try reflexivity. cbn. rs.
  - destruct (tuple_variable _ _ _ _) as [a|e s]; [|apply SubBad; apply B]. destruct B as [NE B]. destruct (ti_err (ta_iter a)); [apply SubBad; [exact I|exact B]|].
    destruct (ta_errs a) as [|x l]; [easy|]. cbn [app is_nil]. apply SubBad; [exact I|exact B].
  - rewrite (t_iter _ _ B), (t_errs _ _ B), (t_out _ _ B). pose proof (t_st _ _ B) as S. destruct (ti_err (ta_iter b2)); [apply SubBad; [exact I|rs]|].
    destruct (ta_errs b2 ++ _) as [|x l]; cbn [is_nil]; [now apply SubSame|apply SubBad; [exact I|rs]].
Qed.

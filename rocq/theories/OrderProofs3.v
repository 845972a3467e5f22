From Coq Require Import List NArith ZArith Bool Permutation Lia.
From Verif Require Import Base Float64 IntParse Numbers BytesCodec Values VState LookupKey Collections Child Inputs Scalars Literal Wrappers Union TaggedUnion Tuple ModelFields TypedDict Assign Arguments Classes Interp InterpSpec InterpProofs StrictSpec LooseSpec LooseQuiet LooseOff OrderSpec OrderProofs OrderProofs2.
Import ListNotations.
Open Scope nat_scope.

(** ** Tuples *)
Record Rti (a1 a2 : titer) : Prop := { rt_rest : Forall2 Ritem (ti_rest a1) (ti_rest a2); rt_pos : ti_pos a1 = ti_pos a2; rt_err : ti_err a1 = ti_err a2 }.
Record Rta (a1 a2 : tacc) : Prop := {
  ra_out : ta_out a1 = ta_out a2; ra_errs : Rlines (ta_errs a1) (ta_errs a2); ra_count : ta_count a1 = ta_count a2;
  ra_iter : Rti (ta_iter a1) (ta_iter a2); ra_state : ta_state a1 = ta_state a2; ra_off : off (ta_state a2) }.
Inductive Rt : tres -> tres -> Prop :=
| RDone a1 a2 : Rta a1 a2 -> Rt (TDone a1) (TDone a2)
| RFail e1 e2 s : Rerr e1 e2 -> off s -> Rt (TFail e1 s) (TFail e2 s).
Inductive Rpair {A B} (P : A -> A -> Prop) (Q : B -> B -> Prop) : A * B -> A * B -> Prop :=
| RPr a1 a2 b1 b2 : P a1 a2 -> Q b1 b2 -> Rpair P Q (a1, b1) (a2, b2).
Lemma ti_next_rel a1 a2 : Rti a1 a2 -> Rpair (Ropt rin) Rti (ti_next a1) (ti_next a2).
Proof.
  intros [R P E]. unfold ti_next. rewrite P, E. destruct R as [|x1 x2 l1 l2 [y1 y2 Hy|e] R]; constructor; try constructor; cbn; auto; constructor.
Qed.
Lemma ti_take_rel n a1 a2 : Rti a1 a2 -> Rpair (Forall2 rin) Rti (ti_take n a1) (ti_take n a2).
Proof.
  revert a1 a2. induction n as [|n IH]; intros a1 a2 H; cbn [ti_take]; [now constructor|].
  destruct (ti_next_rel _ _ H) as [o1 o2 i1 i2 [|x1 x2 Hx] T]; [now constructor|].
  destruct (IH _ _ T) as [xs1 xs2 j1 j2 X J]. constructor; [now constructor|exact J].
Qed.
Lemma ta_with_rel o e1 e2 s a1 a2 : Rta a1 a2 -> Rlines e1 e2 -> off s -> Rta (ta_with o e1 s a1) (ta_with o e2 s a2).
Proof. intros [] ? ?. split; cbn; auto. Qed.
Lemma ta_move_rel i1 i2 a1 a2 : Rta a1 a2 -> Rti i1 i2 -> Rta (ta_move i1 a1) (ta_move i2 a2).
Proof. intros [] ?. split; cbn; auto. Qed.

Section TupleLoops.
Variable c : tuple_cfg.
Variable i1 i2 : input.
Variable actual : option nat.
Lemma push_rel v s a1 a2 : off s -> Rta a1 a2 -> Rt (push_output_item c i1 actual v s a1) (push_output_item c i2 actual v s a2).
Proof.
  intros S A. unfold push_output_item. rewrite (ra_out _ _ A).
  assert (D : Rt (TDone (ta_with (ta_out a2 ++ [v]) (ta_errs a1) s a1)) (TDone (ta_with (ta_out a2 ++ [v]) (ta_errs a2) s a2))).
  { constructor. apply ta_with_rel; [exact A|apply A|exact S]. }
  cbv zeta. destruct (tu_max c); [|exact D]. destruct (_ <? _); [|exact D]. constructor; [rerr|exact S].
Qed.
Lemma use_item_rel ix p1 p2 a1 a2 : RP eq p1 p2 -> Rta a1 a2 -> Rt (use_item c i1 actual ix p1 a1) (use_item c i2 actual ix p2 a2).
Proof.
  intros [r1 r2 s R S] A. unfold use_item. pose proof (ra_errs _ _ A) as AE. destruct R as [v1 v2 ->|e1 e2 E]; [now apply push_rel|].
  apply Rerr_cases in E. destruct E as [(l1 & l2 & -> & -> & E)|[-> E]].
  - constructor. rewrite (ra_out _ _ A). apply ta_with_rel; [exact A|rlines|exact S].
  - destruct e2; try noline; try (constructor; [apply REq|exact S]). constructor. rewrite (ra_out _ _ A). now apply ta_with_rel.
Qed.
Lemma stop_rel a1 a2 : Rta a1 a2 -> stop_now c a1 = stop_now c a2.
Proof. intros A. unfold stop_now. now rewrite (Rlines_nil _ _ (ra_errs _ _ A)). Qed.
Lemma tuple_items_rel vs : Forall rcv vs -> forall a1 a2, Rta a1 a2 -> Rt (tuple_items c i1 actual vs a1) (tuple_items c i2 actual vs a2).
Proof.
  induction 1 as [|v vs [V VD] VS IH]; intros a1 a2 A; cbn [tuple_items]; [now constructor|]. cbv zeta.
  assert (ST : Rt (match ti_next (ta_iter a1) with
        | (Some x, it') => use_item c i1 actual (ta_count a1) (cv_validate v x (ta_state a1)) (ta_move it' a1)
        | (None, it') => match cv_default v (Some (index_loc (ta_count (ta_move it' a1) - 1))) (ta_state a1) with
            | (VOk (Some x), s) => TDone (ta_with (ta_out (ta_move it' a1) ++ [x]) (ta_errs (ta_move it' a1)) s (ta_move it' a1))
            | (VOk None, s) => TDone (ta_with (ta_out (ta_move it' a1)) (ta_errs (ta_move it' a1) ++ [new_error_loc EMissing i1 (index_loc (ta_count (ta_move it' a1) - 1))]) s (ta_move it' a1))
            | (VErr e, s) => TFail e s end end)
       (match ti_next (ta_iter a2) with
        | (Some x, it') => use_item c i2 actual (ta_count a2) (cv_validate v x (ta_state a2)) (ta_move it' a2)
        | (None, it') => match cv_default v (Some (index_loc (ta_count (ta_move it' a2) - 1))) (ta_state a2) with
            | (VOk (Some x), s) => TDone (ta_with (ta_out (ta_move it' a2) ++ [x]) (ta_errs (ta_move it' a2)) s (ta_move it' a2))
            | (VOk None, s) => TDone (ta_with (ta_out (ta_move it' a2)) (ta_errs (ta_move it' a2) ++ [new_error_loc EMissing i2 (index_loc (ta_count (ta_move it' a2) - 1))]) s (ta_move it' a2))
            | (VErr e, s) => TFail e s end end)).
  { destruct (ti_next_rel _ _ (ra_iter _ _ A)) as [o1 o2 it1 it2 O T]. pose proof (ta_move_rel _ _ _ _ A T) as A'. pose proof (ra_off _ _ A) as AO. destruct O as [|x1 x2 X].
    - rewrite (ra_count _ _ A'), (ra_out _ _ A'), (ra_state _ _ A). pose proof (ra_errs _ _ A') as AE.
      destruct (cv_default v _ (ta_state a2)) as [r s] eqn:D. assert (off s) by go.
      destruct r as [[x|]|e]; constructor; try assumption; try apply REq; apply ta_with_rel; try assumption; rlines.
    - rewrite (ra_count _ _ A), (ra_state _ _ A). apply use_item_rel; [|exact A']. now apply V. }
  destruct ST as [b1 b2 B|e1 e2 s E S]; [|now constructor]. rewrite (stop_rel _ _ B). destruct (stop_now c b2); [now constructor|now apply IH].
Qed.
Lemma moved_rel a1 a2 : Rta a1 a2 -> Rta (ta_move (snd (ti_next (ta_iter a1))) a1) (ta_move (snd (ti_next (ta_iter a2))) a2).
Proof. intros A. apply ta_move_rel; [exact A|]. destruct (ti_next_rel _ _ (ra_iter _ _ A)). assumption. Qed.
Lemma tuple_rest_rel v l1 l2 : rcv v -> Forall2 Ritem l1 l2 -> forall a1 a2, Rta a1 a2 -> Rt (tuple_rest c i1 actual v l1 a1) (tuple_rest c i2 actual v l2 a2).
Proof.
  intros V. induction 1 as [|x1 x2 l1 l2 [y1 y2 Y|e] L IH]; intros a1 a2 A; cbn [tuple_rest].
  - constructor. now apply moved_rel.
  - rewrite (ra_count _ _ A), (ra_state _ _ A).
    destruct (use_item_rel (ta_count a2) _ _ _ _ (proj1 V _ _ _ Y (ra_off _ _ A)) (moved_rel _ _ A)) as [b1 b2 B|e1 e2 s E S]; [|now constructor].
    rewrite (stop_rel _ _ B). destruct (stop_now c b2); [now constructor|now apply IH].
  - constructor. now apply moved_rel.
Qed.
Inductive Rbuf : buffered -> buffered -> Prop :=
| RBEnd a1 a2 f1 f2 ix : Rta a1 a2 -> Forall2 rin f1 f2 -> Rbuf (BEnd a1 f1 ix) (BEnd a2 f2 ix)
| RBRet t1 t2 : Rt t1 t2 -> Rbuf (BReturn t1) (BReturn t2).
Lemma tuple_buffered_rel v l1 l2 : rcv v -> Forall2 Ritem l1 l2 -> forall f1 f2 ix a1 a2, Forall2 rin f1 f2 -> Rta a1 a2 ->
  Rbuf (tuple_buffered c i1 actual v l1 f1 ix a1) (tuple_buffered c i2 actual v l2 f2 ix a2).
Proof.
  intros V. induction 1 as [|x1 x2 l1 l2 [y1 y2 Y|e] L IH]; intros f1 f2 ix a1 a2 F A; cbn [tuple_buffered].
  - constructor; [now apply moved_rel|exact F].
  - assert (F' : Forall2 rin (f1 ++ [y1]) (f2 ++ [y2])) by (apply Forall2_app; [exact F|constructor; [exact Y|constructor]]).
    destruct F' as [|z1 z2 g1 g2 Z G]; [rewrite (ra_state _ _ A); apply RBRet, RFail; [constructor|apply A]|]. rewrite (ra_count _ _ A), (ra_state _ _ A).
    destruct (use_item_rel (ta_count a2) _ _ _ _ (proj1 V _ _ _ Z (ra_off _ _ A)) (moved_rel _ _ A)) as [b1 b2 B|e1 e2 s E S]; [|now apply RBRet, RFail].
    rewrite (stop_rel _ _ B). destruct (stop_now c b2); [now apply RBRet, RDone|]. apply IH; assumption.
  - constructor; [now apply moved_rel|exact F].
Qed.
Hypothesis Cvs : Forall rcv (tu_validators c).
Lemma F_skipn A (R : A -> Prop) k l : Forall R l -> Forall R (skipn k l).
Proof. intros H. revert k. induction H; intros [|k]; cbn; auto. Qed.
Lemma F_firstn A (R : A -> Prop) k l : Forall R l -> Forall R (firstn k l).
Proof. intros H. revert k. induction H; intros [|k]; cbn; auto. Qed.
Lemma tuple_variable_rel a1 a2 : Rta a1 a2 -> Rt (tuple_variable c i1 actual a1) (tuple_variable c i2 actual a2).
Proof.
  intros A. unfold tuple_variable. destruct (tu_variadic c) as [k|].
  - pose proof (F_skipn _ _ k _ Cvs) as SK. destruct (skipn k _) as [|v tl]; [rewrite (ra_state _ _ A); constructor; [constructor|apply A]|].
    inversion SK as [|? ? V TL]; subst.
    destruct (tuple_items_rel _ (F_firstn _ _ k _ Cvs) _ _ A) as [b1 b2 B|e1 e2 s E S]; [|now constructor].
    rewrite (stop_rel _ _ B). destruct (stop_now c b2); [now constructor|].
    destruct tl as [|t tl].
    + apply tuple_rest_rel; [exact V|apply B|exact B].
    + destruct (ti_take_rel (length (t :: tl)) _ _ (ra_iter _ _ B)) as [f1 f2 it1 it2 F IT]. cbv zeta.
      assert (B2 : Rta {| ta_out := ta_out b1; ta_errs := ta_errs b1; ta_count := ta_count b1; ta_iter := it1; ta_state := ta_state b1 |}
                       {| ta_out := ta_out b2; ta_errs := ta_errs b2; ta_count := ta_count b2; ta_iter := it2; ta_state := ta_state b2 |}).
      { destruct B. split; cbn; auto. }
      cbn [ta_count]. rewrite (ra_count _ _ B) in B2 |- *.
      destruct (tuple_buffered_rel _ _ _ V (rt_rest _ _ IT) _ _ (ta_count b2) _ _ F B2) as [g1 g2 h1 h2 ix G H|r1 r2 R]; [|exact R].
      match goal with |- Rt (match tuple_items _ _ _ _ ?x1 with _ => _ end) (match tuple_items _ _ _ _ ?x2 with _ => _ end) => assert (X : Rta x1 x2) end.
      { split; cbn; try apply G; auto. split; cbn; auto. clear -H. induction H; cbn; constructor; auto. now constructor. }
      destruct (tuple_items_rel _ TL _ _ X) as [w1 w2 W|]; [|now constructor].
      constructor. split; cbn; try apply W; apply G.
  - destruct (tuple_items_rel _ Cvs _ _ A) as [b1 b2 B|e1 e2 s E S]; [|now constructor].
    rewrite (stop_rel _ _ B). destruct (stop_now c b2); [now constructor|].
    destruct (ti_next_rel _ _ (ra_iter _ _ B)) as [o1 o2 it1 it2 O T]. destruct O.
    + constructor. now apply ta_move_rel.
    + rewrite (ra_state _ _ B). constructor; [rerr|apply B].
Qed.
End TupleLoops.
Lemma tuple_rel c vt : keeps (tuple_validate c vt) -> Forall rcv (tu_validators c) -> Rread Rseq vt -> rv (tuple_validate c vt).
Proof.
  intros K L HV. apply rv_of; [exact K|]. intros i1 i2 s D I O. unfold tuple_validate. cbv zeta.
  destruct (HV (strict_or (set_partial PartialOff s) (tu_strict c)) _ _ D) as [q1 q2 Q|]; [|rp]. rewrite (rq_len _ _ Q), (rq_exact _ _ Q).
  match goal with |- RP _ (match tuple_variable _ _ _ ?x1 with _ => _ end) (match tuple_variable _ _ _ ?x2 with _ => _ end) => assert (X : Rta x1 x2) end.
  { split; cbn [ta_out ta_errs ta_count ta_iter ta_state]; auto; [apply Rlines_refl|split; cbn; auto; apply Q|go]. }
  destruct (tuple_variable_rel c i1 i2 (sq_len q2) L _ _ X) as [a1 a2 A|e1 e2 t E T]; [|now constructor; [constructor|]].
  pose proof (ra_state _ _ A) as AS. pose proof (ra_off _ _ A) as AO. pose proof (ra_errs _ _ A) as AE. rewrite AS.
  rewrite (rt_err _ _ (ra_iter _ _ A)). destruct (ti_err _); [rp|]. rewrite (ra_out _ _ A).
  assert (G : Rlines (ta_errs a1 ++ match tu_min c with Some mn => if Nat.ltb (length (ta_out a2)) mn then [new_error (ETooShort CTuple mn (length (ta_out a2))) i1] else [] | None => [] end)
                     (ta_errs a2 ++ match tu_min c with Some mn => if Nat.ltb (length (ta_out a2)) mn then [new_error (ETooShort CTuple mn (length (ta_out a2))) i2] else [] | None => [] end)).
  { apply Rlines_app; [exact AE|]. destruct (tu_min c); [|apply Rlines_refl]. destruct (_ <? _); [|apply Rlines_refl]. apply Rlines_one. }
  cbv zeta. rewrite (Rlines_nil _ _ G). destruct (is_nil _); rp.
Qed.

(** ** Mappings *)
Inductive Rentry : entry -> entry -> Prop :=
| RE_ok k t l v v' : key_str k = VOk t -> rin v v' -> Rentry (Entry k l v) (Entry k l v')
| RE_bad x x' : Rentry (BadEntry (LineErrors [new_error EStringType x])) (BadEntry (LineErrors [new_error EStringType x'])).
Definition Rentries (es es' : list entry) : Prop := exists es1, Permutation es es1 /\ Forall2 Rentry es1 es'.
Definition good_key (e : entry) : Prop := match e with Entry k _ _ => exists t, key_str k = VOk t | BadEntry e => exists x, e = LineErrors [new_error EStringType x] end.
Record Rmd (m m' : mdict) : Prop := {
  rd_get : forall k, Rr (Ropt (Rfound rin)) (md_get m k) (md_get m' k);
  rd_attr : md_is_attr m = md_is_attr m';
  rd_iter : exists es es', md_iter m = VOk es /\ md_iter m' = VOk es' /\ Rentries es es' }.
Lemma entries_good es es' : Rentries es es' -> Forall good_key es /\ Forall good_key es'.
Proof.
  intros (es1 & P & F). split.
  - apply (Permutation_Forall (Permutation_sym P)). clear P. induction F as [|a b l l' [k t lo v v' K V|x x'] F IH]; constructor; cbn; eauto.
  - clear P. induction F as [|a b l l' [k t lo v v' K V|x x'] F IH]; constructor; cbn; eauto.
Qed.

Fixpoint scan (f : str -> loc_item -> input -> list line_error) (es : list entry) : vres (list line_error) :=
  match es with
  | [] => VOk []
  | BadEntry e :: _ => VErr e
  | Entry k l v :: es' =>
      match scan f es' with
      | VOk x => VOk ((match key_str k with VOk t => f t l v | VErr _ => [] end) ++ x)
      | VErr e => VErr e
      end
  end.
Lemma Rerr_trans a b c : Rerr a b -> Rerr b c -> Rerr a c.
Proof. intros [l1 l2 H|e] H2; [|exact H2]. inversion H2; subst; constructor; [|exact H]. unfold Rlines in *. now rewrite H. Qed.
Lemma Rr_trans a b c : Rr Rlines a b -> Rr Rlines b c -> Rr Rlines a c.
Proof. intros [l1 l2 H|e1 e2 H] H2; inversion H2; subst; constructor; [unfold Rlines in *; now rewrite H|now apply (Rerr_trans _ e2)]. Qed.
Lemma Rr_lines_refl r : Rr Rlines r r. Proof. destruct r; constructor; [apply Rlines_refl|apply REq]. Qed.
Lemma scan_perm f es es1 : Permutation es es1 -> Forall good_key es -> Rr Rlines (scan f es) (scan f es1).
Proof.
  induction 1 as [|a l l' P IH|a b l|l l' l'' P IH P' IH']; intros G; cbn [scan].
  - constructor. apply Rlines_refl.
  - inversion G; subst. destruct a as [k lo v|e]; [|constructor; apply REq].
    destruct IH as [x x' X|x x' X]; [assumption| |]; constructor; [|exact X]. apply Rlines_app; [apply Rlines_refl|exact X].
  - inversion G as [|? ? G1 G2]; subst. inversion G2 as [|? ? G3 G4]; subst.
    destruct a as [k lo v|e], b as [k' lo' v'|e']; cbn [scan]; try (destruct (scan f l); constructor; apply REq).
    + destruct (scan f l); constructor; [|apply REq]. unfold Rlines. rewrite !map_app, !app_assoc. apply Permutation_app_tail, Permutation_app_comm.
    + cbn in G1, G3. destruct G1 as [x ->], G3 as [y ->]. constructor. constructor. apply Rlines_one.
  - apply (Rr_trans _ (scan f l')); [now apply IH|]. apply IH'. now apply (Permutation_Forall P).
Qed.
Lemma scan_f2 f es es' : (forall t l v v', rin v v' -> Rlines (f t l v) (f t l v')) -> Forall2 Rentry es es' -> Rr Rlines (scan f es) (scan f es').
Proof.
  intros H. induction 1 as [|a b l l' [k t lo v v' K V|x x'] F IH]; cbn [scan]; [constructor; apply Rlines_refl| |constructor; constructor; apply Rlines_one].
  rewrite K. destruct IH; constructor; [|assumption]. apply Rlines_app; [now apply H|assumption].
Qed.
Lemma scan_rel f es es' : (forall t l v v', rin v v' -> Rlines (f t l v) (f t l v')) -> Rentries es es' -> Rr Rlines (scan f es) (scan f es').
Proof.
  intros H R. pose proof (proj1 (entries_good _ _ R)) as G. destruct R as (es1 & P & F).
  apply (Rr_trans _ (scan f es1)); [now apply scan_perm|now apply scan_f2].
Qed.

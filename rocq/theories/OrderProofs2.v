From Coq Require Import List NArith ZArith Bool Permutation Lia.
From Verif Require Import Base Float64 IntParse Numbers BytesCodec Values VState LookupKey Collections Child Inputs Scalars Literal Wrappers Union TaggedUnion Tuple ModelFields TypedDict Assign Arguments Classes Interp InterpSpec InterpProofs StrictSpec LooseSpec LooseQuiet LooseOff OrderSpec OrderProofs.
Import ListNotations.
Open Scope nat_scope.

Ltac rlines :=
  repeat first [ assumption | apply Rlines_refl | apply Rlines_one | apply Rlines_app | apply Rlines_map | apply rel_outer | apply rel_set_type | apply rel_apply
               | apply (rel_comp (with_outer _)) | apply (rel_comp (set_type _)) ].
Ltac rerr := first [ assumption | apply Rerr_refl | apply RLines; solve [rlines] | apply Rerr_outer; assumption ].
Ltac rr := first [ assumption | apply Rr_refl | apply Rr_val_err | apply ROk; solve [reflexivity | assumption | eauto] | apply RErr; solve [rerr] ].
Ltac rp := first [ assumption | apply RP_intro; [solve [rr] | go] ].
Ltac rin := first [ assumption | apply RI_same | eassumption ].
Ltac noline := match goal with W : forall l, LineErrors _ <> LineErrors l |- _ => now destruct (W _ eq_refl) end.
Ltac rel_hook := fail.
Ltac rel_child :=
  match goal with
  | H : rv ?v |- RP _ (?v _ _) (?v _ _) => apply H; [solve [rin] | go]
  | H : rcv ?c |- RP _ (cv_validate ?c _ _) (cv_validate ?c _ _) => apply (proj1 H); [solve [rin] | go]
  | |- RP _ (rebind _ _ _) (rebind _ _ _) => eapply rebind_rel; [go | intros; rel_child]
  end.
Ltac rel_eq := first [ reflexivity | apply Rlines_nil; solve [rlines] | eapply Rin_undefined; eassumption | eapply Rin_none; eassumption | congruence ].
Ltac rel_assert x y :=
  let t := type of x in
  let t := eval hnf in t in
  lazymatch t with
  | prod (vres ?A) state =>
      let H := fresh "H" in let R := open_constr:(_ : A -> A -> Prop) in
      assert (H : RP R x y) by first [eassumption | rel_child | rel_hook]; revert H; generalize x, y;
      let H := fresh "H" in intros ? ? H; destruct H as [? ? ? H ?]; destruct H as [? ? H|? ? H]
  | vres ?A =>
      let H := fresh "H" in let R := open_constr:(_ : A -> A -> Prop) in
      assert (H : Rr R x y) by first [eassumption | rel_hook]; revert H; generalize x, y;
      let H := fresh "H" in intros ? ? H; destruct H as [? ? H|? ? H]
  | verror => let H := fresh "H" in assert (H : Rerr x y) by assumption; apply Rerr_cases in H; destruct H as [(? & ? & -> & -> & ?)|[-> ?]]; [|match goal with |- context [match ?z with LineErrors _ => _ | _ => _ end] => destruct z end; try noline]
  | option ?A =>
      first [ let H := fresh "H" in assert (H : x = y) by rel_eq; rewrite H; clear H; destruct y
            | let H := fresh "H" in let R := open_constr:(_ : A -> A -> Prop) in
              assert (H : Ropt R x y) by first [eassumption | rel_hook]; revert H; generalize x, y;
              let H := fresh "H" in intros ? ? H; destruct H as [|? ? H] ]
  | _ => let H := fresh "H" in assert (H : x = y) by rel_eq; rewrite H; clear H; destruct y
  end.
Ltac step :=
  cbv beta;
  repeat match goal with H : ?x = ?y |- _ => is_var x; is_var y; subst y end;
  match goal with
  | |- _ ?t1 ?t2 =>
      match t1 with
      | context [match ?x with _ => _ end] =>
          lazymatch x with
          | context [match _ with _ => _ end] => fail
          | _ =>
              match t2 with
              | context [match ?y with _ => _ end] =>
                  lazymatch y with
                  | context [match _ with _ => _ end] => fail
                  | _ => tryif constr_eq x y then (tryif is_var x then destruct x else (let E := fresh "E" in destruct x eqn:E)) else rel_assert x y
                  end
              end
          end
      end
  end.
Ltac drc := match goal with H : rcv ?c |- _ => let A := fresh in let B := fresh in pose proof H as [A B] end.

(** ** Sequences *)
Inductive Ritem : item input -> item input -> Prop :=
| RIt i1 i2 : rin i1 i2 -> Ritem (It i1) (It i2)
| RRaise e : Ritem (Raise e) (Raise e).
Inductive Rnum {A} (R : A -> A -> Prop) : nat * bool * A -> nat * bool * A -> Prop :=
| RNum n p a1 a2 : R a1 a2 -> Rnum R (n, p, a1) (n, p, a2).
Lemma enum_rel A (R : A -> A -> Prop) l1 l2 p n : Forall2 R l1 l2 -> Forall2 (Rnum R) (enumerate_from p n l1) (enumerate_from p n l2).
Proof.
  intros H. revert n. induction H as [|a1 a2 l1 l2 Ha Hl IH]; intros n; cbn [enumerate_from]; constructor; [|apply IH].
  replace (match l1 with [] => true | _ => false end) with (match l2 with [] => true | _ => false end); [now constructor|].
  destruct Hl; reflexivity.
Qed.
Record Rmc (m1 m2 : max_check) : Prop := {
  rm_cur : mc_current m1 = mc_current m2; rm_max : mc_max m1 = mc_max m2; rm_field : mc_field m1 = mc_field m2; rm_actual : mc_actual m1 = mc_actual m2 }.
Lemma mc_incr_rel m1 m2 : Rmc m1 m2 ->
  Rr (fun _ _ => True) (fst (mc_incr m1)) (fst (mc_incr m2)) /\ Rmc (snd (mc_incr m1)) (snd (mc_incr m2)).
Proof.
  intros [A B C E]. unfold mc_incr. rewrite A, B, C, E. destruct (mc_max m2) as [n|] eqn:Q; cbv zeta.
  - destruct (n <? S (mc_current m2)); cbn [fst snd]; (split; [|split; cbn; congruence]); [apply Rr_val_err|apply ROk; exact I].
  - split; [apply ROk; exact I|split; cbn; congruence].
Qed.
Lemma vec_loop_rel c ff items1 items2 : rv c -> Forall2 (Rnum Ritem) items1 items2 -> forall mc1 mc2 out e1 e2 s,
  Rmc mc1 mc2 -> Rlines e1 e2 -> off s ->
  RP eq (vec_loop c ff PartialOff mc1 out e1 items1 s) (vec_loop c ff PartialOff mc2 out e2 items2 s).
Proof.
  intros V. induction 1 as [|a1 a2 l1 l2 [n lp it1 it2 Hit] Hl IH]; intros mc1 mc2 out e1 e2 s M He Hs; cbn [vec_loop].
  - step; rp.
  - destruct Hit as [i1 i2 Hi|e]; [|unfold next_error; rp].
    destruct (mc_incr_rel _ _ M) as [M1 M2]. destruct (mc_incr mc1) as [r1 mc1'], (mc_incr mc2) as [r2 mc2']; cbn [fst snd] in *.
    repeat first [ apply IH; [assumption|solve [rlines]|go] | rp | step ].
Qed.
Record Rseq (q1 q2 : seq) : Prop := {
  rq_items : Forall2 Ritem (sq_items q1) (sq_items q2); rq_len : sq_len q1 = sq_len q2; rq_exact : sq_exactness q1 = sq_exactness q2 }.
Definition Rread {A} (R : A -> A -> Prop) (f : bool -> input -> vres A) : Prop := forall st i1 i2, differ i1 i2 -> Rr R (f st i1) (f st i2).
Lemma min_check_rel c i1 i2 mn n : Ropt Rerr (min_check c i1 mn n) (min_check c i2 mn n).
Proof. unfold min_check. destruct mn; [|constructor]. destruct (_ <? _); constructor. rerr. Qed.
Ltac rel_hook ::= first [ apply min_check_rel ].

Lemma list_rel c v vl : keeps (list_validate c (Some v) vl) -> rv v -> Rread Rseq vl -> rv (list_validate c (Some v) vl).
Proof.
  intros K V HV. apply rv_of; [exact K|]. intros i i' s D I O. unfold list_validate.
  destruct (HV (strict_or s (co_strict c)) _ _ D) as [q1 q2 [QI QL QE]|]; [|rp]. rewrite QE, QL. cbv zeta.
  set (t := floor_exactness _ s). assert (T : off t) by (unfold t; go).
  assert (W : RP eq (validate_iter_to_vec v (co_fail_fast c) {| mc_current := 0; mc_max := co_max c; mc_field := CList; mc_input := i; mc_actual := sq_len q2 |} (sq_items q1) t)
                    (validate_iter_to_vec v (co_fail_fast c) {| mc_current := 0; mc_max := co_max c; mc_field := CList; mc_input := i'; mc_actual := sq_len q2 |} (sq_items q2) t)).
  { unfold validate_iter_to_vec. rewrite T. apply vec_loop_rel; try assumption; [|now split|apply Rlines_refl]. unfold enumerate_last_partial. now apply enum_rel. }
  destruct W as [r1 r2 t' [o1 o2 W|e1 e2 W] O']; [|rp]. subst o2. destruct (min_check_rel CList i i' (co_min c) (length o1)); rp.
Qed.
Lemma set_loop_rel child ff c i0 i0' mx items1 items2 : rv child -> Forall2 (Rnum Ritem) items1 items2 -> forall set e1 e2 s,
  Rlines e1 e2 -> off s -> RP eq (set_loop child ff c i0 mx PartialOff set e1 items1 s) (set_loop child ff c i0' mx PartialOff set e2 items2 s).
Proof.
  intros V. induction 1 as [|a1 a2 l1 l2 [n lp it1 it2 Hit] Hl IH]; intros set e1 e2 s He Hs; cbn [set_loop].
  - step; rp.
  - destruct Hit as [i1 i2 Hi|e]; [|unfold next_error; rp]. cbv zeta.
    assert (L : forall set e1 e2 s, Rlines e1 e2 -> off s ->
       RP eq (if ff && negb (is_nil e1) then (VErr (LineErrors e1), s) else set_loop child ff c i0 mx PartialOff set e1 l1 s)
             (if ff && negb (is_nil e2) then (VErr (LineErrors e2), s) else set_loop child ff c i0' mx PartialOff set e2 l2 s)).
    { intros st x1 x2 s0 X O0. rewrite (Rlines_nil _ _ X). destruct (_ && _); [rp|now apply IH]. }
    unfold validate_add.
    match goal with |- context [child i1 ?z] => assert (W : RP eq (child i1 z) (child i2 z)) by (apply V; [assumption|go]) end.
    destruct W as [r1 r2 t [o1 o2 W|x1 x2 W] Ot].
    + subst o2. destruct (hashable o1).
      * destruct mx as [m|]; [|now apply L]. destruct (_ <? _); [rp|now apply L].
      * apply L; [|assumption]. destruct lp; rlines.
    + apply Rerr_cases in W. destruct W as [(m1 & m2 & -> & -> & W)|[-> W]]; [apply L; [destruct lp; rlines|assumption]|].
      destruct x2; try noline; try rp. now apply L.
Qed.
Lemma set_rel fr c v vl : keeps (set_validate fr c v vl) -> rv v -> Rread Rseq vl -> rv (set_validate fr c v vl).
Proof.
  intros K V HV. apply rv_of; [exact K|]. intros i i' s D I O. unfold set_validate.
  destruct (HV (strict_or s (co_strict c)) _ _ D) as [q1 q2 [QI QL QE]|]; [|rp]. rewrite QE. cbv zeta.
  set (t := floor_exactness _ s). assert (T : off t) by (unfold t; go). set (kd := if fr then CFrozenset else CSet).
  assert (W : RP eq (validate_iter_to_set v (co_fail_fast c) kd i (co_max c) (sq_items q1) t) (validate_iter_to_set v (co_fail_fast c) kd i' (co_max c) (sq_items q2) t)).
  { unfold validate_iter_to_set. rewrite T. apply set_loop_rel; try assumption; [|apply Rlines_refl]. unfold enumerate_last_partial. now apply enum_rel. }
  destruct W as [r1 r2 t' [o1 o2 W|e1 e2 W] O']; [|rp]. subst o2. destruct (min_check_rel kd i i' (co_min c) (length o1)); rp.
Qed.

Lemma items_py l l' : Forall2 reordered l l' -> Forall2 Ritem (map (fun v => It (IPy v)) l) (map (fun v => It (IPy v)) l').
Proof. induction 1; cbn [map]; constructor; [constructor; now constructor|assumption]. Qed.
Lemma items_js l l' : Forall2 jreordered l l' -> Forall2 Ritem (map (fun v => It (IJson v)) l) (map (fun v => It (IJson v)) l').
Proof. induction 1; cbn [map]; constructor; [constructor; now constructor|assumption]. Qed.
Lemma py_seq_rel e b l l' : Forall2 reordered l l' -> Rseq (py_seq e b l) (py_seq e b l').
Proof. intros F. split; cbn [py_seq sq_items sq_len sq_exactness]; [now apply items_py|now rewrite (f2_length _ _ _ _ _ F)|reflexivity]. Qed.
Lemma js_seq_rel e l l' : Forall2 jreordered l l' -> Rseq (json_seq e l) (json_seq e l').
Proof. intros F. split; cbn [json_seq sq_items sq_len sq_exactness]; [now apply items_js|now rewrite (f2_length _ _ _ _ _ F)|reflexivity]. Qed.
Ltac reads := intros st i i' D; destruct D; unfold validate_list, validate_set, validate_frozenset, validate_tuple, lax_sequence, sequence_iterable; cbn [strip];
  try (destruct st); first [apply Rr_val_err | apply ROk; first [apply py_seq_rel | apply js_seq_rel]; assumption].
Lemma read_list : Rread Rseq validate_list. Proof. reads. Qed.
Lemma read_set : Rread Rseq validate_set. Proof. reads. Qed.
Lemma read_frozenset : Rread Rseq validate_frozenset. Proof. reads. Qed.
Lemma read_tuple : Rread Rseq validate_tuple. Proof. reads. Qed.

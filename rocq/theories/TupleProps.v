(** C37: tuples. *)
From Coq Require Import List NArith ZArith Bool Lia.
From Verif Require Import Base Float64 Values VState Collections CollectionsSpec Child Tuple TupleSpec TupleProofs ModelFieldsProps.
Import ListNotations.
Open Scope nat_scope.

(** The state in which the items are validated. *)
Definition entered (sq : seq) (s : state) : state := floor_exactness (sq_exactness sq) (set_partial PartialOff s).

Section Props.
Variable c : tuple_cfg.
Variable vt : bool -> input -> vres seq.
Variable i : input.
Variable s : state.
Variable sq : seq.
Variable xs : list input.
Hypothesis Hgood : good_tuple c.
Hypothesis Hsq : vt (strict_or s (tu_strict c)) i = VOk sq.
Hypothesis Hitems : sq_items sq = map It xs.
Notation n := (length xs).
(** The slots of this input, run one after the other. *)
Notation run := (run_slots 0 (slots c n) xs (entered sq s)).

Lemma strict_or_partial : strict_or (set_partial PartialOff s) (tu_strict c) = strict_or s (tu_strict c).
Proof. destruct s. reflexivity. Qed.

Let a0 : tacc := {| ta_out := []; ta_errs := []; ta_count := 0; ta_iter := {| ti_rest := sq_items sq; ti_pos := 0; ti_err := None |}; ta_state := entered sq s |}.
Let the_core := core c i (sq_len sq) (located_slots c n) xs [] [] (entered sq s).

Lemma located_at : located_slots c n = at_pos (reported_position c n) 0 (slots c n).
Proof. reflexivity. Qed.
Lemma loc_absent : forall j, 0 + n <= j < 0 + length (slots c n) -> reported_position c n j = j.
Proof. intros j Hj. apply absent_position; [exact Hgood|lia]. Qed.

Definition finish (out : list pyval) (errs : list line_error) (s' : state) : vres pyval * state :=
  let errs := errs ++ too_short c i out in
  if is_nil errs then (VOk (PTuple out), s') else (VErr (LineErrors errs), s').

Lemma validate_core : tuple_validate c vt i s =
  match the_core with
  | CFail e s' => (VErr e, s')
  | CStop out errs s' => finish out errs s'
  | CDone out errs s' =>
      if length (slots c n) <? n then (VErr (LineErrors [new_error (ETooLong CTuple (length (tu_validators c)) (sq_len sq)) i]), s')
      else finish out errs s'
  end.
Proof.
  unfold tuple_validate. rewrite strict_or_partial, Hsq. fold (entered sq s). fold a0.
  pose proof (variable_core c i (sq_len sq) xs a0 Hgood Hitems eq_refl eq_refl eq_refl) as V. change (ta_out a0) with (@nil pyval) in V. change (ta_state a0) with (entered sq s) in V. fold the_core in V.
  assert (FIN : forall out errs s', ends (CDone out errs s') (tuple_variable c i (sq_len sq) a0) ->
    match tuple_variable c i (sq_len sq) a0 with
    | TDone a =>
        match ti_err (ta_iter a) with
        | Some m => (VErr (LineErrors [new_error_loc EIterationError i (index_loc m)]), ta_state a)
        | None =>
            let errs0 := ta_errs a ++ match tu_min c with
                | Some mn => if length (ta_out a) <? mn then [new_error (ETooShort CTuple mn (length (ta_out a))) i] else []
                | None => [] end in
            if is_nil errs0 then (VOk (PTuple (ta_out a)), ta_state a) else (VErr (LineErrors errs0), ta_state a)
        end
    | TFail e s'0 => (VErr e, s'0)
    end = finish out errs s').
  { intros out errs s' (a & -> & <- & <- & <- & ->). reflexivity. }
  destruct the_core as [out errs s'|out errs s'|e s'].
  - destruct (tu_variadic c) as [k|] eqn:HV.
    + assert (L : length (slots c n) <? n = false) by (apply Nat.ltb_ge; apply enough_slots; [exact Hgood|rewrite HV; discriminate]). rewrite L. apply FIN. exact V.
    + assert (L : length (slots c n) = length (tu_validators c)) by (unfold slots; rewrite HV; reflexivity). rewrite L.
      destruct (length (tu_validators c) <? n); [rewrite V; reflexivity|]. apply FIN. exact V.
  - apply FIN. exact V.
  - rewrite V. reflexivity.
Qed.

Lemma regular_core : Forall slot_regular (fst run) -> within (tu_max c) (given_values (fst run)) ->
  tu_fail_fast c = false \/ slots_errors i (reported_position c n) 0 (fst run) = [] ->
  the_core = CDone (slot_values (fst run)) (slots_errors i (reported_position c n) 0 (fst run)) (snd run).
Proof.
  intros HR HW HF. unfold the_core. rewrite located_at. rewrite core_regular; auto.
  - apply loc_absent.
  - destruct HF; auto.
Qed.

(** Success: the input is not longer than the slots, each slot has a value (from its
    item, or its default when the input is too short) or is omitted by its schema, the
    limits hold, and the result is the tuple of the values. *)
Theorem C37_success : forall v s',
  Forall (fun w => nonempty_errors (cv_validate w)) (tu_validators c) ->
  tuple_validate c vt i s = (VOk v, s') <->
  (Forall slot_ok (fst run) /\ n <= length (slots c n) /\ within (tu_max c) (given_values (fst run)) /\
   at_least (tu_min c) (length (slot_values (fst run))) /\ v = PTuple (slot_values (fst run)) /\ s' = snd run).
Proof.
  intros v s' HC. rewrite validate_core.
  assert (TS : forall out, too_short c i out = [] <-> at_least (tu_min c) (length out)).
  { intro out. unfold too_short, at_least. destruct (tu_min c) as [mn|]; [|tauto]. destruct (length out <? mn) eqn:L; [apply Nat.ltb_lt in L|apply Nat.ltb_ge in L]; split; intro H; try discriminate; try lia; reflexivity. }
  split.
  - intro H. destruct the_core as [out errs s1|out errs s1|e s1] eqn:EC; [| |discriminate H].
    + destruct (length (slots c n) <? n) eqn:L; [discriminate H|]. apply Nat.ltb_ge in L.
      unfold the_core in EC. rewrite located_at in EC. apply core_done in EC; [|apply loc_absent].
      destruct EC as (HR & -> & -> & -> & HW). cbn [app length Nat.add] in *.
      unfold finish in H. destruct (is_nil _) eqn:N; [|discriminate H]. injection H as <- <-.
      destruct (slots_errors i (reported_position c n) 0 (fst run) ++ too_short c i (slot_values (fst run))) eqn:E0; [|discriminate N].
      apply app_eq_nil in E0. destruct E0 as [E1 E2]. repeat split; auto.
      * (* no errors and regular: all slots are fine *)
        assert (Q : forall vs k ys t, Forall (fun w => nonempty_errors (cv_validate w)) vs -> Forall slot_regular (fst (run_slots k vs ys t)) ->
            slots_errors i (reported_position c n) k (fst (run_slots k vs ys t)) = [] -> Forall slot_ok (fst (run_slots k vs ys t))).
        { clear. induction vs as [|w vs IH]; intros k ys t HN HR HE; [constructor|]. rewrite run_slots_cons in *. cbn [fst slots_errors] in *.
          inversion HN as [|? ? N1 N2]; subst. inversion HR as [|? ? R1 R2]; subst. apply app_eq_nil in HE. destruct HE as [E1 E2]. constructor; [|apply IH; assumption].
          unfold run_one in *. destruct ys as [|y ys].
          - destruct (cv_default w _ t) as [[[z|]|e] t1]; cbn in *; try destruct R1; try discriminate E1; exact I.
          - destruct (cv_validate w y t) as [[z|[es|e| | |]] t1] eqn:EV; cbn in *; try destruct R1; try exact I.
            apply map_eq_nil in E1. subst es. exact (N1 _ _ _ _ EV eq_refl). }
        apply Q; auto.
        unfold slots. destruct (tu_variadic c) as [k|]; [|exact HC].
        destruct (skipn k (tu_validators c)) as [|w tail] eqn:ET; [constructor|].
        rewrite <- (firstn_skipn k (tu_validators c)), ET in HC. apply Forall_app in HC. destruct HC as [C1 C2]. inversion C2 as [|? ? C3 C4]; subst.
        apply Forall_app. split; [exact C1|]. apply Forall_app. split; [|exact C4]. apply Forall_forall. intros z Hz. apply repeat_spec in Hz. subst z. exact C3.
      * destruct HW as [->|HW]; [unfold within; destruct (tu_max c); [lia|exact I]|exact HW].
      * apply TS. exact E2.
    + exfalso. unfold the_core in EC. apply core_stop in EC. destruct EC as [_ EN]. unfold finish in H. destruct errs; [contradiction|]. discriminate H.
  - intros (HO & L & HW & HM & -> & ->).
    assert (E : slots_errors i (reported_position c n) 0 (fst run) = []) by (apply ok_no_errors; exact HO).
    rewrite regular_core; auto; [|apply ok_regular; exact HO]. rewrite E. apply Nat.ltb_ge in L. rewrite L. unfold finish. apply TS in HM. rewrite HM. reflexivity.
Qed.

(** The outcome when no slot aborts and the input is not too long (without fail_fast):
    all the errors of all the slots, and the length error. *)
Theorem C37_errors : tu_fail_fast c = false -> Forall slot_regular (fst run) -> n <= length (slots c n) ->
  within (tu_max c) (given_values (fst run)) ->
  let errs := slots_errors i (reported_position c n) 0 (fst run) ++ too_short c i (slot_values (fst run)) in
  errs <> [] -> tuple_validate c vt i s = (VErr (LineErrors errs), snd run).
Proof.
  intros HF HR L HW errs HN. rewrite validate_core, regular_core; auto. apply Nat.ltb_ge in L. rewrite L. unfold finish. fold errs.
  destruct errs; [contradiction|reflexivity].
Qed.

(** A fixed tuple rejects longer inputs. *)
Theorem C37_too_long : tu_fail_fast c = false -> Forall slot_regular (fst run) -> length (slots c n) < n ->
  within (tu_max c) (given_values (fst run)) ->
  tu_variadic c = None /\
  tuple_validate c vt i s = (VErr (LineErrors [new_error (ETooLong CTuple (length (tu_validators c)) (sq_len sq)) i]), snd run).
Proof.
  intros HF HR L HW. split.
  - destruct (tu_variadic c) as [k|] eqn:HV; [exfalso|reflexivity]. apply (Nat.lt_irrefl n). eapply Nat.le_lt_trans; [|exact L]. apply enough_slots; [exact Hgood|congruence].
  - rewrite validate_core, regular_core; auto. apply Nat.ltb_lt in L. rewrite L. reflexivity.
Qed.

(** With fail_fast the first failing slot ends the validation: its errors are the only
    item errors, whatever the later schemas and items are. *)
Theorem C37_fail_fast : forall pre r post, tu_fail_fast c = true ->
  fst run = pre ++ r :: post -> Forall slot_ok pre -> slot_regular r -> within (tu_max c) (given_values pre) ->
  let errs := slot_errors i (reported_position c n (length pre)) r in errs <> [] ->
  fst (tuple_validate c vt i s) = VErr (LineErrors (errs ++ too_short c i (slot_values pre))).
Proof.
  intros pre r post HF HE HP HR HW errs HN. rewrite validate_core.
  assert (EC : exists s', the_core = CStop (slot_values pre) errs s').
  { unfold the_core. rewrite located_at. set (loc := reported_position c n) in *.
    assert (HLp : length pre < length (slots c n)).
    { rewrite <- (run_slots_length (slots c n) 0 xs (entered sq s)), HE, app_length. cbn. lia. }
    pose proof (firstn_skipn (length pre) (slots c n)) as FS. set (vs1 := firstn (length pre) (slots c n)) in *.
    assert (L1 : length vs1 = length pre) by (unfold vs1; rewrite firstn_length; lia).
    destruct (skipn (length pre) (slots c n)) as [|w vs2] eqn:ES.
    { assert (length (skipn (length pre) (slots c n)) = 0) by (rewrite ES; reflexivity). rewrite skipn_length in H. lia. }
    rewrite <- FS in HE |- *. rewrite run_slots_app in HE. cbn [fst] in HE. rewrite run_slots_cons in HE. cbn [fst] in HE.
    assert (LE : length (fst (run_slots 0 vs1 xs (entered sq s))) = length pre) by (rewrite run_slots_length; exact L1).
    assert (SPLIT : forall (A : Type) (l1 l2 m1 m2 : list A), length l1 = length m1 -> l1 ++ l2 = m1 ++ m2 -> l1 = m1 /\ l2 = m2).
    { clear. intros A l1. induction l1 as [|x l1 IH]; intros l2 [|y m1] m2 H E; try discriminate H; [auto|]. injection H as H. injection E as -> E. destruct (IH _ _ _ H E) as [-> ->]. auto. }
    destruct (SPLIT _ _ _ _ _ LE HE) as [E1 E2]. injection E2 as E2 _.
    rewrite at_pos_app, core_app. rewrite at_pos_length.
    assert (LA : forall j, 0 + n <= j < 0 + length (vs1 ++ w :: vs2) -> loc j = j).
    { rewrite FS. apply loc_absent. }
    rewrite core_regular.
    - rewrite E1. rewrite (ok_no_errors i loc pre 0 HP). cbn [app].
      cbn [at_pos length List.seq map combine TupleProofs.core]. cbn [Nat.add].
      rewrite (one_step c i (sq_len sq) (loc (length vs1)) (0 + length vs1)).
      + cbn [Nat.add] in *. cbn [app Nat.add]. destruct (run_one (length vs1) w (skipn (length vs1) xs) (snd (run_slots 0 vs1 xs (entered sq s)))) as [r' s1] eqn:ER. cbn [fst] in E2. subst r'.
        unfold errs in HN |- *. rewrite L1.
        destruct r as [[v|[es|e| | |]]|[[v|]|e]]; try destruct HR; cbn [slot_errors] in HN |- *; try contradiction (HN eq_refl); cbn [app].
        * rewrite HF. destruct (map _ es) eqn:EM; [contradiction (HN eq_refl)|]. cbn. eauto.
        * rewrite HF. cbn. eauto.
      + intro SK. apply LA. rewrite app_length. cbn [length]. assert (length (skipn (length vs1) xs) = 0) by (rewrite SK; reflexivity). rewrite skipn_length in H. lia.
    - intros j Hj. apply LA. rewrite app_length. cbn [length]. lia.
    - rewrite E1. apply ok_regular. exact HP.
    - right. cbn [length Nat.add]. rewrite E1. exact HW.
    - right. split; [reflexivity|]. rewrite E1. apply ok_no_errors. exact HP. }
  destruct EC as (s' & ->). unfold finish. fold errs. destruct errs; [contradiction|]. reflexivity.
Qed.
End Props.
Print Assumptions C37_success.
Print Assumptions C37_errors.
Print Assumptions C37_too_long.
Print Assumptions C37_fail_fast.

(** ** Concrete tuples *)
Definition an_int : validator := fun i s => match i with IPy (PInt _) => (VOk (input_object i), s) | _ => (val_err EIntType i, s) end.
Definition a_str : validator := fun i s => match i with IPy (PStr _) => (VOk (input_object i), s) | _ => (val_err EStringType i, s) end.
Definition with_dflt (v : validator) (d : pyval) : cv := {| cv_validate := v; cv_default := fun _ s => (VOk (Some d), s) |}.
Definition tcfg vs var mn mx ff := {| tu_strict := false; tu_validators := vs; tu_variadic := var; tu_min := mn; tu_max := mx; tu_fail_fast := ff |}.
Definition plain_seq (items : list (item input)) : bool -> input -> vres seq :=
  fun _ _ => VOk {| sq_items := items; sq_len := Some (length items); sq_exactness := Exact; sq_py_list := false |}.
Definition run_ex (c : tuple_cfg) (vs : list pyval) := fst (tuple_validate c (plain_seq (map (fun v => It (IPy v)) vs)) (IPy (PTuple vs)) ex_state).

Example C37_nonvacuous :
  run_ex (tcfg [no_default an_int; with_dflt a_str (PStr (lit "d"))] None None None false) [PInt 1] = VOk (PTuple [PInt 1; PStr (lit "d")]) /\
  run_ex (tcfg [no_default an_int; no_default a_str; no_default an_int] (Some 1) None None false) [PInt 1; PStr []; PStr (lit "a"); PInt 2] = VOk (PTuple [PInt 1; PStr []; PStr (lit "a"); PInt 2]) /\
  run_ex (tcfg [no_default an_int; no_default a_str; no_default an_int] (Some 1) None None false) [PInt 1; PInt 2] = VOk (PTuple [PInt 1; PInt 2]) /\
  run_ex (tcfg [no_default an_int] None None None false) [PInt 1; PInt 2] = VErr (LineErrors [new_error (ETooLong CTuple 1 (Some 2)) (IPy (PTuple [PInt 1; PInt 2]))]) /\
  run_ex (tcfg [no_default an_int; no_default an_int] None None None false) [PStr []] =
    VErr (LineErrors [with_outer (LInt 0) (new_error EIntType (IPy (PStr []))); new_error_loc EMissing (IPy (PTuple [PStr []])) (LInt 1)]) /\
  good_tuple (tcfg [no_default an_int; no_default a_str; no_default an_int] (Some 1) None None false).
Proof. repeat split. cbn. lia. Qed.

(** Errors in the suffix of a variadic tuple are reported one position too early: the
    location points to another item than the reported input. *)
Theorem C37_tail_location_refuted : exists c xs k e,
  good_tuple c /\ fst (tuple_validate c (plain_seq (map It xs)) (IPy PNone) ex_state) = VErr (LineErrors [e]) /\
  loc_path (le_loc e) = [LInt (Z.of_nat k)] /\ nth_error xs (S k) = Some (le_input e) /\ nth_error xs k <> Some (le_input e).
Proof.
  exists (tcfg [no_default an_int; no_default a_str; no_default an_int] (Some 1) None None false), [IPy (PInt 1); IPy (PStr (lit "a")); IPy (PStr (lit "b"))], 1.
  eexists. split; [cbn; lia|]. split; [reflexivity|]. split; [reflexivity|]. split; [reflexivity|discriminate].
Qed.
Print Assumptions C37_tail_location_refuted.

(** max_length does not count values taken from defaults. *)
Theorem C37_max_length_refuted : exists c vs out, tu_max c = Some 1 /\ run_ex c vs = VOk (PTuple out) /\ length out = 2.
Proof. exists (tcfg [no_default an_int; with_dflt a_str (PStr (lit "d"))] None None (Some 1) false), [PInt 1], [PInt 1; PStr (lit "d")]. repeat split. Qed.
Print Assumptions C37_max_length_refuted.

(** min_length counts only the items that validated: an input that is long enough is
    also reported as too short when an item fails. *)
Theorem C37_too_short_refuted : exists c vs e1 e2, length vs = 2 /\ tu_min c = Some 2 /\
  run_ex c vs = VErr (LineErrors [e1; e2]) /\ le_type e2 = ETooShort CTuple 2 1.
Proof. exists (tcfg [no_default an_int] (Some 0) (Some 2) None false), [PInt 1; PNone]. do 2 eexists. repeat split. Qed.
Print Assumptions C37_too_short_refuted.

(** A schema that omits its item shifts the rest: a fixed tuple of two becomes a tuple
    of one. *)
Theorem C37_omit_refuted : exists c vs v, tu_variadic c = None /\ length (tu_validators c) = 2 /\ run_ex c vs = VOk (PTuple [v]).
Proof. exists (tcfg [no_default (fun _ s => (VErr Omit, s)); no_default an_int] None None None false), [PNone; PInt 1], (PInt 1). repeat split. Qed.
Print Assumptions C37_omit_refuted.

(** An exception raised by the source while producing item 0 is reported at 1 (lists
    report 0), and replaces the errors of earlier items. *)
Theorem C37_iteration_refuted : exists c e, fst (tuple_validate c (plain_seq [Raise XTypeError]) (IPy PNone) ex_state) = VErr (LineErrors [e]) /\
  loc_path (le_loc e) = [LInt 1] /\ le_type e = EIterationError /\
  forall child mc t, fst (validate_iter_to_vec child false mc [Raise XTypeError] t) = VErr (LineErrors [new_error_loc EIterationError (mc_input mc) (LInt 0)]).
Proof.
  exists (tcfg [no_default an_int] (Some 0) None None false). eexists. repeat split.
Qed.
Print Assumptions C37_iteration_refuted.

(** Partial validation stays switched off in the caller's state after a tuple. *)
Theorem C37_partial_leak_refuted : exists c vs s, is_active (st_partial s) = true /\
  forall r s', tuple_validate c (plain_seq (map It vs)) (IPy PNone) s = (r, s') -> r = VOk (PTuple [PInt 1]) /\ is_active (st_partial s') = false.
Proof.
  exists (tcfg [no_default an_int] None None None false), [IPy (PInt 1)], (set_partial PartialOn ex_state). split; [reflexivity|].
  intros r s' H. vm_compute in H. injection H as <- <-. split; reflexivity.
Qed.
Print Assumptions C37_partial_leak_refuted.

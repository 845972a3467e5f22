(** C43: lazy generators. *)
From Coq Require Import List NArith ZArith Bool Lia.
From Verif Require Import Base Float64 Values VState LookupKey Collections CollectionsSpec CollectionsProofs Child Wrappers WrappersSpec Generator ModelFieldsProps.
Import ListNotations.
Open Scope nat_scope.

(** How many items the source produced in its first [k] events. *)
Fixpoint produced (src : source) (k : nat) : nat :=
  match k with 0 => 0 | S k' => produced src k' + match src k' with NItem _ => 1 | _ => 0 end end.

(** Every call of next() makes exactly one call of the source's next(). *)
Lemma next_fixed : forall c g o g', gen_next c g = (o, g') ->
  gn_source g' = gn_source g /\ gn_object g' = gn_object g /\ gn_state g' = gn_state g /\ gn_calls g' = S (gn_calls g) /\
  gn_index g' = gn_index g + match gn_source g (gn_calls g) with NItem _ => 1 | _ => 0 end.
Proof.
  intros c g o g' H. unfold gen_next in H. destruct (gn_source g (gn_calls g)) as [x|e|].
  - destruct (gc_item c) as [v|].
    + destruct (match gc_max c with Some mx => mx <=? gn_index g | None => false end).
      * injection H as <- <-. repeat split. cbn. lia.
      * destruct (v x _) as [[w|err] s']; injection H as <- <-; repeat split; cbn; lia.
    + injection H as <- <-. repeat split. cbn. lia.
  - injection H as <- <-. repeat split. cbn. lia.
  - destruct (gc_min c) as [mn|]; [destruct (gn_index g <? mn)|]; injection H as <- <-; repeat split; cbn; lia.
Qed.

(** What the call that receives [ev] as the item number [index] may do. *)
Inductive next_does (c : gen_cfg) (g : generator) (index : nat) (e : option exactness) : next_event -> gen_out -> Prop :=
| nd_end : at_least (gc_min c) index -> next_does c g index e NEnd GStop
| nd_short mn err : gc_min c = Some mn -> index < mn -> le_type err = ETooShort CGenerator mn index -> loc_path (le_loc err) = [] ->
    next_does c g index e NEnd (GRaise (XValidation [err]))
| nd_raise x : next_does c g index e (NRaise x) (GRaise x)
| nd_raw x : gc_item c = None -> next_does c g index e (NItem x) (GYield (input_object x))
| nd_long v mx err x : gc_item c = Some v -> gc_max c = Some mx -> mx <= index -> le_type err = ETooLong CGenerator mx None -> loc_path (le_loc err) = [] ->
    next_does c g index e (NItem x) (GRaise (XValidation [err]))
| nd_item v x s0 w s1 : gc_item c = Some v -> within (gc_max c) (S index) -> handed_over (gn_state g) e s0 -> v x s0 = (VOk w, s1) ->
    next_does c g index e (NItem x) (GYield w)
| nd_fail v x s0 es es' s1 : gc_item c = Some v -> within (gc_max c) (S index) -> handed_over (gn_state g) e s0 -> v x s0 = (VErr (LineErrors es), s1) ->
    Forall2 (reported (Some (LInt (Z.of_nat index)))) es es' ->
    next_does c g index e (NItem x) (GRaise (XValidation es'))
| nd_internal v x s0 ex s1 : gc_item c = Some v -> within (gc_max c) (S index) -> handed_over (gn_state g) e s0 -> v x s0 = (VErr (InternalErr ex), s1) ->
    next_does c g index e (NItem x) (GRaise ex)
| nd_schema v x s0 err s1 : gc_item c = Some v -> within (gc_max c) (S index) -> handed_over (gn_state g) e s0 -> v x s0 = (VErr err, s1) -> err = Omit \/ err = UseDefault ->
    next_does c g index e (NItem x) (GRaise schema_error).

Lemma reported_all : forall l es, Forall2 (reported (Some l)) es (map freeze_error (map (with_outer l) es)).
Proof.
  intros l es. induction es as [|y es IH]; cbn [map]; constructor; [|exact IH].
  destruct (with_outer_path l y) as (P & T & I). unfold reported, freeze_error. cbn [le_type le_loc le_input]. rewrite P, T, I. auto.
Qed.

Theorem C43_next : forall c g o g',
  (forall v, gc_item c = Some v -> forall i s, fst (v i s) <> VErr Panic) ->
  gen_next c g = (o, g') -> next_does c g (gn_index g) (gn_exactness g) (gn_source g (gn_calls g)) o.
Proof.
  intros c g o g' HP H. unfold gen_next in H. destruct (gn_source g (gn_calls g)) as [x|e|].
  - destruct (gc_item c) as [v|] eqn:EI.
    + destruct (match gc_max c with Some mx => mx <=? gn_index g | None => false end) eqn:EM.
      * destruct (gc_max c) as [mx|] eqn:EX; [|discriminate EM]. apply Nat.leb_le in EM. injection H as <- <-. eapply nd_long; eauto.
      * assert (W : within (gc_max c) (S (gn_index g))) by (unfold within; destruct (gc_max c); [apply Nat.leb_gt in EM; lia|exact I]).
        assert (HH : handed_over (gn_state g) (gn_exactness g) (handler_state (gn_state g) (gn_exactness g))) by (repeat split).
        specialize (HP v eq_refl x (handler_state (gn_state g) (gn_exactness g))).
        destruct (v x (handler_state (gn_state g) (gn_exactness g))) as [[w|[es|ex| | |]] s'] eqn:EV; injection H as <- <-.
        -- eapply nd_item; eauto.
        -- eapply nd_fail; eauto. apply reported_all.
        -- eapply nd_internal; eauto.
        -- eapply nd_schema; eauto.
        -- eapply nd_schema; eauto.
        -- contradiction (HP eq_refl).
    + injection H as <- <-. apply nd_raw. exact EI.
  - injection H as <- <-. apply nd_raise.
  - destruct (gc_min c) as [mn|] eqn:EN; [destruct (gn_index g <? mn) eqn:L|]; injection H as <- <-.
    + apply Nat.ltb_lt in L. eapply nd_short; eauto.
    + apply Nat.ltb_ge in L. apply nd_end. rewrite EN. exact L.
    + apply nd_end. rewrite EN. exact I.
Qed.

(** The [k]-th call gets the [k]-th event of the source, and the item number it uses is
    the number of items produced before. *)
Lemma run_fixed : forall c n g os g', gen_run c n g = (os, g') ->
  length os = n /\ gn_source g' = gn_source g /\ gn_state g' = gn_state g /\ gn_object g' = gn_object g /\ gn_calls g' = gn_calls g + n /\
  (gn_index g = produced (gn_source g) (gn_calls g) -> gn_index g' = produced (gn_source g') (gn_calls g')).
Proof.
  induction n as [|n IH]; intros g os g' H; cbn [gen_run] in H.
  - injection H as <- <-. rewrite Nat.add_0_r. auto 10.
  - destruct (gen_next c g) as [o g1] eqn:E. destruct (gen_run c n g1) as [os1 g2] eqn:R. injection H as <- <-.
    destruct (next_fixed _ _ _ _ E) as (S1 & O1 & T1 & C1 & I1). destruct (IH _ _ _ R) as (L & S2 & T2 & O2 & C2 & I2).
    repeat split; try congruence; [cbn; lia|lia|]. intro HI. apply I2. rewrite I1, S1, C1, HI. reflexivity.
Qed.

Theorem C43_one_item_per_call : forall c py_iter i s g s' k os g' o g'',
  (forall v, gc_item c = Some v -> forall j t, fst (v j t) <> VErr Panic) ->
  generator_validate py_iter i s = (VOk g, s') ->
  gen_run c k g = (os, g') -> gen_next c g' = (o, g'') ->
  next_does c g (produced (gn_source g) k) (gn_exactness g') (gn_source g k) o.
Proof.
  intros c py_iter i s g s' k os g' o g'' HP HV HR HN.
  assert (G0 : gn_calls g = 0 /\ gn_index g = 0).
  { unfold generator_validate in HV. destruct (validate_iter py_iter i) as [[src obj]|e]; [|discriminate HV]. injection HV as <- <-. split; reflexivity. }
  destruct G0 as [C0 I0]. destruct (run_fixed _ _ _ _ _ HR) as (L & S1 & T1 & O1 & C1 & I1).
  pose proof (C43_next c g' o g'' HP HN) as Q. rewrite I1 in Q by (rewrite C0, I0; reflexivity). rewrite C1, C0, S1 in Q. cbn [Nat.add] in Q.
  inversion Q; subst.
  all: try (econstructor; eassumption).
  - eapply nd_item; eauto. rewrite <- T1. assumption.
  - eapply nd_fail; eauto. rewrite <- T1. assumption.
  - eapply nd_internal; eauto. rewrite <- T1. assumption.
  - eapply nd_schema; eauto. rewrite <- T1. assumption.
Qed.

(** Laziness: the first [n] outputs depend only on the first [n] events. *)
Theorem C43_lazy : forall c n g h,
  gn_object g = gn_object h -> gn_state g = gn_state h -> gn_calls g = gn_calls h -> gn_index g = gn_index h -> gn_exactness g = gn_exactness h ->
  (forall k, k < n -> gn_source g (gn_calls g + k) = gn_source h (gn_calls g + k)) ->
  fst (gen_run c n g) = fst (gen_run c n h).
Proof.
  intros c n. induction n as [|n IH]; intros g h HO HS HC HI HX HE; [reflexivity|]. cbn [gen_run].
  assert (E0 : gn_source g (gn_calls g) = gn_source h (gn_calls h)).
  { specialize (HE 0 (Nat.lt_0_succ n)). rewrite Nat.add_0_r in HE. rewrite HE, HC. reflexivity. }
  assert (K : fst (gen_next c g) = fst (gen_next c h) /\ gn_index (snd (gen_next c g)) = gn_index (snd (gen_next c h)) /\ gn_exactness (snd (gen_next c g)) = gn_exactness (snd (gen_next c h))).
  { unfold gen_next, gen_error. rewrite <- E0, HO, HS, HI, HX. destruct (gn_source g (gn_calls g)) as [x|e|].
    - destruct (gc_item c) as [v|]; [|repeat split].
      destruct (match gc_max c with Some mx => mx <=? gn_index h | None => false end); [repeat split|]. destruct (v x _) as [[w|err] s']; repeat split.
    - repeat split.
    - destruct (gc_min c) as [mn|]; [destruct (gn_index h <? mn)|]; repeat split. }
  destruct (gen_next c g) as [o g1] eqn:EG. destruct (gen_next c h) as [o' h1] eqn:EH. cbn [fst snd] in K. destruct K as (<- & K1 & K2).
  destruct (next_fixed _ _ _ _ EG) as (S1 & O1 & T1 & C1 & _). destruct (next_fixed _ _ _ _ EH) as (S2 & O2 & T2 & C2 & _).
  specialize (IH g1 h1). destruct (gen_run c n g1), (gen_run c n h1). cbn [fst] in *. f_equal. apply IH; try congruence.
  intros k Hk. rewrite S1, S2, C1. specialize (HE (S k) ltac:(lia)). rewrite Nat.add_succ_r in HE. exact HE.
Qed.

(** A finite source with only valid items is yielded completely, in order, then the
    generator stops, or complains if it was too short. *)
Theorem C43_complete : forall c v xs vs g,
  gc_item c = Some v -> gn_source g = list_source xs -> gn_calls g = 0 -> gn_index g = 0 ->
  Forall2 (fun x w => forall t, exists t', v x t = (VOk w, t')) xs vs -> within (gc_max c) (length xs) ->
  fst (gen_run c (S (length xs)) g) =
    map GYield vs ++ [match gc_min c with
                      | Some mn => if Nat.ltb (length xs) mn then GRaise (XValidation [new_error (ETooShort CGenerator mn (length xs)) (IPy (gn_object g))]) else GStop
                      | None => GStop end].
Proof.
  intros c v xs vs g HI HS HC HX HV HW.
  assert (K : forall rest ws g0 pre, xs = pre ++ rest -> gn_source g0 = list_source xs -> gn_calls g0 = length pre -> gn_index g0 = length pre -> gn_object g0 = gn_object g ->
    Forall2 (fun x w => forall t, exists t', v x t = (VOk w, t')) rest ws ->
    fst (gen_run c (S (length rest)) g0) = map GYield ws ++ [match gc_min c with
                      | Some mn => if Nat.ltb (length xs) mn then GRaise (XValidation [new_error (ETooShort CGenerator mn (length xs)) (IPy (gn_object g))]) else GStop
                      | None => GStop end]).
  { induction rest as [|x rest IH]; intros ws g0 pre E S0 C0 I0 O0 HF.
    - inversion HF; subst ws. cbn [length gen_run map app]. unfold gen_next. rewrite S0, C0. unfold list_source.
      assert (EL : length xs = length pre) by (rewrite E, app_nil_r; reflexivity).
      assert (N : nth_error xs (length pre) = None) by (apply nth_error_None; lia). rewrite N, I0, EL. unfold gen_error. rewrite O0.
      destruct (gc_min c) as [mn|]; [destruct (length pre <? mn)|]; reflexivity.
    - inversion HF as [|? w ? ws' HV1 HF']; subst. change (gen_run c (S (length (x :: rest))) g0) with (let '(o, g1) := gen_next c g0 in let '(os, g2) := gen_run c (S (length rest)) g1 in (o :: os, g2)).
      assert (EN : exists e, gen_next c g0 = (GYield w, {| gn_source := gn_source g0; gn_object := gn_object g0; gn_state := gn_state g0; gn_calls := S (gn_calls g0); gn_index := S (gn_index g0); gn_exactness := e |})).
      { unfold gen_next. rewrite S0, C0. unfold list_source. rewrite nth_error_app2 by lia. rewrite Nat.sub_diag. cbn [nth_error]. rewrite HI.
        assert (M : match gc_max c with Some mx => mx <=? gn_index g0 | None => false end = false).
        { unfold within in HW. destruct (gc_max c) as [mx|]; [|reflexivity]. apply Nat.leb_gt. rewrite I0. rewrite app_length in HW. cbn [length] in HW. lia. }
        rewrite M. destruct (HV1 (handler_state (gn_state g0) (gn_exactness g0))) as [t' ->]. eexists. reflexivity. }
      destruct EN as [e ->]. set (g1 := {| gn_source := _ |}).
      specialize (IH ws' g1 (pre ++ [x])). destruct (gen_run c (S (length rest)) g1) as [os g2]. cbn [fst] in IH |- *. cbn [map app]. f_equal. apply IH; auto.
      + rewrite <- app_assoc. reflexivity.
      + cbn. rewrite app_length, C0. cbn. lia.
      + cbn. rewrite app_length, I0. cbn. lia. }
  apply (K xs vs g []); auto.
Qed.

(** No more than max_length values come out of a generator with an item schema. *)
Definition yields (os : list gen_out) : nat := length (filter (fun o => match o with GYield _ => true | _ => false end) os).
Theorem C43_max : forall c v mx n g, gc_item c = Some v -> gc_max c = Some mx -> gn_index g = 0 -> yields (fst (gen_run c n g)) <= mx.
Proof.
  intros c v mx n g HI HM HX.
  assert (K : forall n g, gn_index g <= mx -> yields (fst (gen_run c n g)) + gn_index g <= mx).
  { clear g n HX. induction n as [|n IH]; intros g HG; [cbn; lia|]. cbn [gen_run].
    destruct (gen_next c g) as [o g1] eqn:E. destruct (gen_run c n g1) as [os g2] eqn:R. cbn [fst].
    destruct (next_fixed _ _ _ _ E) as (_ & _ & _ & _ & I1).
    unfold gen_next in E. destruct (gn_source g (gn_calls g)) as [x|e|] eqn:ES.
    - rewrite HI, HM in E. destruct (mx <=? gn_index g) eqn:L.
      + apply Nat.leb_le in L. assert (gn_index g = mx) by lia. injection E as <- <-.
        (* from here on nothing is yielded *)
        assert (Z : forall n g, mx <= gn_index g -> yields (fst (gen_run c n g)) = 0).
        { clear -HI HM. induction n as [|n IH]; intros g HG; [reflexivity|]. cbn [gen_run]. destruct (gen_next c g) as [o g1] eqn:E.
          destruct (next_fixed _ _ _ _ E) as (_ & _ & _ & _ & I1). destruct (gen_run c n g1) as [os g2] eqn:R. cbn [fst].
          assert (NY : match o with GYield _ => False | _ => True end).
          { unfold gen_next in E. destruct (gn_source g (gn_calls g)) as [x|e|].
            - rewrite HI, HM in E. assert (L : mx <=? gn_index g = true) by (apply Nat.leb_le; exact HG). rewrite L in E. injection E as <- <-. exact I.
            - injection E as <- <-. exact I.
            - destruct (gc_min c) as [mn|]; [destruct (gn_index g <? mn)|]; injection E as <- <-; exact I. }
          specialize (IH g1 ltac:(lia)). rewrite R in IH. cbn [fst] in IH. unfold yields in *. cbn [filter]. destruct o; try destruct NY; exact IH. }
        specialize (Z n {| gn_source := gn_source g; gn_object := gn_object g; gn_state := gn_state g; gn_calls := S (gn_calls g); gn_index := S (gn_index g); gn_exactness := gn_exactness g |} ltac:(cbn; lia)).
        rewrite R in Z. cbn [fst] in Z. unfold yields in *. cbn [filter gen_error]. lia.
      + apply Nat.leb_gt in L. specialize (IH g1 ltac:(lia)). rewrite R in IH. cbn [fst] in IH. unfold yields in *. cbn [filter]. destruct o; cbn [length]; lia.
    - injection E as <- <-. specialize (IH _ (ltac:(cbn in *; lia) : gn_index {| gn_source := gn_source g; gn_object := gn_object g; gn_state := gn_state g; gn_calls := S (gn_calls g); gn_index := gn_index g; gn_exactness := gn_exactness g |} <= mx)).
      rewrite R in IH. cbn [fst] in IH. unfold yields in *. cbn [filter]. cbn in IH. lia.
    - assert (NY : match o with GYield _ => False | _ => True end) by (destruct (gc_min c) as [mn|]; [destruct (gn_index g <? mn)|]; injection E as <- <-; exact I).
      specialize (IH g1 ltac:(lia)). rewrite R in IH. cbn [fst] in IH. unfold yields in *. cbn [filter]. destruct o; try destruct NY; lia. }
  specialize (K n g ltac:(lia)). lia.
Qed.

(** The generator only stops when at least min_length items were consumed. *)
Theorem C43_min : forall c py_iter i s g s' k os g' g'' mn,
  gc_min c = Some mn -> generator_validate py_iter i s = (VOk g, s') ->
  gen_run c k g = (os, g') -> gen_next c g' = (GStop, g'') -> mn <= produced (gn_source g) k.
Proof.
  intros c py_iter i s g s' k os g' g'' mn HM HV HR HN.
  assert (G0 : gn_calls g = 0 /\ gn_index g = 0).
  { unfold generator_validate in HV. destruct (validate_iter py_iter i) as [[src obj]|e]; [|discriminate HV]. injection HV as <- <-. split; reflexivity. }
  destruct G0 as [C0 I0]. destruct (run_fixed _ _ _ _ _ HR) as (L & S1 & T1 & O1 & C1 & I1).
  specialize (I1 ltac:(rewrite C0, I0; reflexivity)). rewrite S1, C1, C0 in I1. cbn [Nat.add] in I1. rewrite <- I1.
  unfold gen_next in HN. rewrite HM in HN. destruct (gn_source g' (gn_calls g')).
  - destruct (gc_item c); [|discriminate HN]. destruct (match gc_max c with Some mx => mx <=? gn_index g' | None => false end) eqn:EM.
    + destruct (gc_max c); discriminate HN.
    + destruct (v x _) as [[w|err] t]; [discriminate HN|]. destruct (to_exception _ err); discriminate HN.
  - discriminate HN.
  - destruct (gn_index g' <? mn) eqn:E; [discriminate HN|]. apply Nat.ltb_ge in E. exact E.
Qed.

(** Creating the generator reads nothing from the source; the source is the input's own
    iteration. *)
Theorem C43_created : forall py_iter i s g s', generator_validate py_iter i s = (VOk g, s') ->
  gn_calls g = 0 /\ gn_index g = 0 /\ gn_exactness g = st_exactness s /\
  match i with
  | IPy v => py_iter v = Some (gn_source g)
  | IJson (JArr l) => gn_source g = list_source (map IJson l)
  | IJson (JObj d) => forall k, gn_source g k = match nth_error d k with Some (key, _) => NItem (IJson (JStr key)) | None => NEnd end
  | IJson (JStr t) | IKey t => forall k, gn_source g k = match nth_error t k with Some ch => NItem (IJson (JStr [ch])) | None => NEnd end
  | _ => False
  end.
Proof.
  intros py_iter i s g s' H. unfold generator_validate in H. destruct (validate_iter py_iter i) as [[src obj]|e] eqn:E; [|discriminate H]. injection H as <- <-.
  repeat split. cbn [gn_source]. destruct i as [v|[| | | |t|l|d]|t|v]; cbn in E; try discriminate E.
  - destruct (py_iter v); [injection E as <- <-; reflexivity|discriminate E].
  - injection E as <- <-. intro k. unfold list_source. rewrite !nth_error_map. destruct (nth_error t k); reflexivity.
  - injection E as <- <-. reflexivity.
  - injection E as <- <-. intro k. unfold list_source. rewrite !nth_error_map. destruct (nth_error d k) as [[key j]|]; reflexivity.
  - injection E as <- <-. intro k. unfold list_source. rewrite !nth_error_map. destruct (nth_error t k); reflexivity.
Qed.
Print Assumptions C43_next.
Print Assumptions C43_one_item_per_call.
Print Assumptions C43_lazy.
Print Assumptions C43_complete.
Print Assumptions C43_max.
Print Assumptions C43_min.
Print Assumptions C43_created.

Definition ex_gen (xs : list input) : generator :=
  {| gn_source := list_source xs; gn_object := PNone; gn_state := ex_state; gn_calls := 0; gn_index := 0; gn_exactness := None |}.
Definition g_int : validator := fun i s => match i with IPy (PInt _) => (VOk (input_object i), s) | _ => (val_err EIntType i, s) end.
Example C43_nonvacuous :
  fst (gen_run {| gc_item := Some g_int; gc_min := Some 1; gc_max := Some 2 |} 4 (ex_gen [IPy (PInt 1); IPy PNone; IPy (PInt 3)])) =
  [GYield (PInt 1); GRaise (XValidation [with_outer (LInt 1) (new_error EIntType (IPy PNone))]);
   GRaise (XValidation [new_error (ETooLong CGenerator 2 None) (IPy PNone)]); GStop].
Proof. reflexivity. Qed.

(** Without an item schema max_length is not enforced. *)
Theorem C43_max_refuted : exists c mx n g, gc_item c = None /\ gc_max c = Some mx /\ gn_index g = 0 /\ mx < yields (fst (gen_run c n g)).
Proof.
  exists {| gc_item := None; gc_min := None; gc_max := Some 1 |}, 1, 2, (ex_gen [IPy PNone; IPy PNone]). repeat split. cbn. lia.
Qed.
Print Assumptions C43_max_refuted.


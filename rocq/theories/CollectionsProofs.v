From Coq Require Import List NArith ZArith Bool Lia.
From Verif Require Import Base Float64 Values VState Collections CollectionsSpec.
Import ListNotations.
Open Scope nat_scope.
Local Arguments Nat.ltb : simpl never.
Local Arguments Nat.leb : simpl never.

Lemma is_nil_app {A} (a b : list A) : is_nil (a ++ b) = is_nil a && is_nil b.
Proof. destruct a; reflexivity. Qed.
Lemma is_nil_true {A} (l : list A) : is_nil l = true <-> l = [].
Proof. destruct l; simpl; split; congruence. Qed.

Lemma with_outer_path l e : loc_path (le_loc (with_outer l e)) = l :: loc_path (le_loc e) /\
  le_type (with_outer l e) = le_type e /\ le_input (with_outer l e) = le_input e.
Proof.
  destruct e as [t loc i]; cbn. split; [|split; reflexivity].
  destruct loc as [|v]; [reflexivity|]. cbn. rewrite rev_app_distr. reflexivity.
Qed.

Lemma partial_head {A} p (xs : list A) :
  (if is_active p && match xs with [] => true | _ => false end then p else PartialOff) =
  match xs with [] => p | _ => PartialOff end.
Proof. destruct p, xs; reflexivity. Qed.

Lemma map_nil_match {A B C} (f : A -> B) (xs : list A) (a b : C) :
  match map f xs with [] => a | _ :: _ => b end = match xs with [] => a | _ => b end.
Proof. destruct xs; reflexivity. Qed.

Definition mc_after (mc : max_check) (n : nat) : max_check :=
  {| mc_current := match mc_max mc with Some _ => mc_current mc + n | None => mc_current mc end;
     mc_max := mc_max mc; mc_field := mc_field mc; mc_input := mc_input mc; mc_actual := mc_actual mc |}.

Definition room (mc : max_check) (n : nat) : Prop := within (mc_max mc) (mc_current mc + n).

Lemma incr_ok mc : room mc 1 -> mc_incr mc = (VOk tt, mc_after mc 1).
Proof.
  unfold room, within, mc_incr, mc_after. destruct mc as [c m f i a]; cbn. destruct m as [m|]; [|reflexivity].
  intros H. destruct (Nat.ltb_spec m (S c)); [lia|]. rewrite Nat.add_1_r. reflexivity.
Qed.
Lemma incr_full mc m : mc_max mc = Some m -> ~ room mc 1 ->
  fst (mc_incr mc) = VErr (LineErrors [new_error (ETooLong (mc_field mc) m (mc_actual mc)) (mc_input mc)]).
Proof.
  unfold room, within, mc_incr. destruct mc as [c mm f i a]; cbn. intros ->. cbn. intros H.
  destruct (Nat.ltb_spec m (S c)); [reflexivity|lia].
Qed.
Lemma incr_inv mc u mc' : mc_incr mc = (VOk u, mc') -> room mc 1 /\ mc' = mc_after mc 1.
Proof.
  unfold room, within, mc_incr, mc_after. destruct mc as [c m f i a]; cbn. destruct m as [m|].
  - destruct (Nat.ltb_spec m (S c)); [discriminate|]. intros E. injection E as <- <-. split; [lia|]. rewrite Nat.add_1_r. reflexivity.
  - intros E. injection E as <- <-. split; [exact I|reflexivity].
Qed.
Lemma room_split mc n m : room mc (n + m) -> room mc n /\ room (mc_after mc n) m.
Proof. unfold room, within, mc_after. destruct mc as [c mm f i a]; cbn. destruct mm; lia. Qed.
Lemma room_join mc n m : room mc n -> room (mc_after mc n) m -> room mc (n + m).
Proof. unfold room, within, mc_after. destruct mc as [c mm f i a]; cbn. destruct mm; lia. Qed.
Lemma mc_after_after mc n m : mc_after (mc_after mc n) m = mc_after mc (n + m).
Proof. unfold mc_after. destruct mc as [c mm f i a]; cbn. f_equal. destruct mm; lia. Qed.
Lemma mc_after_0 mc : mc_after mc 0 = mc.
Proof. unfold mc_after. destruct mc as [c mm f i a]; cbn. f_equal. destruct mm; lia. Qed.

Lemma counted_cons r rs : counted (r :: rs) =
  (match r with VOk _ | VErr (LineErrors _) => 1 | _ => 0 end) + counted rs.
Proof. unfold counted. cbn. destruct r as [v|[es| | | |]]; reflexivity. Qed.

Section Child.
Variable child : validator.

Definition finish (out : list pyval) (errs : list line_error) : vres (list pyval) :=
  if is_nil errs then VOk out else VErr (LineErrors errs).

(** The whole loop, when nothing stops it. *)
Lemma vec_loop_run ff p : forall xs i mc out errs s rs s',
  trace child p xs s = (rs, s') -> Forall regular rs -> (ff = true -> forall j es, nth_error rs j = Some (VErr (LineErrors es)) -> is_active p = true /\ S j = length rs) ->
  room mc (counted rs) ->
  vec_loop child ff p mc out errs (enumerate_from (is_active p) i (map It xs)) s =
  (finish (out ++ values rs) (errs ++ located p i rs), s').
Proof.
  induction xs as [|x xs IH]; intros i mc out errs s rs s' T R F Rm.
  - cbn in T. injection T as <- <-. cbn. rewrite !app_nil_r. reflexivity.
  - cbn [trace] in T. cbn [map enumerate_from vec_loop].
    rewrite map_nil_match, partial_head.
    destruct (child x _) as [r s1] eqn:C. destruct (trace child p xs s1) as [rs1 s2] eqn:T1.
    injection T as <- <-. inversion R as [|? ? R1 R2]; subst.
    assert (Hl : length rs1 = length xs).
    { clear - T1. revert s1 rs1 s2 T1. induction xs as [|y ys IH]; intros s1 rs1 s2 T1; cbn in T1.
      - injection T1 as <- <-. reflexivity.
      - destruct (child y _) as [r0 s0]. destruct (trace child p ys s0) as [rs0 s3] eqn:E. injection T1 as <- <-.
        cbn. f_equal. eapply IH; eauto. }
    assert (F1 : ff = true -> forall j es, nth_error rs1 j = Some (VErr (LineErrors es)) -> is_active p = true /\ S j = length rs1).
    { intros Hf j es Hn. destruct (F Hf (S j) es Hn) as [A B]. split; [assumption|]. cbn in B. lia. }
    rewrite counted_cons in Rm.
    assert (Hx : match xs with [] => true | _ => false end = match rs1 with [] => true | _ => false end)
      by (destruct xs, rs1; try reflexivity; discriminate Hl).
    destruct r as [v|[es| | | |]]; cbn [regular] in R1; try contradiction.
    + apply room_split in Rm as [Rm1 Rm2]. rewrite (incr_ok mc Rm1).
      rewrite (IH (S i) _ _ _ s1 rs1 s2 T1 R2 F1 Rm2). cbn [values flat_map located app].
      rewrite <- app_assoc. reflexivity.
    + apply room_split in Rm as [Rm1 Rm2]. rewrite (incr_ok mc Rm1). cbn [values flat_map located app].
      rewrite Hx. destruct (is_active p && match rs1 with [] => true | _ => false end) eqn:L.
      * rewrite (IH (S i) _ _ _ s1 rs1 s2 T1 R2 F1 Rm2). reflexivity.
      * destruct ff.
        { exfalso. destruct (F eq_refl 0 es eq_refl) as [A B]. cbn in B. destruct rs1; [|discriminate B]. rewrite A in L. discriminate. }
        rewrite (IH (S i) _ _ _ s1 rs1 s2 T1 R2 F1 Rm2). rewrite <- app_assoc. reflexivity.
    + cbn in Rm. rewrite (IH (S i) _ _ _ s1 rs1 s2 T1 R2 F1 Rm). reflexivity.
Qed.

Lemma trace_length p : forall xs s rs s', trace child p xs s = (rs, s') -> length rs = length xs.
Proof.
  induction xs as [|y ys IH]; intros s1 rs1 s2 T1; cbn in T1.
  - injection T1 as <- <-. reflexivity.
  - destruct (child y _) as [r0 s0]. destruct (trace child p ys s0) as [rs0 s3] eqn:E. injection T1 as <- <-.
    cbn. f_equal. eapply IH; eauto.
Qed.

(** Success implies that nothing stopped it and that no error was collected. *)
Lemma vec_loop_ok ff p : forall items i mc out errs s o s', room mc 0 ->
  vec_loop child ff p mc out errs (enumerate_from (is_active p) i items) s = (VOk o, s') ->
  exists xs rs, items = map It xs /\ trace child p xs s = (rs, s') /\ Forall regular rs /\ room mc (counted rs) /\
    errs ++ located p i rs = [] /\ o = out ++ values rs.
Proof.
  induction items as [|it items IH]; intros i mc out errs s o s' Rm H.
  - cbn in H. exists [], []. cbn. destruct (is_nil errs) eqn:E; [|discriminate].
    injection H as <- <-. apply is_nil_true in E. subst errs.
    repeat split; try constructor; rewrite ?app_nil_r; auto.
  - cbn [enumerate_from vec_loop] in H. destruct it as [x|ex]; [|discriminate].
    destruct (child x _) as [r s1] eqn:C.
    assert (Step : forall mc' out' errs', room mc' 0 ->
      vec_loop child ff p mc' out' errs' (enumerate_from (is_active p) (S i) items) s1 = (VOk o, s') ->
      exists xs rs, items = map It xs /\ trace child p (x :: xs) s = (r :: rs, s') /\ Forall regular rs /\ room mc' (counted rs) /\
        errs' ++ located p (S i) rs = [] /\ o = out' ++ values rs).
    { intros mc' out' errs' Rm' H'. destruct (IH _ _ _ _ _ _ _ Rm' H') as (xs & rs & -> & T & R & Rc & L & O).
      exists xs, rs. repeat split; auto. cbn [trace]. rewrite map_nil_match, partial_head in C. rewrite C, T. reflexivity. }
    assert (Hl : forall xs rs s0, items = map It xs -> trace child p (x :: xs) s0 = (r :: rs, s') ->
       match items with [] => true | _ => false end = match rs with [] => true | _ => false end).
    { intros xs rs s0 -> T. apply trace_length in T. destruct xs, rs; try reflexivity; discriminate T. }
    destruct r as [v|[es| | | |]]; try discriminate.
    + destruct (mc_incr mc) as [[u|e] mc'] eqn:Ei; [|discriminate]. apply incr_inv in Ei as [Ri ->].
      destruct (Step _ _ _ (proj2 (room_split mc 1 0 Ri)) H) as (xs & rs & E & T & R & Rc & L & O).
      exists (x :: xs), (VOk v :: rs). subst items. repeat split; auto.
      * constructor; [exact Logic.I|assumption].
      * rewrite counted_cons. apply room_join; assumption.
      * rewrite O. cbn. rewrite <- app_assoc. reflexivity.
    + destruct (mc_incr mc) as [[u|e] mc'] eqn:Ei; [|discriminate]. apply incr_inv in Ei as [Ri ->].
      destruct (is_active p && match items with [] => true | _ => false end) eqn:La.
      * destruct (Step _ _ _ (proj2 (room_split mc 1 0 Ri)) H) as (xs & rs & E & T & R & Rc & L & O).
        exists (x :: xs), (VErr (LineErrors es) :: rs). rewrite (Hl _ _ _ E T) in La. subst items. repeat split; auto.
        -- constructor; [exact Logic.I|assumption].
        -- rewrite counted_cons. apply room_join; assumption.
        -- cbn [located]. rewrite La. assumption.
      * destruct ff; [discriminate|].
        destruct (Step _ _ _ (proj2 (room_split mc 1 0 Ri)) H) as (xs & rs & E & T & R & Rc & L & O).
        exists (x :: xs), (VErr (LineErrors es) :: rs). rewrite (Hl _ _ _ E T) in La. subst items. repeat split; auto.
        -- constructor; [exact Logic.I|assumption].
        -- rewrite counted_cons. apply room_join; assumption.
        -- cbn [located]. rewrite La. rewrite <- app_assoc in L. assumption.
    + destruct (Step _ _ _ Rm H) as (xs & rs & E & T & R & Rc & L & O).
      exists (x :: xs), (VErr Omit :: rs). subst items. repeat split; auto. constructor; [exact Logic.I|assumption].
Qed.

Lemma located_nil p : nonempty_errors child -> forall xs i s rs s',
  trace child p xs s = (rs, s') -> Forall regular rs ->
  (located p i rs = [] <-> forall j es, nth_error rs j = Some (VErr (LineErrors es)) -> is_active p = true /\ S j = length rs).
Proof.
  intros Ne. induction xs as [|x xs IH]; intros i s rs s' T R.
  - cbn in T. injection T as <- <-. cbn. split; [|reflexivity]. intros _ [|j]; discriminate.
  - cbn [trace] in T. destruct (child x _) as [r s1] eqn:C. destruct (trace child p xs s1) as [rs1 s2] eqn:T1.
    injection T as <- <-. inversion R as [|? ? R1 R2]; subst. specialize (IH (S i) s1 rs1 s2 T1 R2). cbn [located].
    assert (Up : (forall j es, nth_error rs1 j = Some (VErr (LineErrors es)) -> is_active p = true /\ S j = length rs1) <->
                 (forall j es, nth_error (r :: rs1) (S j) = Some (VErr (LineErrors es)) -> is_active p = true /\ S (S j) = length (r :: rs1))).
    { cbn. split; intros H j es Hj; destruct (H j es Hj); split; auto; lia. }
    split.
    + intros H. apply app_eq_nil in H as [H1 H2]. pose proof (proj1 IH H2) as H2'. clear H2. intros [|j] es Hj.
      * cbn in Hj. injection Hj as ->. destruct (is_active p); cbn in H1.
        -- destruct rs1; [split; reflexivity|]. exfalso. apply (Ne _ _ _ _ C). destruct es; [reflexivity|discriminate].
        -- exfalso. apply (Ne _ _ _ _ C). destruct es; [reflexivity|discriminate].
      * exact (proj1 Up H2' j es Hj).
    + intros H. assert (H2 : located p (S i) rs1 = []) by (apply (proj2 IH), (proj2 Up); intros j es Hj; exact (H (S j) es Hj)).
      rewrite H2, app_nil_r. destruct r as [v|[es| | | |]]; try reflexivity.
      destruct (H 0 es eq_refl) as [A B]. rewrite A. cbn in B. destruct rs1; [reflexivity|discriminate B].
Qed.

(** Success of the loop from the start. *)
Lemma vec_success ff mc items s o s' : nonempty_errors child -> mc_current mc = 0 ->
  (validate_iter_to_vec child ff mc items s = (VOk o, s') <->
   exists xs rs, items = map It xs /\ trace child (st_partial s) xs s = (rs, s') /\ Forall regular rs /\
     within (mc_max mc) (counted rs) /\ o = values rs /\
     forall j es, nth_error rs j = Some (VErr (LineErrors es)) -> forgiven (st_partial s) j (length rs)).
Proof.
  intros Ne M0. unfold validate_iter_to_vec, enumerate_last_partial, forgiven.
  assert (Rm : forall n, room mc n <-> within (mc_max mc) n) by (intros n; unfold room; rewrite M0; reflexivity).
  split.
  - intros H. apply vec_loop_ok in H; [|apply Rm; destruct (mc_max mc); cbn; auto; lia].
    destruct H as (xs & rs & E & T & R & Rc & L & O). exists xs, rs. cbn in L.
    split; [assumption|]. split; [assumption|]. split; [assumption|]. split; [apply Rm; assumption|]. split; [assumption|].
    exact (proj1 (located_nil _ Ne _ _ _ _ _ T R) L).
  - intros (xs & rs & -> & T & R & Rc & -> & L).
    rewrite (vec_loop_run ff _ xs 0 mc [] [] s rs s' T R); [|intros; eapply L; eauto|apply Rm; assumption].
    pose proof (proj2 (located_nil _ Ne _ 0 _ _ _ T R) L) as L'. unfold finish. cbn [app]. rewrite L'. reflexivity.
Qed.

Lemma vec_prefix ff p : forall pre i mc out errs s rs s1 x post,
  trace child PartialOff pre s = (rs, s1) -> Forall regular rs ->
  (ff = true -> forall es, ~ In (VErr (LineErrors es)) rs) -> room mc (counted rs) ->
  vec_loop child ff p mc out errs (enumerate_from (is_active p) i (map It pre ++ x :: post)) s =
  vec_loop child ff p (mc_after mc (counted rs)) (out ++ values rs) (errs ++ located PartialOff i rs)
    (enumerate_from (is_active p) (i + length pre) (x :: post)) s1.
Proof.
  induction pre as [|y pre IH]; intros i mc out errs s rs s1 x post T R F Rm.
  - cbn in T. injection T as <- <-. cbn [map app length values flat_map located counted filter].
    rewrite mc_after_0, !app_nil_r, Nat.add_0_r. reflexivity.
  - cbn [trace] in T. destruct (child y _) as [r s0] eqn:C. destruct (trace child PartialOff pre s0) as [rs1 s2] eqn:T1.
    injection T as <- <-. inversion R as [|? ? R1 R2]; subst.
    assert (F1 : ff = true -> forall es, ~ In (VErr (LineErrors es)) rs1) by (intros Hf es Hi; apply (F Hf es); right; assumption).
    rewrite counted_cons in *.
    replace (i + length (y :: pre)) with (S i + length pre) by (cbn; lia).
    cbn [map app enumerate_from vec_loop].
    assert (La : match map It pre ++ x :: post with [] => true | _ => false end = false) by (destruct pre; reflexivity).
    rewrite La, andb_false_r.
    assert (Hm : match pre with [] => PartialOff | _ => PartialOff end = PartialOff) by (destruct pre; reflexivity).
    rewrite Hm in C. rewrite C.
    destruct r as [v|[es| | | |]]; cbn [regular] in R1; try contradiction.
    + apply room_split in Rm as [Rm1 Rm2]. rewrite (incr_ok mc Rm1).
      rewrite (IH _ _ _ _ _ _ _ x post T1 R2 F1 Rm2), mc_after_after. cbn [values flat_map located app]. rewrite <- app_assoc. reflexivity.
    + apply room_split in Rm as [Rm1 Rm2]. rewrite (incr_ok mc Rm1).
      destruct ff; [exfalso; apply (F eq_refl es); left; reflexivity|].
      rewrite (IH _ _ _ _ _ _ _ x post T1 R2 F1 Rm2), mc_after_after. cbn [values flat_map located app]. cbn [is_active andb]. rewrite <- app_assoc. reflexivity.
    + cbn in Rm. rewrite (IH _ _ _ _ _ _ _ x post T1 R2 F1 Rm). reflexivity.
Qed.

Lemma later_mode p (post : list (item input)) : later p post ->
  is_active p && match post with [] => true | _ => false end = false.
Proof. intros [H|H]; [rewrite H; reflexivity|]. destruct post; [contradiction|apply andb_false_r]. Qed.
End Child.

(** ** Sets *)
Definition adds (set vs : list pyval) : list pyval := fold_left (fun d v => set_add v d) vs set.

Lemma set_add_length x set : length set <= length (set_add x set) <= S (length set).
Proof. unfold set_add. destruct (existsb _ set); rewrite ?app_length; cbn; lia. Qed.
Lemma adds_length vs : forall set, length set <= length (adds set vs).
Proof.
  induction vs as [|v vs IH]; intros set; cbn; [lia|]. pose proof (set_add_length v set). specialize (IH (set_add v set)).
  unfold adds in IH. lia.
Qed.

Lemma validate_add_hashing child set i s : validate_add child set i s =
  match hashing child i s with (VOk v, s') => (VOk (set_add v set), s') | (VErr e, s') => (VErr e, s') end.
Proof. unfold validate_add, hashing. destruct (child i s) as [[v|e] s']; [destruct (hashable v)|]; reflexivity. Qed.

Lemma hashing_nonempty child : nonempty_errors child -> nonempty_errors (hashing child).
Proof.
  intros Ne i s es s' H. unfold hashing in H. destruct (child i s) as [[v|e] s1] eqn:C.
  - destruct (hashable v); [discriminate|]. injection H as <- _. discriminate.
  - injection H as -> ->. eapply Ne; eauto.
Qed.

Lemma hashing_ok child i s v s' : hashing child i s = (VOk v, s') -> hashable v = true.
Proof. unfold hashing. destruct (child i s) as [[w|e] s1]; [destruct (hashable w) eqn:E|]; try discriminate. intros H. injection H as <- _. assumption. Qed.

Section Sets.
Variables (child : validator) (c : collection) (i0 : input) (mx : option nat).
Let hc := hashing child.

Lemma set_loop_run ff p : forall xs i set errs s rs s',
  trace hc p xs s = (rs, s') -> Forall regular rs ->
  (ff = true -> errs = [] /\ forall j es, nth_error rs j = Some (VErr (LineErrors es)) -> is_active p = true /\ S j = length rs) ->
  within mx (length (adds set (values rs))) ->
  set_loop child ff c i0 mx p set errs (enumerate_from (is_active p) i (map It xs)) s =
  (finish (adds set (values rs)) (errs ++ located p i rs), s').
Proof.
  induction xs as [|x xs IH]; intros i set errs s rs s' T R F Rm.
  - cbn in T. injection T as <- <-. cbn. rewrite !app_nil_r. reflexivity.
  - cbn [trace] in T. cbn [map enumerate_from set_loop].
    rewrite map_nil_match, partial_head, validate_add_hashing. fold hc.
    destruct (hc x _) as [r s1] eqn:C. destruct (trace hc p xs s1) as [rs1 s2] eqn:T1.
    injection T as <- <-. inversion R as [|? ? R1 R2]; subst.
    assert (Hl := trace_length hc p xs s1 rs1 s2 T1).
    assert (F1 : ff = true -> errs = [] /\ forall j es, nth_error rs1 j = Some (VErr (LineErrors es)) -> is_active p = true /\ S j = length rs1).
    { intros Hf. destruct (F Hf) as [He F']. split; [assumption|]. intros j es Hn. destruct (F' (S j) es Hn) as [A B]. split; [assumption|]. cbn in B. lia. }
    assert (Hx : match xs with [] => true | _ => false end = match rs1 with [] => true | _ => false end)
      by (destruct xs, rs1; try reflexivity; discriminate Hl).
    assert (Hff : ff && negb (is_nil errs) = false).
    { destruct ff; [|reflexivity]. destruct (F eq_refl) as [-> _]. reflexivity. }
    destruct r as [v|[es| | | |]]; cbn [regular] in R1; try contradiction.
    + change (values (VOk v :: rs1)) with (v :: values rs1) in *. cbn [located app]. change (adds set (v :: values rs1)) with (adds (set_add v set) (values rs1)) in *.
      rewrite Hff. rewrite (IH (S i) (set_add v set) errs s1 rs1 s2 T1 R2 F1 Rm).
      destruct mx as [n|]; [|reflexivity]. pose proof (adds_length (values rs1) (set_add v set)).
      destruct (Nat.ltb_spec n (length (set_add v set))); [unfold within in Rm; lia|reflexivity].
    + change (values (VErr (LineErrors es) :: rs1)) with (values rs1) in *. cbn [located app]. rewrite Hx.
      destruct (is_active p && match rs1 with [] => true | _ => false end) eqn:L.
      * rewrite Hff. rewrite (IH (S i) set errs s1 rs1 s2 T1 R2 F1 Rm). reflexivity.
      * destruct ff.
        { exfalso. destruct (F eq_refl) as [_ F']. destruct (F' 0 es eq_refl) as [A B]. cbn in B. destruct rs1; [|discriminate B]. rewrite A in L. discriminate. }
        cbn [andb]. rewrite (IH (S i) set _ s1 rs1 s2 T1 R2); [rewrite <- app_assoc; reflexivity|discriminate|assumption].
    + change (values (VErr Omit :: rs1)) with (values rs1) in *. cbn [located app]. rewrite Hff. apply IH; assumption.
Qed.

Lemma set_loop_ok ff p : forall items i set errs s o s', within mx (length set) ->
  set_loop child ff c i0 mx p set errs (enumerate_from (is_active p) i items) s = (VOk o, s') ->
  exists xs rs, items = map It xs /\ trace hc p xs s = (rs, s') /\ Forall regular rs /\
    errs ++ located p i rs = [] /\ o = adds set (values rs) /\ within mx (length o).
Proof.
  induction items as [|it items IH]; intros i set errs s o s' Rm H.
  - cbn in H. exists [], []. cbn. destruct (is_nil errs) eqn:E; [|discriminate].
    injection H as <- <-. apply is_nil_true in E. subst errs. repeat split; auto.
  - cbn [enumerate_from set_loop] in H. destruct it as [x|ex]; [|discriminate]. rewrite validate_add_hashing in H. fold hc in H.
    destruct (hc x _) as [r s1] eqn:C.
    assert (Step : forall set' errs', within mx (length set') ->
      (if ff && negb (is_nil errs') then (VErr (LineErrors errs'), s1)
       else set_loop child ff c i0 mx p set' errs' (enumerate_from (is_active p) (S i) items) s1) = (VOk o, s') ->
      exists xs rs, items = map It xs /\ trace hc p (x :: xs) s = (r :: rs, s') /\ Forall regular rs /\
        errs' ++ located p (S i) rs = [] /\ o = adds set' (values rs) /\ within mx (length o)).
    { intros set' errs' Rm' H'. destruct (ff && negb (is_nil errs')); [discriminate|].
      destruct (IH _ _ _ _ _ _ Rm' H') as (xs & rs & -> & T & R & L & O & W).
      exists xs, rs. repeat split; auto. cbn [trace]. rewrite map_nil_match, partial_head in C. rewrite C, T. reflexivity. }
    assert (Hl : forall xs rs s0, items = map It xs -> trace hc p (x :: xs) s0 = (r :: rs, s') ->
       match items with [] => true | _ => false end = match rs with [] => true | _ => false end).
    { intros xs rs s0 -> T. apply trace_length in T. destruct xs, rs; try reflexivity; discriminate T. }
    destruct r as [v|[es| | | |]]; try discriminate.
    + assert (H' : within mx (length (set_add v set)) /\ (if ff && negb (is_nil errs) then (VErr (LineErrors errs), s1)
       else set_loop child ff c i0 mx p (set_add v set) errs (enumerate_from (is_active p) (S i) items) s1) = (VOk o, s')).
      { destruct mx as [n|]; [|split; [exact Logic.I|assumption]].
        destruct (Nat.ltb_spec n (length (set_add v set))); [discriminate|]. split; assumption. }
      destruct H' as [W' H']. destruct (Step _ _ W' H') as (xs & rs & E & T & R & L & O & W).
      exists (x :: xs), (VOk v :: rs). subst items. repeat split; auto. constructor; [exact Logic.I|assumption].
    + destruct (Step _ _ Rm H) as (xs & rs & E & T & R & L & O & W). exists (x :: xs), (VErr (LineErrors es) :: rs).
      rewrite (Hl _ _ _ E T) in L. subst items. repeat split; auto.
      * constructor; [exact Logic.I|assumption].
      * cbn [located]. destruct (is_active p && match rs with [] => true | _ => false end); [exact L|]. rewrite app_assoc. exact L.
    + destruct (Step _ _ Rm H) as (xs & rs & E & T & R & L & O & W).
      exists (x :: xs), (VErr Omit :: rs). subst items. repeat split; auto. constructor; [exact Logic.I|assumption].
Qed.
End Sets.

Lemma set_success child ff c i0 mx items s o s' : nonempty_errors child ->
  (validate_iter_to_set child ff c i0 mx items s = (VOk o, s') <->
   exists xs rs, items = map It xs /\ trace (hashing child) (st_partial s) xs s = (rs, s') /\ Forall regular rs /\
     within mx (length o) /\ o = adds [] (values rs) /\
     forall j es, nth_error rs j = Some (VErr (LineErrors es)) -> forgiven (st_partial s) j (length rs)).
Proof.
  intros Ne. apply hashing_nonempty in Ne. unfold validate_iter_to_set, enumerate_last_partial, forgiven. split.
  - intros H. apply set_loop_ok in H; [|destruct mx; cbn; auto; lia].
    destruct H as (xs & rs & E & T & R & L & O & W). exists xs, rs. cbn in L.
    split; [assumption|]. split; [assumption|]. split; [assumption|]. split; [assumption|]. split; [assumption|].
    exact (proj1 (located_nil _ _ Ne _ _ _ _ _ T R) L).
  - intros (xs & rs & -> & T & R & W & -> & L).
    rewrite (set_loop_run child c i0 mx ff _ xs 0 [] [] s rs s' T R); [|intros _; split; [reflexivity|assumption]|assumption].
    pose proof (proj2 (located_nil _ _ Ne _ 0 _ _ _ T R) L) as L'. unfold finish. cbn [app]. rewrite L'. reflexivity.
Qed.

(** The content of the set. *)
Lemma adds_sound vs : forall set x, In x (adds set vs) -> In x set \/ In x vs.
Proof.
  induction vs as [|v vs IH]; intros set x H; cbn in *; [auto|]. apply IH in H as [H|H]; [|auto].
  unfold set_add in H. destruct (existsb _ set); [auto|]. apply in_app_iff in H as [H|[H|[]]]; auto.
Qed.
Lemma adds_keeps vs : forall set x, In x set -> In x (adds set vs).
Proof.
  induction vs as [|v vs IH]; intros set x H; cbn; [assumption|]. apply IH. unfold set_add.
  destruct (existsb _ set); [assumption|]. apply in_app_iff; auto.
Qed.
Lemma set_add_complete x set : exists y, In y (set_add x set) /\ (y = x \/ py_eq y x = true).
Proof.
  unfold set_add. destruct (existsb (fun y => py_eq y x) set) eqn:E.
  - apply existsb_exists in E as (y & Hy & He). exists y. auto.
  - exists x. split; [apply in_app_iff; right; left; reflexivity|auto].
Qed.
Lemma adds_complete vs : forall set x, In x vs -> exists y, In y (adds set vs) /\ (y = x \/ py_eq y x = true).
Proof.
  induction vs as [|v vs IH]; intros set x H; [contradiction|]. destruct H as [->|H]; [|apply (IH (set_add v set)); assumption].
  change (adds set (x :: vs)) with (adds (set_add x set) vs). destruct (set_add_complete x set) as (y & H1 & H2).
  exists y. split; [apply adds_keeps; assumption|assumption].
Qed.
Lemma adds_distinct vs : forall set, ForallOrdPairs (fun y x => py_eq y x = false) set ->
  ForallOrdPairs (fun y x => py_eq y x = false) (adds set vs).
Proof.
  induction vs as [|v vs IH]; intros set H; cbn; [assumption|]. apply IH. unfold set_add.
  destruct (existsb (fun y => py_eq y v) set) eqn:E; [assumption|].
  clear IH. induction set as [|y set IHs]; cbn.
  - constructor; constructor.
  - cbn in E. apply orb_false_iff in E as [E1 E2]. inversion H; subst. constructor.
    + apply Forall_app. split; [assumption|]. constructor; [assumption|constructor].
    + apply IHs; assumption.
Qed.

(** ** Dicts *)
Definition sets (d ps : list (pyval * pyval)) : list (pyval * pyval) := fold_left (fun d kv => dict_set (fst kv) (snd kv) d) ps d.

Section Dicts.
Variables kv vv : validator.

Lemma dict_trace_length p : forall xs s rs s', dict_trace kv vv p xs s = (rs, s') -> length rs = length xs.
Proof.
  induction xs as [|[k v] xs IH]; intros s rs s' T; cbn in T.
  - injection T as <- <-. reflexivity.
  - destruct (kv k _) as [rk s1].
    destruct (match rk with VOk _ | VErr (LineErrors _) => _ | VErr _ => _ end) as [ro s2].
    destruct (dict_trace kv vv p xs s2) as [rs1 s3] eqn:T1. injection T as <- <-. cbn. f_equal. eapply IH; eauto.
Qed.

Lemma dict_loop_run p : forall es i out errs s rs s',
  dict_trace kv vv p (map kv_of es) s = (rs, s') -> Forall dict_regular rs ->
  dict_loop kv vv p out errs (enumerate_from (is_active p) i (map to_entry es)) s =
  (VOk (sets out (pairs rs)), errs ++ dict_located p (map loc_of es) rs, s').
Proof.
  induction es as [|[[k l] v] es IH]; intros i out errs s rs s' T R.
  - cbn in T. injection T as <- <-. cbn. rewrite app_nil_r. reflexivity.
  - cbn [map kv_of dict_trace fst snd] in T. cbn [map to_entry enumerate_from dict_loop fst snd].
    destruct (kv k _) as [rk s1] eqn:Ck.
    destruct (match rk with VOk _ | VErr (LineErrors _) => _ | VErr _ => _ end) as [ro s2] eqn:Co.
    destruct (dict_trace kv vv p (map kv_of es) s2) as [rs1 s3] eqn:T1. injection T as <- <-.
    inversion R as [|? ? R1 R2]; subst. clear R. destruct R1 as (Rk & Ro & Rh). cbn [fst snd] in Rk, Ro, Rh.
    assert (Hl := dict_trace_length p _ _ _ _ T1). rewrite map_length in Hl.
    rewrite map_nil_match. rewrite map_nil_match in Co. rewrite partial_head.
    assert (Hx : match es with [] => true | _ => false end = match rs1 with [] => true | _ => false end)
      by (destruct es, rs1; try reflexivity; discriminate Hl).
    cbn [map loc_of dict_located fst snd].
    destruct rk as [k'|[esk| | | |]]; cbn [regular] in Rk; try contradiction.
    + destruct (vv v _) as [rv s2'] eqn:Cv. injection Co as <- <-. cbn [errors_of map app].
      destruct rv as [v'|[esv| | | |]]; cbn [regular] in Ro; try contradiction.
      * unfold set_item. rewrite Rh. rewrite (IH _ _ _ _ _ _ T1 R2). cbn [errors_of map].
        destruct (is_active p && match rs1 with [] => true | _ => false end); reflexivity.
      * rewrite (IH _ _ _ _ _ _ T1 R2). rewrite Hx. cbn [errors_of map].
        destruct (is_active p && match rs1 with [] => true | _ => false end); [reflexivity|]. rewrite <- app_assoc. reflexivity.
      * rewrite (IH _ _ _ _ _ _ T1 R2). cbn [errors_of map].
        destruct (is_active p && match rs1 with [] => true | _ => false end); reflexivity.
    + destruct (vv v _) as [rv s2'] eqn:Cv. injection Co as <- <-. cbn [errors_of].
      destruct rv as [v'|[esv| | | |]]; cbn [regular] in Ro; try contradiction.
      * rewrite (IH _ _ _ _ _ _ T1 R2). cbn [errors_of map].
        destruct (is_active p && match rs1 with [] => true | _ => false end); rewrite <- app_assoc; reflexivity.
      * rewrite (IH _ _ _ _ _ _ T1 R2). rewrite Hx. cbn [errors_of map].
        destruct (is_active p && match rs1 with [] => true | _ => false end); rewrite <- !app_assoc; reflexivity.
      * rewrite (IH _ _ _ _ _ _ T1 R2). cbn [errors_of map].
        destruct (is_active p && match rs1 with [] => true | _ => false end); rewrite <- app_assoc; reflexivity.
    + injection Co as <- <-. rewrite (IH _ _ _ _ _ _ T1 R2). reflexivity.
Qed.

Lemma dict_loop_ok p : forall items i out errs s o errs' s',
  dict_loop kv vv p out errs (enumerate_from (is_active p) i items) s = (VOk o, errs', s') ->
  exists es rs, items = map to_entry es /\ dict_trace kv vv p (map kv_of es) s = (rs, s') /\ Forall dict_regular rs.
Proof.
  induction items as [|it items IH]; intros i out errs s o errs' s' H.
  - cbn in H. injection H as <- <- <-. exists [], []. repeat split. constructor.
  - cbn [enumerate_from dict_loop] in H. destruct it as [k l v|e]; [|discriminate].
    destruct (kv k _) as [rk s1] eqn:Ck.
    assert (Step : forall out' errs1 ro s2, 
      (match rk with
       | VOk _ | VErr (LineErrors _) =>
            let '(rv, s2) := vv v (set_partial (match items with [] => p | _ => PartialOff end) s1) in (Some rv, s2)
       | VErr _ => (None, s1) end) = (ro, s2) -> dict_regular (rk, ro) ->
      dict_loop kv vv p out' errs1 (enumerate_from (is_active p) (S i) items) s2 = (VOk o, errs', s') ->
      exists es rs, Entry k l v :: items = map to_entry es /\ dict_trace kv vv p (map kv_of es) s = (rs, s') /\ Forall dict_regular rs).
    { intros out' errs1 ro s2 Co Rg H'. destruct (IH _ _ _ _ _ _ _ H') as (es & rs & -> & T & R).
      exists ((k, l, v) :: es), ((rk, ro) :: rs). split; [reflexivity|]. split; [|constructor; assumption].
      cbn [map kv_of fst snd dict_trace]. rewrite Ck. rewrite map_nil_match in Co. rewrite map_nil_match. rewrite Co, T. reflexivity. }
    rewrite partial_head in H.
    destruct rk as [k'|[esk| | | |]]; try discriminate.
    + destruct (vv v _) as [rv s2] eqn:Cv. destruct rv as [v'|[esv| | | |]]; try discriminate.
      * unfold set_item in H. destruct (hashable k') eqn:Hh; [|discriminate].
        eapply Step; [reflexivity| |exact H]. repeat split; assumption.
      * eapply Step; [reflexivity| |exact H]. repeat split.
      * eapply Step; [reflexivity| |exact H]. repeat split.
    + destruct (vv v _) as [rv s2] eqn:Cv. destruct rv as [v'|[esv| | | |]]; try discriminate;
        (eapply Step; [reflexivity| |exact H]; repeat split).
    + eapply Step; [reflexivity| |exact H]. repeat split.
Qed.
End Dicts.

(** The content of the dict. *)
Lemma dict_set_keys k v d : map fst (dict_set k v d) = map fst d \/ map fst (dict_set k v d) = map fst d ++ [k].
Proof.
  induction d as [|[k' v'] d IH]; cbn; [auto|]. destruct (py_eq k' k); cbn; [auto|].
  destruct IH as [-> | ->]; auto.
Qed.
Lemma sets_app d a b : sets d (a ++ b) = sets (sets d a) b.
Proof. unfold sets. apply fold_left_app. Qed.

Lemma sets_keys ps : forall d k, In k (map fst (sets d ps)) -> In k (map fst d) \/ In k (map fst ps).
Proof.
  induction ps as [|[k' v'] ps IH]; intros d k H; cbn in *; [auto|]. apply IH in H as [H|H]; [|auto].
  destruct (dict_set_keys k' v' d) as [E|E]; rewrite E in H; [auto|]. apply in_app_iff in H as [H|[H|[]]]; auto.
Qed.

Lemma dict_set_distinct k v d : ForallOrdPairs (fun a b => py_eq a b = false) (map fst d) ->
  ForallOrdPairs (fun a b => py_eq a b = false) (map fst (dict_set k v d)).
Proof.
  induction d as [|[k' v'] d IH]; intros H; cbn.
  - constructor; constructor.
  - destruct (py_eq k' k) eqn:E; cbn; [assumption|]. cbn in H. inversion H; subst. constructor; [|apply IH; assumption].
    destruct (dict_set_keys k v d) as [->| ->]; [assumption|]. apply Forall_app. split; [assumption|]. constructor; [assumption|constructor].
Qed.
Lemma sets_distinct ps : forall d, ForallOrdPairs (fun a b => py_eq a b = false) (map fst d) ->
  ForallOrdPairs (fun a b => py_eq a b = false) (map fst (sets d ps)).
Proof. induction ps as [|[k v] ps IH]; intros d H; cbn; [assumption|]. apply IH, dict_set_distinct, H. Qed.

Lemma dict_set_in k v d k0 v0 : ForallOrdPairs (fun a b => py_eq a b = false) (map fst d) ->
  (forall a b c, In a (k :: map fst d) -> In b (k :: map fst d) -> In c (k :: map fst d) -> py_eq a b = true -> py_eq b c = true -> py_eq a c = true) ->
  (forall a b, In a (k :: map fst d) -> In b (k :: map fst d) -> py_eq a b = true -> py_eq b a = true) ->
  py_eq k k = true ->
  In (k0, v0) (dict_set k v d) ->
  (v0 = v /\ py_eq k0 k = true) \/ (In (k0, v0) d /\ py_eq k0 k = false).
Proof.
  induction d as [|[k' v'] d IH]; intros D Tr Sy Rf H; cbn in H.
  - destruct H as [H|[]]. injection H as <- <-. auto.
  - cbn in D. inversion D as [|? ? D1 D2]; subst. destruct (py_eq k' k) eqn:E; cbn in H.
    + destruct H as [H|H]; [injection H as <- <-; auto|]. right. split; [right; assumption|].
      destruct (py_eq k0 k) eqn:E0; [|reflexivity]. exfalso.
      assert (Hk : In k0 (map fst d)) by (apply (in_map fst) in H; exact H).
      rewrite Forall_forall in D1. specialize (D1 k0 Hk). cbn in Tr, Sy.
      rewrite (Tr k' k k0) in D1; auto; try discriminate.
    + destruct H as [H|H]; [injection H as <- <-; right; split; [left; reflexivity|assumption]|].
      cbn in Tr, Sy.
      destruct (IH D2) as [H0|[H0 H1]]; auto.
      * intros a b c Ha Hb Hc. apply Tr; cbn in *; tauto.
      * intros a b Ha Hb. apply Sy; cbn in *; tauto.
      * right. split; [right; assumption|assumption].
Qed.

Lemma sets_last : forall ps k v, equiv_on (map fst ps) -> In (k, v) (sets [] ps) -> last_value ps k v.
Proof.
  induction ps as [|[k1 v1] ps IH] using rev_ind; intros k v E H; [contradiction|].
  rewrite sets_app in H. cbn in H. destruct E as (E1 & E2 & E3). rewrite map_app in E1, E2, E3. cbn in E1, E2, E3.
  assert (Sub : forall a, In a (k1 :: map fst (sets [] ps)) -> In a (map fst ps ++ [k1])).
  { intros a [->|Ha]; apply in_app_iff; [right; left; reflexivity|]. apply sets_keys in Ha as [[]|Ha]; auto. }
  apply dict_set_in in H.
  - destruct H as [[-> He]|[Hi He]].
    + exists ps, k1, []. repeat split; auto. intros ? ? [].
    + apply IH in Hi.
      * destruct Hi as (ps1 & k2 & ps2 & -> & Hk & Hr). exists ps1, k2, (ps2 ++ [(k1, v1)]). repeat split.
        -- rewrite <- app_assoc. reflexivity.
        -- assumption.
        -- intros k3 v3 H3. apply in_app_iff in H3 as [H3|[H3|[]]]; [eauto|]. injection H3 as <- <-. assumption.
      * assert (In1 : forall a, In a (map fst ps) -> In a (map fst ps ++ [k1])) by (intros; apply in_app_iff; auto).
        split; [auto|]. split; [auto|]. intros a b c Ha Hb Hc. apply E3; auto.
  - apply sets_distinct. constructor.
  - intros a b c Ha Hb Hc. apply E3; apply Sub; assumption.
  - intros a b Ha Hb. apply E2; apply Sub; assumption.
  - apply E1. apply in_app_iff; right; left; reflexivity.
Qed.

Lemma dict_set_has k v d : py_eq k k = true -> exists k', In (k', v) (dict_set k v d) /\ py_eq k' k = true.
Proof.
  intros R. induction d as [|[k' v'] d IH]; cbn.
  - exists k. auto.
  - destruct (py_eq k' k) eqn:E; [exists k'; split; [left; reflexivity|assumption]|].
    destruct IH as (k2 & H1 & H2). exists k2. split; [right|]; assumption.
Qed.
Lemma dict_set_key_kept k v d k0 : In k0 (map fst d) -> In k0 (map fst (dict_set k v d)).
Proof. intros H. destruct (dict_set_keys k v d) as [-> | ->]; [assumption|]. apply in_app_iff; auto. Qed.
Lemma sets_key_kept ps : forall d k0, In k0 (map fst d) -> In k0 (map fst (sets d ps)).
Proof. induction ps as [|[k v] ps IH]; intros d k0 H; cbn; [assumption|]. apply IH, dict_set_key_kept, H. Qed.
Lemma sets_complete ps : forall d k v, (forall a, In a (map fst ps) -> py_eq a a = true) -> In (k, v) ps ->
  exists k', In k' (map fst (sets d ps)) /\ py_eq k' k = true.
Proof.
  induction ps as [|[k1 v1] ps IH]; intros d k v R H; [contradiction|]. destruct H as [H|H].
  - injection H as -> ->. destruct (dict_set_has k v d) as (k' & H1 & H2); [apply R; left; reflexivity|].
    exists k'. split; [|assumption]. cbn. apply sets_key_kept. apply (in_map fst) in H1. exact H1.
  - cbn. apply IH with v; [|assumption]. intros a Ha. apply R. right. assumption.
Qed.

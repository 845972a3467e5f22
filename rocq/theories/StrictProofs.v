From Coq Require Import List NArith ZArith Bool Lia.
From Verif Require Import Base Float64 IntParse Numbers BytesCodec Values VState LookupKey Collections Child Inputs Scalars Literal Wrappers Union TaggedUnion Tuple ModelFields TypedDict Assign Arguments Classes Interp InterpSpec InterpProofs StrictSpec.
Import ListNotations.
Open Scope nat_scope.

(** ** A strict run beside another one *)
Record R (s1 s2 : state) : Prop := {
  r_on : x_strict (st_extra s1) = Some true; r_ex : set_strict None (st_extra s1) = set_strict None (st_extra s2);
  r_p1 : st_partial s1 = PartialOff; r_p2 : st_partial s2 = PartialOff }.
Definition quiet (e : verror) : Prop := match e with Omit | UseDefault | LineErrors [] => False | _ => True end.

(** The strict run fails, or is bound to fail ([D]), or the other run gives the same. *)
Inductive Sub {A} (D : A -> Prop) : vres A * state -> vres A * state -> Prop :=
| SubBad e s1 r2 : quiet e -> R s1 s1 -> Sub D (VErr e, s1) r2
| SubDoom a s1 r2 : D a -> R s1 s1 -> Sub D (VOk a, s1) r2
| SubSame a s1 s2 : R s1 s2 -> Sub D (VOk a, s1) (VOk a, s2).
Definition never {A} (a : A) : Prop := False.
Definition sub (v : validator) : Prop := forall i s1 s2, R s1 s2 -> Sub never (v i s1) (v i s2).
Definition dsub (d : option loc_item -> state -> vres (option pyval) * state) : Prop := forall l s1 s2, R s1 s2 -> Sub never (d l s1) (d l s2).
Definition csub (c : cv) : Prop := sub (cv_validate c) /\ dsub (cv_default c).

Lemma R_left s1 s2 : R s1 s2 -> R s1 s1. Proof. intros []. now split. Qed.
Lemma R_partial s1 s2 : R s1 s2 -> R (set_partial PartialOff s1) (set_partial PartialOff s2). Proof. intros []. now split. Qed.
Lemma R_fields n1 n2 s1 s2 : R s1 s2 -> R (set_fields_set n1 s1) (set_fields_set n2 s2). Proof. intros []. now split. Qed.
Lemma R_add n1 n2 s1 s2 : R s1 s2 -> R (add_fields_set n1 s1) (add_fields_set n2 s2). Proof. apply R_fields. Qed.
Lemma floor_keeps e s : st_extra (floor_exactness e s) = st_extra s /\ st_partial (floor_exactness e s) = st_partial s.
Proof. unfold floor_exactness. destruct (st_exactness s) as [[]|]; try easy. destruct e; easy. Qed.
Lemma R_floor e1 e2 s1 s2 : R s1 s2 -> R (floor_exactness e1 s1) (floor_exactness e2 s2).
Proof. intros []. destruct (floor_keeps e1 s1) as [A B], (floor_keeps e2 s2) as [C D]. split; congruence. Qed.
Inductive Rx (x1 x2 : extra) : Prop := RxI : x_strict x1 = Some true -> set_strict None x1 = set_strict None x2 -> Rx x1 x2.
Lemma R_extra x1 x2 s1 s2 : Rx x1 x2 -> R s1 s2 -> R (set_extra x1 s1) (set_extra x2 s2). Proof. intros [] []. now split. Qed.
Lemma Rx_of s1 s2 : R s1 s2 -> Rx (st_extra s1) (st_extra s2). Proof. intros []. now split. Qed.
Lemma Rx_data d x1 x2 : Rx x1 x2 -> Rx (set_data d x1) (set_data d x2). Proof. intros [A B]. split; [exact A|]. unfold set_strict, set_data in *. cbn. injection B. intros. congruence. Qed.
Lemma Rx_field d x1 x2 : Rx x1 x2 -> Rx (set_field_name d x1) (set_field_name d x2). Proof. intros [A B]. split; [exact A|]. unfold set_strict, set_field_name in *. cbn. injection B. intros. congruence. Qed.

Ltac rs := solve [repeat first [ eassumption | eapply R_left; eassumption | apply R_partial | apply R_fields | apply R_add | apply R_floor | apply R_extra | apply Rx_data | apply Rx_field | apply Rx_of ]].

Lemma strict_on d s1 s2 : R s1 s2 -> strict_or s1 d = true. Proof. intros []. unfold strict_or. now rewrite r_on0. Qed.
Lemma ex_fields s1 s2 : R s1 s2 -> let x := st_extra s1 in let y := st_extra s2 in
  x_input_type x = x_input_type y /\ x_from_attributes x = x_from_attributes y /\ x_by_alias x = x_by_alias y /\ x_by_name x = x_by_name y /\ x_data x = x_data y /\ x_field_name x = x_field_name y.
Proof. intros [_ E _ _]. unfold set_strict in E. injection E. cbn. auto 10. Qed.
Lemma info_same own s1 s2 : R s1 s2 -> info_of own s1 = info_of own s2.
Proof. intros H. apply ex_fields in H. cbv zeta in H. destruct H as (A & _ & _ & _ & B & C). unfold info_of. congruence. Qed.
Lemma by_alias_same d s1 s2 : R s1 s2 -> validate_by_alias_or s1 d = validate_by_alias_or s2 d.
Proof. intros H. apply ex_fields in H. cbv zeta in H. unfold validate_by_alias_or. now destruct H as (_ & _ & -> & _). Qed.
Lemma by_name_same d s1 s2 : R s1 s2 -> validate_by_name_or s1 d = validate_by_name_or s2 d.
Proof. intros H. apply ex_fields in H. cbv zeta in H. unfold validate_by_name_or. now destruct H as (_ & _ & _ & -> & _). Qed.
Lemma off1 s1 s2 : R s1 s2 -> st_partial s1 = PartialOff. Proof. now intros []. Qed.
Lemma off2 s1 s2 : R s1 s2 -> st_partial s2 = PartialOff. Proof. now intros []. Qed.

Lemma rebind_sub A (D : A -> Prop) f s1 s2 (k1 k2 : state -> vres A * state) : R s1 s2 -> (forall x1 x2, Rx x1 x2 -> Rx (f x1) (f x2)) ->
  (forall s1 s2, R s1 s2 -> Sub D (k1 s1) (k2 s2)) -> Sub D (rebind f s1 k1) (rebind f s2 k2).
Proof.
  intros H F K. unfold rebind. specialize (K (set_extra (f (st_extra s1)) s1) (set_extra (f (st_extra s2)) s2)).
  destruct K as [e t r2 Q T|a t r2 Q T|a t1 t2 T]; [apply R_extra; [apply F; rs|exact H]|..].
  - destruct r2. apply SubBad; [exact Q|rs].
  - destruct r2. now apply SubDoom; [|rs].
  - apply SubSame. rs.
Qed.
Lemma rebind_once A (D : A -> Prop) f s (k : state -> vres A * state) : R s s -> (forall x1 x2, Rx x1 x2 -> Rx (f x1) (f x2)) ->
  (forall s, R s s -> forall r2, Sub D (k s) r2) -> forall r2, Sub D (rebind f s k) r2.
Proof.
  intros H F K r2. unfold rebind. assert (R0 : R (set_extra (f (st_extra s)) s) (set_extra (f (st_extra s)) s)) by (apply R_extra; [apply F; rs|exact H]).
  pose proof (K _ R0 (VErr Panic, s)) as K1. remember (VErr Panic, s) as p. destruct K1 as [e t q Q T|a t q Q T|a t1 t2 T]; [constructor; [exact Q|rs]|apply SubDoom; [exact Q|rs]|discriminate].
Qed.

(** Exceptions that stay as they are. *)
Lemma quiet_val t i : quiet (LineErrors [new_error t i]). Proof. exact I. Qed.
Lemma quiet_app l es : l <> [] -> quiet (LineErrors (l ++ es)). Proof. destruct l; [easy|intros; exact I]. Qed.
Lemma quiet_errs l : l <> [] -> quiet (LineErrors l). Proof. destruct l; [easy|intros; exact I]. Qed.
Lemma is_nil_true A (l : list A) : is_nil l = true -> l = []. Proof. now destruct l. Qed.
Lemma app_map_ne A B (f : A -> B) l es : es <> [] -> l ++ map f es <> []. Proof. destruct l; [|easy]. destruct es; easy. Qed.
Lemma app_ne A (l es : list A) : l <> [] -> l ++ es <> []. Proof. destruct l; easy. Qed.
Lemma app_ne_r A (l es : list A) : es <> [] -> l ++ es <> []. Proof. destruct l; easy. Qed.
Lemma quiet_lines l : quiet (LineErrors l) -> l <> []. Proof. destruct l; easy. Qed.
Lemma quiet_outer l e : quiet e -> quiet (with_outer_err l e). Proof. destruct e as [[|]| | | |]; easy. Qed.

Ltac qt := solve [ exact I | assumption | apply quiet_errs; assumption | apply quiet_app; assumption
                 | apply quiet_errs, app_map_ne, quiet_lines; assumption | apply quiet_errs, app_ne; assumption | apply quiet_outer; assumption ].
Ltac bad := first [ apply SubBad; [qt|rs] | apply SubSame; rs ].

(** ** Readers *)
Definition reads {A} (f : bool -> input -> vres A) : Prop :=
  forall i, match f true i with VOk q => forall st, f st i = VOk q | VErr e => quiet e end.
Lemma read_cases A (f : bool -> input -> vres A) d i s1 s2 : reads f -> R s1 s2 ->
  (exists e, f (strict_or s1 d) i = VErr e /\ quiet e) \/ (exists q, f (strict_or s1 d) i = VOk q /\ f (strict_or s2 d) i = VOk q).
Proof.
  intros F H. specialize (F i). rewrite (strict_on d _ _ H). destruct (f true i) as [q|e].
  - right. exists q. auto.
  - left. exists e. auto.
Qed.

Ltac cases F :=
  match goal with |- Sub _ (match ?f (strict_or ?s1 ?d) ?i with _ => _ end) (match ?f (strict_or ?s2 _) _ with _ => _ end) =>
    destruct (read_cases _ f d i s1 s2 F ltac:(eassumption)) as [(e & EQ & Q)|(q & EQ & EQ2)];
      [rewrite EQ; clear EQ | rewrite EQ, EQ2; clear EQ EQ2] end.

(** ** Lists *)
Section Vec.
Variable child : validator.
Hypothesis HC : sub child.
Lemma once i s : R s s -> (exists e t, child i s = (VErr e, t) /\ quiet e /\ R t t) \/ (exists a t, child i s = (VOk a, t) /\ R t t).
Proof.
  intros H. pose proof (HC i s s H) as K. inversion K as [e t r Q T|a t r []|a t1 t2 T]; [left; eauto|right]. exists a, t1. split; [reflexivity|eapply R_left, T].
Qed.

Lemma incr_quiet mc e mc' : mc_incr mc = (VErr e, mc') -> quiet e.
Proof. unfold mc_incr. destruct (mc_max mc); [|discriminate]. cbv zeta. destruct (_ <? _); [|discriminate]. intros [= <- _]. exact I. Qed.
Lemma incr_cases mc : (exists e mc', mc_incr mc = (VErr e, mc') /\ quiet e) \/ (exists u mc', mc_incr mc = (VOk u, mc')).
Proof. destruct (mc_incr mc) as [[u|e] mc'] eqn:Q; [right; eauto|left]. exists e, mc'. split; [reflexivity|]. exact (incr_quiet _ _ _ Q). Qed.

Lemma vec_doom ff p items : forall n mc out errs s r2, errs <> [] -> R s s -> Sub never (vec_loop child ff p mc out errs (enumerate_from false n items) s) r2.
Proof.
  induction items as [|[x|e] items IH]; intros n mc out errs s r2 NE H; cbn [enumerate_from vec_loop andb].
  - destruct errs; [easy|]. cbn. bad.
  - destruct (once x (set_partial PartialOff s)) as [(e & t & -> & Q & T)|(a & t & -> & T)]; [rs|..].
    + destruct e as [es| | | |]; try easy; try bad. destruct (incr_cases mc) as [(e & mc' & -> & Q')|(u & mc' & ->)]; [bad|]. cbv zeta. destruct ff; [bad|]. apply IH; [now apply app_ne|exact T].
    + destruct (incr_cases mc) as [(e & mc' & -> & Q')|(u & mc' & ->)]; [bad|]. now apply IH.
  - bad.
Qed.
Lemma vec_same ff p items : forall n mc out s1 s2, R s1 s2 ->
  Sub never (vec_loop child ff p mc out [] (enumerate_from false n items) s1) (vec_loop child ff p mc out [] (enumerate_from false n items) s2).
Proof.
  induction items as [|[x|e] items IH]; intros n mc out s1 s2 H; cbn [enumerate_from vec_loop andb].
  - cbn. bad.
  - destruct (HC x (set_partial PartialOff s1) (set_partial PartialOff s2)) as [e t r Q T|a t r []|a t1 t2 T]; [rs|..].
    + destruct e as [es| | | |]; try easy; try bad. destruct (incr_cases mc) as [(e & mc' & -> & Q')|(u & mc' & ->)]; [bad|]. cbv zeta. destruct ff; [bad|]. apply vec_doom; [now apply app_map_ne, quiet_lines|exact T].
    + destruct (incr_cases mc) as [(e & mc' & -> & Q')|(u & mc' & ->)]; [bad|]. now apply IH.
  - bad.
Qed.
Lemma to_vec_sub ff mc items s1 s2 : R s1 s2 -> Sub never (validate_iter_to_vec child ff mc items s1) (validate_iter_to_vec child ff mc items s2).
Proof. intros H. unfold validate_iter_to_vec, enumerate_last_partial. rewrite (off1 _ _ H), (off2 _ _ H). now apply vec_same. Qed.

(** ** Sets *)
Lemma set_doom ff c i0 mx p items : forall n out errs s r2, errs <> [] -> R s s -> Sub never (set_loop child ff c i0 mx p out errs (enumerate_from false n items) s) r2.
Proof.
  induction items as [|[x|e] items IH]; intros n out errs s r2 NE H; cbn [enumerate_from set_loop andb].
  - destruct errs; [easy|]. cbn. bad.
  - assert (K : forall out errs s r2, errs <> [] -> R s s -> Sub never (if ff && negb (is_nil errs) then (VErr (LineErrors errs), s) else set_loop child ff c i0 mx p out errs (enumerate_from false (S n) items) s) r2).
    { intros out' errs' s' r' N' H'. destruct (ff && negb (is_nil errs')); [bad|]. now apply IH. }
    unfold validate_add. destruct (once x (set_partial PartialOff s)) as [(e & t & -> & Q & T)|(a & t & -> & T)]; [rs|..].
    + destruct e as [es| | | |]; try easy; try bad. apply K; [now apply app_ne|exact T].
    + destruct (hashable a); [|apply K; [now apply app_ne|exact T]]. destruct mx as [m|]; [destruct (_ <? _); [bad|]|]; now apply K.
  - bad.
Qed.
Lemma set_same ff c i0 mx p items : forall n out s1 s2, R s1 s2 ->
  Sub never (set_loop child ff c i0 mx p out [] (enumerate_from false n items) s1) (set_loop child ff c i0 mx p out [] (enumerate_from false n items) s2).
Proof.
  induction items as [|[x|e] items IH]; intros n out s1 s2 H; cbn [enumerate_from set_loop andb].
  - cbn. bad.
  - assert (K : forall out s1 s2, R s1 s2 -> Sub never (if ff && negb (is_nil (@nil line_error)) then (VErr (LineErrors []), s1) else set_loop child ff c i0 mx p out [] (enumerate_from false (S n) items) s1)
        (if ff && negb (is_nil (@nil line_error)) then (VErr (LineErrors []), s2) else set_loop child ff c i0 mx p out [] (enumerate_from false (S n) items) s2)).
    { intros out' s1' s2' H'. rewrite andb_false_r. now apply IH. }
    assert (KD : forall out errs s r2, errs <> [] -> R s s -> Sub never (if ff && negb (is_nil errs) then (VErr (LineErrors errs), s) else set_loop child ff c i0 mx p out errs (enumerate_from false (S n) items) s) r2).
    { intros out' errs' s' r' N' H'. destruct (ff && negb (is_nil errs')); [bad|]. now apply set_doom. }
    unfold validate_add. destruct (HC x (set_partial PartialOff s1) (set_partial PartialOff s2)) as [e t r Q T|a t r []|a t1 t2 T]; [rs|..].
    + destruct e as [es| | | |]; try easy; try bad. apply KD; [now apply app_map_ne, quiet_lines|exact T].
    + destruct (hashable a); [|apply KD; [easy|eapply R_left, T]]. destruct mx as [m|]; [destruct (_ <? _); [bad|]|]; now apply K.
  - bad.
Qed.
Lemma to_set_sub ff c i0 mx items s1 s2 : R s1 s2 -> Sub never (validate_iter_to_set child ff c i0 mx items s1) (validate_iter_to_set child ff c i0 mx items s2).
Proof. intros H. unfold validate_iter_to_set, enumerate_last_partial. rewrite (off1 _ _ H), (off2 _ _ H). now apply set_same. Qed.
End Vec.

Lemma min_cases c i mn n : (exists e, min_check c i mn n = Some e /\ quiet e) \/ min_check c i mn n = None.
Proof. unfold min_check. destruct mn; [destruct (_ <? _)|]; eauto. left. eexists. split; [reflexivity|exact I]. Qed.
Lemma max_cases c i mn n : (exists e, max_check_err c i mn n = Some e /\ quiet e) \/ max_check_err c i mn n = None.
Proof. unfold max_check_err. destruct mn; [destruct (_ <? _)|]; eauto. left. eexists. split; [reflexivity|exact I]. Qed.
Lemma plain_loop_quiet i items : forall mc ix e, no_validator_loop mc i ix items = VErr e -> quiet e.
Proof.
  induction items as [|[x|e0] items IH]; intros mc ix e; cbn [no_validator_loop]; [discriminate| |now intros [= <-]].
  destruct (incr_cases mc) as [(e' & mc' & -> & Q')|(u & mc' & ->)]; [now intros [= <-]|]. destruct (no_validator_loop mc' i (S ix) items) eqn:N; [discriminate|]. intros [= <-]. eauto.
Qed.
Lemma list_sub c child vl : (forall v, child = Some v -> sub v) -> reads vl -> sub (list_validate c child vl).
Proof.
  intros HC HV i s1 s2 H. unfold list_validate. cases HV; [bad|]. cbv zeta. destruct child as [v|].
  - destruct (to_vec_sub v (HC _ eq_refl) (co_fail_fast c) {| mc_current := 0; mc_max := co_max c; mc_field := CList; mc_input := i; mc_actual := sq_len q |} (sq_items q)
      (floor_exactness (sq_exactness q) s1) (floor_exactness (sq_exactness q) s2)) as [e t r Q T|a t r []|a t1 t2 T]; [rs|bad|].
    destruct (min_cases CList i (co_min c) (length a)) as [(e & -> & Q)| ->]; bad.
  - destruct (sq_py_list q).
    + destruct (min_cases CList i (co_min c) (length (items_of (sq_items q)))) as [(e & -> & Q)| ->]; [bad|].
      destruct (max_cases CList i (co_max c) (length (items_of (sq_items q)))) as [(e & -> & Q)| ->]; bad.
    + destruct (no_validator_loop _ i 0 (sq_items q)) as [a|e] eqn:N.
      * destruct (min_cases CList i (co_min c) (length a)) as [(e & -> & Q)| ->]; bad.
      * apply plain_loop_quiet in N. bad.
Qed.
Lemma set_sub frozen c child vl : sub child -> reads vl -> sub (set_validate frozen c child vl).
Proof.
  intros HC HV i s1 s2 H. unfold set_validate. cbv zeta. cases HV; [bad|].
  destruct (to_set_sub child HC (co_fail_fast c) (if frozen then CFrozenset else CSet) i (co_max c) (sq_items q) (floor_exactness (sq_exactness q) s1) (floor_exactness (sq_exactness q) s2)) as [e t r Q T|a t r []|a t1 t2 T]; [rs|bad|].
  destruct (min_cases (if frozen then CFrozenset else CSet) i (co_min c) (length a)) as [(e & -> & Q)| ->]; bad.
Qed.

(** ** Dicts *)
Definition good_entry (en : entry) : Prop := match en with BadEntry e => quiet e | _ => True end.
Section Dict.
Variables kv vv : validator.
Hypothesis HK : sub kv.
Hypothesis HV : sub vv.
(** The dict loop returns its errors beside the result. *)
Inductive Sub3 {A} : vres A * list line_error * state -> vres A * list line_error * state -> Prop :=
| S3Bad e errs s1 r2 : quiet e -> R s1 s1 -> Sub3 (VErr e, errs, s1) r2
| S3Doom a errs s1 r2 : errs <> [] -> R s1 s1 -> Sub3 (VOk a, errs, s1) r2
| S3Same a errs s1 s2 : R s1 s2 -> Sub3 (VOk a, errs, s1) (VOk a, errs, s2).
Ltac bad3 := first [ apply S3Bad; [qt|rs] | apply S3Doom; [assumption|rs] | apply S3Same; rs ].
Lemma dict_doom p items : Forall good_entry items -> forall n out errs s r2, errs <> [] -> R s s -> Sub3 (dict_loop kv vv p out errs (enumerate_from false n items) s) r2.
Proof.
  induction 1 as [|[key kloc value|e] items G F IH]; intros n out errs s r2 NE H; cbn [enumerate_from dict_loop andb]; [bad3| |bad3].
  destruct (once kv HK key (set_partial PartialOff s)) as [(e & t & -> & Q & T)|(a & t & -> & T)]; [rs|..].
  - destruct e as [es| | | |]; try easy; try bad3. destruct (once vv HV value (set_partial PartialOff t)) as [(e & u & -> & Q' & U)|(a & u & -> & U)]; [rs|..].
    + destruct e as [es'| | | |]; try easy; try bad3. apply IH; [now repeat apply app_ne|exact U].
    + apply IH; [now repeat apply app_ne|exact U].
  - destruct (once vv HV value (set_partial PartialOff t)) as [(e & u & -> & Q' & U)|(b & u & -> & U)]; [rs|..].
    + destruct e as [es'| | | |]; try easy; try bad3. apply IH; [now repeat apply app_ne|exact U].
    + unfold set_item. destruct (hashable a); [now apply IH|bad3].
Qed.
Lemma dict_same p items : Forall good_entry items -> forall n out s1 s2, R s1 s2 -> Sub3 (dict_loop kv vv p out [] (enumerate_from false n items) s1) (dict_loop kv vv p out [] (enumerate_from false n items) s2).
Proof.
  induction 1 as [|[key kloc value|e] items G F IH]; intros n out s1 s2 H; cbn [enumerate_from dict_loop andb]; [bad3| |bad3].
  destruct (HK key (set_partial PartialOff s1) (set_partial PartialOff s2)) as [e t r Q T|a t r []|a t1 t2 T]; [rs|..].
  - destruct e as [es| | | |]; try easy; try bad3. cbn [app]. assert (NE : map (fun e => with_outer kloc (with_outer key_marker e)) es <> []) by (apply (app_map_ne _ _ _ []), quiet_lines, Q).
    destruct (once vv HV value (set_partial PartialOff t)) as [(e & u & -> & Q' & U)|(a & u & -> & U)]; [rs|..].
    + destruct e as [es'| | | |]; try easy; try bad3. apply dict_doom; [exact F|now apply app_ne|exact U].
    + now apply dict_doom.
  - destruct (HV value (set_partial PartialOff t1) (set_partial PartialOff t2)) as [e t r Q U|b t r []|b u1 u2 U]; [rs|..].
    + destruct e as [es| | | |]; try easy; try bad3. apply dict_doom; [exact F|now apply app_map_ne, quiet_lines|exact U].
    + unfold set_item. destruct (hashable a); [now apply IH|bad3].
Qed.
Lemma dict_sub c vd : reads vd -> (forall st i l, vd st i = VOk l -> Forall good_entry l) -> sub (dict_validate c kv vv vd).
Proof.
  intros HD HE i s1 s2 H. unfold dict_validate. 
  destruct (read_cases _ vd (co_strict c) i s1 s2 HD H) as [(e & EQ & Q)|(q & EQ & EQ2)]; rewrite EQ; [bad|]. rewrite EQ2.
  unfold enumerate_last_partial. rewrite (off1 _ _ H), (off2 _ _ H). cbn [is_active].
  destruct (dict_same PartialOff q (HE _ _ _ EQ) 0 [] s1 s2 H) as [e errs t r Q T|a errs t r NE T|a errs t1 t2 T]; [bad| |].
  - destruct errs; [easy|]. cbn [is_nil]. bad.
  - destruct errs; cbn [is_nil]; [|bad]. destruct (min_cases CDict i (co_min c) (length a)) as [(e & -> & Q)| ->]; [bad|].
    destruct (max_cases CDict i (co_max c) (length a)) as [(e & -> & Q)| ->]; bad.
Qed.
End Dict.

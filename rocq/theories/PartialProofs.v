From Coq Require Import List NArith ZArith Bool Lia.
From Verif Require Import Base Float64 IntParse Numbers BytesCodec Values VState LookupKey Collections Child Inputs Scalars Literal Wrappers Union TaggedUnion Tuple ModelFields TypedDict Assign Arguments Classes Interp InterpSpec StrictSpec LooseSpec LooseQuiet PartialSpec LooseNone.
From Verif Require ConformProofs.
Import ListNotations.
Open Scope nat_scope.

(** ** A run without allow_partial beside the same run *)
Notation off := (set_partial PartialOff).
Definition R0 (s1 s2 : state) : Prop := s1 = s2 \/ s1 = off s2.
Definition R (s1 s2 : state) : Prop := R0 s1 s2 /\ plainly s2.
Definition sub (v : validator) : Prop := forall i s w t, data i -> plainly s -> v i (off s) = (VOk w, t) -> exists t', v i s = (VOk w, t') /\ R t t'.
Definition dsub (d : option loc_item -> state -> vres (option pyval) * state) : Prop := forall l s w t, plainly s -> d l (off s) = (VOk w, t) -> exists t', d l s = (VOk w, t') /\ R t t'.
Definition csub (c : cv) : Prop := sub (cv_validate c) /\ dsub (cv_default c).

Lemma sub_R v i s1 s2 w t : keeps v -> sub v -> data i -> R s1 s2 -> v i s1 = (VOk w, t) -> exists t', v i s2 = (VOk w, t') /\ R t t'.
Proof. intros K H D [[->|E] P] V; [exists t; split; [exact V|split; [now left|exact (keeps_use _ _ _ _ _ K V P)]]|subst s1; exact (H _ _ _ _ D P V)]. Qed.
Lemma dsub_R d l s1 s2 w t : dkeeps d -> dsub d -> R s1 s2 -> d l s1 = (VOk w, t) -> exists t', d l s2 = (VOk w, t') /\ R t t'.
Proof. intros K H [[->|E] P] V; [exists t; split; [exact V|split; [now left|exact (dkeeps_use _ _ _ _ _ K V P)]]|subst s1; exact (H _ _ _ _ P V)]. Qed.
Lemma R0_refl s : R0 s s. Proof. now left. Qed.
Lemma R0_off s : R0 (off s) s. Proof. now right. Qed.
Lemma R0_extra_eq s1 s2 : R0 s1 s2 -> st_extra s1 = st_extra s2. Proof. now intros [->| ->]. Qed.
Lemma floor_off e s : floor_exactness e (off s) = off (floor_exactness e s).
Proof. unfold floor_exactness. cbn. destruct (st_exactness s) as [[]|]; try reflexivity. destruct e; reflexivity. Qed.
Lemma R0_floor e s1 s2 : R0 s1 s2 -> R0 (floor_exactness e s1) (floor_exactness e s2).
Proof. intros [->| ->]; [now left|right; apply floor_off]. Qed.
Lemma R0_set x s1 s2 : R0 s1 s2 -> R0 (set_extra x s1) (set_extra x s2). Proof. intros [->| ->]; [now left|now right]. Qed.
Lemma R_refl s : plainly s -> R s s. Proof. intros P. split; [now left|exact P]. Qed.
Lemma R_off s : plainly s -> R (off s) s. Proof. intros P. split; [now right|exact P]. Qed.
Lemma R_fst s1 s2 : R s1 s2 -> plainly s1. Proof. now intros [[->| ->] P]. Qed.
Lemma R_same s1 s2 : R s1 s2 -> off s1 = off s2. Proof. now intros [[->| ->] _]. Qed.
Lemma R_extra_eq s1 s2 : R s1 s2 -> st_extra s1 = st_extra s2. Proof. now intros [[->| ->] _]. Qed.
Lemma R_floor e s1 s2 : R s1 s2 -> R (floor_exactness e s1) (floor_exactness e s2).
Proof. intros [H P]. split; [now apply R0_floor|now apply plainly_floor]. Qed.
Lemma R_set x s1 s2 : R s1 s2 -> R (set_extra x s1) (set_extra x s2). Proof. intros [H P]. split; [now apply R0_set|exact P]. Qed.
Lemma R_add n s1 s2 : R s1 s2 -> R (add_fields_set n s1) (add_fields_set n s2). Proof. intros [[->| ->] P]; (split; [|exact P]); [now left|now right]. Qed.
Lemma R_part b p s1 s2 : R s1 s2 -> R (off s1) (set_partial (if b : bool then p else PartialOff) s2).
Proof. intros H. pose proof (proj2 H) as P. apply R_same in H. rewrite H. split; [|exact P]. destruct b; [right; reflexivity|now left]. Qed.
Ltac pl := solve [repeat first [assumption | apply plainly_floor | match goal with
  | H : R ?s _ |- plainly ?s => exact (R_fst _ _ H) | H : R _ ?s |- plainly ?s => exact (proj2 H)
  | |- plainly (set_partial _ _) => apply plainly_part | |- plainly (set_extra _ _) => apply plainly_extra
  | H : keeps ?v, E : ?v ?i ?s = (_, ?t) |- plainly ?t => apply (keeps_use _ _ _ _ _ H E) end]].

(** Validators that look at no partial mode, and those that switch it off. *)
Definition com (v : validator) : Prop := forall i s, v i (off s) = (fst (v i s), off (snd (v i s))).
Lemma com_sub v : keeps v -> com v -> sub v.
Proof. intros K H i s w t _ P V. rewrite H in V. specialize (K i s P). destruct (v i s) as [r t']. cbn in V, K. injection V as -> <-. exists t'. split; [reflexivity|now apply R_off]. Qed.
Lemma reset_sub v : keeps v -> (forall i s, v i (off s) = v i s) -> sub v.
Proof. intros K H i s w t _ P V. rewrite H in V. exists t. split; [exact V|apply R_refl; pl]. Qed.
Lemma nd_csub v : sub v -> csub (no_default v).
Proof. intros H. split; [exact H|]. intros l s w t P V. cbn in *. injection V as <- <-. exists s. split; [reflexivity|now apply R_off]. Qed.

Ltac cut1 := match goal with |- context [match ?x with _ => _ end] => lazymatch x with context [match _ with _ => _ end] => fail | _ => destruct x end end.
Ltac same := intros i s; change (strict_or (off s)) with (strict_or s); change (st_extra (off s)) with (st_extra s); rewrite ?floor_off.
Lemma accept_com A (m : state -> matched A) k : (forall s, m (off s) = m s) -> (forall a s, k a (off s) = (fst (k a s), off (snd (k a s)))) -> forall s, accept (m (off s)) (off s) k = (fst (accept (m s) s k), off (snd (accept (m s) s k))).
Proof. intros M K s. rewrite M. unfold accept. destruct (m s) as [[a e]|e]; [|reflexivity]. rewrite floor_off. apply K. Qed.
Lemma any_com : com any_validate. Proof. intros i s. unfold any_validate. rewrite floor_off. reflexivity. Qed.
Lemma none_com : com none_validate. Proof. intros i s. unfold none_validate. destruct (is_none_input i); reflexivity. Qed.
Lemma bool_com st : com (bool_validate st).
Proof. intros i s. unfold bool_validate. exact (accept_com _ (fun s => validate_bool (strict_or s st) i) _ (fun _ => eq_refl) (fun _ _ => eq_refl) s). Qed.
Lemma int_com md st c : com (int_validate md st c).
Proof. intros i s. unfold int_validate. refine (accept_com _ (fun s => validate_int md (strict_or s st) i) _ (fun _ => eq_refl) _ s). intros a u. repeat first [reflexivity|cut1]. Qed.
Lemma float_com pf st c : com (float_validate pf st c).
Proof. intros i s. unfold float_validate. refine (accept_com _ (fun s => validate_float pf (strict_or s st) i) _ (fun _ => eq_refl) _ s). intros a u. repeat first [reflexivity|cut1]. Qed.
Lemma str_com ps f2s lo up c : com (str_validate ps f2s lo up c).
Proof. intros i s. unfold str_validate. refine (accept_com _ (fun s => validate_str ps f2s (strict_or s _) _ i) _ (fun _ => eq_refl) _ s). intros a u. repeat first [reflexivity|cut1]. Qed.
Lemma bytes_com c : com (bytes_validate c).
Proof. intros i s. unfold bytes_validate. refine (accept_com _ (fun s => validate_bytes (strict_or s _) _ i) _ (fun _ => eq_refl) _ s). intros a u. repeat first [reflexivity|cut1]. Qed.
Lemma literal_com py f2s md l : com (literal_validate py f2s md l).
Proof. intros i s. unfold literal_validate. destruct (lk_validate _ _ _ _ _) as [[x|]|x]; [destruct (nth_error l x)| |]; reflexivity. Qed.
Lemma inst_com sub cls : com (is_instance_validate sub cls).
Proof. intros [v|j|k|v] s; cbn; try reflexivity. destruct (is_instance _ _ _); reflexivity. Qed.
Lemma plain_com f own : com (function_plain f own). Proof. intros i s. reflexivity. Qed.
Lemma wrap_same inner s p : forall e, run_wrap inner (off s) p e = run_wrap inner s p e.
Proof.
  induction p as [v|x|v outer k IH]; intros e; cbn [run_wrap]; try reflexivity. change (handler_state (off s) e) with (handler_state s e).
  destruct (inner (IPy v) (handler_state s e)) as [[w|err] s']; [apply IH|]. destruct (to_exception outer err); [apply IH|reflexivity].
Qed.
Lemma wrap_com f own inner : com (function_wrap f own inner).
Proof. intros i s. unfold function_wrap. rewrite wrap_same. cbn [st_exactness set_partial]. change (info_of own (off s)) with (info_of own s). destruct (run_wrap _ _ _ _) as [[[v|x]|] e]; reflexivity. Qed.

(** ** Lists *)
Lemma enum_last A (b : bool) n (x : A) l : l <> [] -> enumerate_from b n (x :: l) = (n, false, x) :: enumerate_from b (S n) l.
Proof. destruct l; [easy|]. intros _. cbn. now rewrite andb_false_r. Qed.
Lemma enum_end A (b : bool) n (x : A) : enumerate_from b n [x] = [(n, b, x)]. Proof. cbn. now rewrite andb_true_r. Qed.
Definition plain_item (it : item input) : Prop := match it with It i => data i | Raise _ => True end.

Lemma add_plain child out x s : keeps child -> plainly s -> plainly (snd (validate_add child out x s)).
Proof. intros K P. unfold validate_add. destruct (child x s) as [[v|e] u] eqn:E; [destruct (hashable v)|]; cbn [snd]; pl. Qed.
Section Vec.
Variable child : validator.
Hypothesis HC : sub child.
Hypothesis HN : vne child.
Hypothesis KC : keeps child.
Lemma vec_sub ff q b p items : Forall plain_item items -> forall n mc out errs s1 s2 w t, R s1 s2 ->
  vec_loop child ff q mc out errs (enumerate_from false n items) s1 = (VOk w, t) ->
  exists t', vec_loop child ff p mc out errs (enumerate_from b n items) s2 = (VOk w, t') /\ R t t'.
Proof.
  induction 1 as [|x l P F IH]; intros n mc out errs s1 s2 w t H V.
  - cbn in *. destruct (is_nil errs); [|discriminate]. injection V as <- <-. eauto.
  - destruct l as [|y l].
    + rewrite enum_end in *. cbn [vec_loop] in *. destruct x as [x|e]; [|discriminate].
      pose proof (HN x (off s1)) as N. destruct (child x (off s1)) as [[v|[es| | | |]] u] eqn:CV; try discriminate; cbn in N; try contradiction N.
      * destruct (sub_R _ _ _ _ _ _ KC HC P (R_part b p _ _ H) CV) as (u' & -> & U). destruct (mc_incr mc) as [[x0|e] mc']; [|discriminate].
        destruct (is_nil errs); [|discriminate]. injection V as <- <-. eauto.
      * destruct (mc_incr mc) as [[x0|e] mc']; [|discriminate]. cbv zeta in V. destruct ff; [discriminate|]. destruct errs; [destruct es; [easy|]|]; discriminate.
    + rewrite enum_last in * by easy. cbn [vec_loop] in *. rewrite <- (R_same _ _ H). destruct x as [x|e]; [|discriminate].
      destruct (child x (off s1)) as [[v|[es| | | |]] u] eqn:CV; try discriminate; try (destruct (mc_incr mc) as [[x0|e] mc']; [|discriminate]); cbv zeta in *.
      * exact (IH _ _ _ _ _ _ _ _ (R_refl u ltac:(pl)) V).
      * destruct ff; [discriminate|]. exact (IH _ _ _ _ _ _ _ _ (R_refl u ltac:(pl)) V).
      * exact (IH _ _ _ _ _ _ _ _ (R_refl u ltac:(pl)) V).
Qed.
Lemma set_loop_sub ff c i0 mx q b p items : Forall plain_item items -> forall n out errs s1 s2 w t, R s1 s2 ->
  set_loop child ff c i0 mx q out errs (enumerate_from false n items) s1 = (VOk w, t) ->
  exists t', set_loop child ff c i0 mx p out errs (enumerate_from b n items) s2 = (VOk w, t') /\ R t t'.
Proof.
  induction 1 as [|x l P F IH]; intros n out errs s1 s2 w t H V.
  - cbn in *. destruct (is_nil errs); [|discriminate]. injection V as <- <-. eauto.
  - destruct l as [|y l].
    + rewrite enum_end in *. cbn [set_loop] in *. destruct x as [x|e]; [|discriminate]. unfold validate_add in *.
      pose proof (HN x (off s1)) as N. destruct (child x (off s1)) as [[v|[es| | | |]] u] eqn:CV; try discriminate; cbn in N; try contradiction N.
      * destruct (sub_R _ _ _ _ _ _ KC HC P (R_part b p _ _ H) CV) as (u' & -> & U). destruct (hashable v).
        -- destruct mx as [m|]; [destruct (_ <? _); [discriminate|]|]; (destruct (ff && _); [discriminate|]); cbn in *; (destruct (is_nil errs); [|discriminate]); injection V as <- <-; eauto.
        -- cbn in V. destruct (ff && _); [discriminate|]. destruct errs; discriminate.
      * destruct (ff && _); [discriminate|]. cbn in V. destruct errs; [destruct es; [easy|]|]; discriminate.
    + rewrite enum_last in * by easy. cbn [set_loop] in *. rewrite <- (R_same _ _ H). destruct x as [x|e]; [|discriminate].
      pose proof (add_plain _ out x (off s1) KC (R_fst _ _ H)) as AP. destruct (validate_add child out x (off s1)) as [[v|[es| | | |]] u]; try discriminate; cbn [snd] in AP.
      * destruct mx as [m|]; [destruct (_ <? _); [discriminate|]|]; (destruct (ff && _); [discriminate|]); exact (IH _ _ _ _ _ _ _ (R_refl u ltac:(pl)) V).
      * destruct (ff && _); [discriminate|]. exact (IH _ _ _ _ _ _ _ (R_refl u ltac:(pl)) V).
      * destruct (ff && _); [discriminate|]. exact (IH _ _ _ _ _ _ _ (R_refl u ltac:(pl)) V).
Qed.
End Vec.
Definition feeds (f : bool -> input -> vres seq) : Prop := forall b i sq, data i -> f b i = VOk sq -> Forall plain_item (sq_items sq).
Lemma list_sub c child vl : (forall v, child = Some v -> sub v /\ vne v /\ keeps v) -> feeds vl -> sub (list_validate c child vl).
Proof.
  intros HC HF i s w t D P V. unfold list_validate in *. change (strict_or (off s)) with (strict_or s) in V. destruct (vl _ i) as [sq|e] eqn:Q; [|discriminate]. apply (HF _ _ _ D) in Q. cbv zeta in *. rewrite floor_off in V.
  destruct child as [v|].
  - destruct (HC _ eq_refl) as (C & N & K). unfold validate_iter_to_vec, enumerate_last_partial in *.
    match type of V with context [vec_loop ?a ?b ?c ?d ?e ?f ?g ?h] => destruct (vec_loop a b c d e f g h) as [[out|er] u] eqn:VL end; [|discriminate].
    cbn [st_partial set_partial is_active] in VL. eapply vec_sub in VL; [|exact C|exact N|exact K|exact Q|apply R_off; pl]. destruct VL as (u' & -> & U).
    destruct (min_check _ _ _ _); [discriminate|]. injection V as <- <-. eauto.
  - destruct (sq_py_list sq).
    + destruct (min_check _ _ _ _); [discriminate|]. destruct (max_check_err _ _ _ _); [discriminate|]. injection V as <- <-. eexists. split; [reflexivity|apply R_off; pl].
    + destruct (no_validator_loop _ _ _ _); [|discriminate]. destruct (min_check _ _ _ _); [discriminate|]. injection V as <- <-. eexists. split; [reflexivity|apply R_off; pl].
Qed.
Lemma set_sub fz c child vl : sub child -> vne child -> keeps child -> feeds vl -> sub (set_validate fz c child vl).
Proof.
  intros C N K HF i s w t D P V. unfold set_validate in *. change (strict_or (off s)) with (strict_or s) in V. cbv zeta in *. destruct (vl _ i) as [sq|e] eqn:Q; [|discriminate]. apply (HF _ _ _ D) in Q. rewrite floor_off in V.
  unfold validate_iter_to_set, enumerate_last_partial in *.
  match type of V with context [set_loop ?a ?b ?c ?d ?e ?f ?g ?h ?k ?l] => destruct (set_loop a b c d e f g h k l) as [[out|er] u] eqn:VL end; [|discriminate].
  cbn [st_partial set_partial is_active] in VL. eapply set_loop_sub in VL; [|exact C|exact N|exact K|exact Q|apply R_off; pl]. destruct VL as (u' & -> & U).
  destruct (min_check _ _ _ _); [discriminate|]. injection V as <- <-. eauto.
Qed.

(** ** Dicts *)
Definition plain_entry (en : entry) : Prop := match en with Entry k _ v => data k /\ data v | BadEntry _ => True end.
Section Dict.
Variables kv vv : validator.
Hypothesis HK : sub kv.
Hypothesis NK : vne kv.
Hypothesis HV : sub vv.
Hypothesis NV : vne vv.
Hypothesis KK : keeps kv.
Hypothesis KV : keeps vv.
Lemma dict_loop_sub q b p items : Forall plain_entry items -> forall n out errs s1 s2 w t, R s1 s2 ->
  dict_loop kv vv q out errs (enumerate_from false n items) s1 = (VOk w, [], t) ->
  exists t', dict_loop kv vv p out errs (enumerate_from b n items) s2 = (VOk w, [], t') /\ R t t'.
Proof.
  induction 1 as [|[key kloc value|e] l P F IH]; intros n out errs s1 s2 w t H V.
  - cbn in *. injection V as <- -> <-. eauto.
  - destruct l as [|y l].
    + rewrite enum_end in *. cbn [dict_loop] in *. rewrite <- (R_same _ _ H). pose proof (NK key (off s1)) as N1.
      destruct (kv key (off s1)) as [[k|[es| | | |]] u] eqn:CK; try discriminate; cbn in N1; try contradiction N1; pose proof (NV value (off u)) as N; destruct (vv value (off u)) as [[v|[es'| | | |]] u2] eqn:CV; try discriminate; cbn in N; try contradiction N.
      * destruct (sub_R _ _ _ _ _ _ KV HV (proj2 P) (R_part b p _ _ (R_refl u ltac:(pl))) CV) as (u' & -> & U). destruct (set_item k v out); [|discriminate]. injection V as <- -> <-. eauto.
      * injection V as _ V _. destruct errs; [destruct es'; [easy|]|]; discriminate.
      * injection V as _ V _. destruct errs; [destruct es; [easy|]|]; discriminate.
      * injection V as _ V _. destruct errs; [destruct es; [easy|]|]; discriminate.
    + rewrite enum_last in * by easy. cbn [dict_loop] in *. rewrite <- (R_same _ _ H).
      destruct (kv key (off s1)) as [[k|[es| | | |]] u] eqn:CK; try discriminate; try (exact (IH _ _ _ _ _ _ _ (R_refl u ltac:(pl)) V)); destruct (vv value (off u)) as [[v|[es'| | | |]] u2] eqn:CV; try discriminate; try (exact (IH _ _ _ _ _ _ _ (R_refl u2 ltac:(pl)) V)).
      destruct (set_item k v out); [|discriminate]. exact (IH _ _ _ _ _ _ _ (R_refl u2 ltac:(pl)) V).
  - destruct l as [|y l]; [rewrite enum_end in V|rewrite enum_last in V by easy]; discriminate.
Qed.
Lemma dict_sub c vd : (forall b i l, data i -> vd b i = VOk l -> Forall plain_entry l) -> sub (dict_validate c kv vv vd).
Proof.
  intros HD i s w t D P V. unfold dict_validate, enumerate_last_partial in *. change (strict_or (off s)) with (strict_or s) in V. destruct (vd _ i) as [l|e] eqn:Q; [|discriminate]. apply (HD _ _ _ D) in Q.
  match type of V with context [dict_loop ?a ?b ?c ?d ?e ?f ?g] => destruct (dict_loop a b c d e f g) as [[[out|er] errs] u] eqn:VL end; [|discriminate].
  destruct errs; [|discriminate]. cbn [st_partial set_partial is_active is_nil] in *. eapply dict_loop_sub in VL; [|exact Q|apply R_off; pl]. destruct VL as (u' & -> & U). cbn [is_nil].
  destruct (min_check _ _ _ _); [discriminate|]. destruct (max_check_err _ _ _ _); [discriminate|]. injection V as <- <-. eauto.
Qed.
End Dict.

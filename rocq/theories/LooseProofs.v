From Coq Require Import List NArith ZArith Bool Lia.
From Verif Require Import Base Float64 IntParse Numbers BytesCodec Values VState LookupKey Collections Child Inputs Scalars Literal Wrappers Union TaggedUnion Tuple ModelFields TypedDict Assign Arguments Classes Interp InterpSpec InterpProofs StrictSpec StrictProofs StrictProofs3 StrictProofs5 LooseSpec LooseQuiet LooseOff.
Import ListNotations.
Open Scope nat_scope.

(** ** Whatever the first validator accepts, the second accepts alike *)
Definition eases (v v' : validator) : Prop := forall i s a t, off s -> v i s = (VOk a, t) -> v' i s = (VOk a, t).
Definition deases (needed : bool) (d d' : option loc_item -> state -> vres (option pyval) * state) : Prop :=
  forall l s a t, off s -> d l s = (VOk a, t) -> (needed = true /\ a = None) \/ d' l s = (VOk a, t).
Record kid (v v' : validator) : Prop := { k_ne : vne v; k_off : keeps v; k_ease : eases v v' }.
Record ckid (n : bool) (c c' : cv) : Prop := { ck_v : kid (cv_validate c) (cv_validate c'); ck_dne : dne (cv_default c); ck_doff : dkeeps (cv_default c); ck_d : deases n (cv_default c) (cv_default c') }.

Lemma laxer_reads A (f : bool -> input -> vres A) st st' s i q : reads f -> laxer st st' -> f (strict_or s st) i = VOk q -> f (strict_or s st') i = VOk q.
Proof.
  intros R L. unfold strict_or. destruct (x_strict (st_extra s)); [easy|]. specialize (R i). destruct st.
  - destruct (f true i); [|discriminate]. intros [= <-]. apply R.
  - destruct st'; [|easy]. now specialize (L eq_refl).
Qed.
Lemma some_err A (x : vres A * state) a t : x = (VOk a, t) -> forall e s, x = (VErr e, s) -> False. Proof. intros -> e s [=]. Qed.

(** ** Lists *)
Definition mcr (m m' : max_check) : Prop := match mc_max m' with None => True | Some b => exists a, mc_max m = Some a /\ a <= b /\ mc_current m' = mc_current m end.
Lemma incr_mcr m m' u m1 : mcr m m' -> mc_incr m = (VOk u, m1) -> exists m1', mc_incr m' = (VOk tt, m1') /\ mcr m1 m1'.
Proof.
  unfold mcr, mc_incr. destruct (mc_max m') as [b|] eqn:M.
  - intros (a & -> & LE & CU). cbv zeta. destruct (Nat.ltb_spec a (S (mc_current m))); [discriminate|]. intros [= <- <-].
    rewrite CU. destruct (Nat.ltb_spec b (S (mc_current m))); [lia|]. eexists. split; [reflexivity|]. cbn. exists a. auto.
  - intros _ _. eexists. split; [reflexivity|]. now rewrite M.
Qed.
Lemma map_app_nil A B (f : A -> B) l es : l ++ map f es = [] -> es = []. Proof. intros H. apply app_eq_nil in H. destruct H as [_ H]. now apply map_eq_nil in H. Qed.

Section Vec.
Variables v v' : validator.
Hypothesis K : kid v v'.
Lemma vec_mono ff items : forall n mc out errs s a t, vec_loop v ff PartialOff mc out errs (enumerate_from false n items) s = (VOk a, t) -> errs = [].
Proof.
  induction items as [|[x|e] items IH]; intros n mc out errs s a t; cbn [enumerate_from vec_loop andb].
  - now destruct errs.
  - destruct (v x _) as [[w|[es| | | |]] s1]; try discriminate.
    + destruct (mc_incr mc) as [[]]; [apply IH|discriminate].
    + destruct (mc_incr mc) as [[]]; [|discriminate]. cbv zeta. destruct ff; [discriminate|]. intros H. apply IH in H. now apply app_eq_nil in H.
    + apply IH.
  - discriminate.
Qed.
Lemma vec_ease ff ff' items : forall n mc mc' out s a t, mcr mc mc' -> off s -> vec_loop v ff PartialOff mc out [] (enumerate_from false n items) s = (VOk a, t) ->
  vec_loop v' ff' PartialOff mc' out [] (enumerate_from false n items) s = (VOk a, t).
Proof.
  induction items as [|[x|e] items IH]; intros n mc mc' out s a t M O; cbn [enumerate_from vec_loop andb]; [easy| |discriminate].
  destruct (v x _) as [[w|[es| | | |]] s1] eqn:C; try discriminate.
  - rewrite (k_ease _ _ K _ _ _ _ (proj1 (off_part true s)) C). destruct (mc_incr mc) as [[u|] m1] eqn:I; [|discriminate].
    destruct (incr_mcr _ _ _ _ M I) as (m1' & -> & M1). apply IH; [exact M1|]. exact (keeps_use _ _ _ _ _ (k_off _ _ K) C eq_refl).
  - destruct (mc_incr mc) as [[]]; [|discriminate]. cbv zeta. destruct ff; [discriminate|]. intros H. apply vec_mono in H. apply map_app_nil in H. subst es.
    now destruct (vne_err _ _ _ _ _ (k_ne _ _ K) C).
  - now destruct (vne_err _ _ _ _ _ (k_ne _ _ K) C).
Qed.
Lemma set_mono ff c i0 mx items : forall n out errs s a t, set_loop v ff c i0 mx PartialOff out errs (enumerate_from false n items) s = (VOk a, t) -> errs = [].
Proof.
  induction items as [|[x|e] items IH]; intros n out errs s a t; cbn [enumerate_from set_loop andb]; [now destruct errs| |discriminate].
  assert (L : forall st er s, (if ff && negb (is_nil er) then (VErr (LineErrors er), s) else set_loop v ff c i0 mx PartialOff st er (enumerate_from false (S n) items) s) = (VOk a, t) -> er = []).
  { intros st er s0. destruct (_ && _); [discriminate|]. apply IH. }
  unfold validate_add. destruct (v x _) as [[w|[es| | | |]] s1]; try discriminate.
  - destruct (hashable w); [|intros H; apply L in H; now apply app_eq_nil in H]. destruct mx; [|apply L]. destruct (_ <? _); [discriminate|apply L].
  - intros H. apply L in H. now apply app_eq_nil in H.
  - apply L.
Qed.
Lemma set_ease ff ff' c i0 mx mx' items : upper le mx mx' -> forall n out s a t, off s -> set_loop v ff c i0 mx PartialOff out [] (enumerate_from false n items) s = (VOk a, t) ->
  set_loop v' ff' c i0 mx' PartialOff out [] (enumerate_from false n items) s = (VOk a, t).
Proof.
  intros U. induction items as [|[x|e] items IH]; intros n out s a t O; cbn [enumerate_from set_loop andb]; [easy| |discriminate].
  assert (L : forall st er s, (if ff && negb (is_nil er) then (VErr (LineErrors er), s) else set_loop v ff c i0 mx PartialOff st er (enumerate_from false (S n) items) s) = (VOk a, t) -> er = []).
  { intros st er s0. destruct (_ && _); [discriminate|]. apply set_mono. }
  unfold validate_add. destruct (v x _) as [[w|[es| | | |]] s1] eqn:C; try discriminate.
  - rewrite (k_ease _ _ K _ _ _ _ (proj1 (off_part true s)) C). pose proof (keeps_use _ _ _ _ _ (k_off _ _ K) C eq_refl) as O1.
    destruct (hashable w); [|intros H; apply L in H; now apply app_eq_nil in H]. cbn [is_nil negb]. rewrite !andb_false_r. destruct mx as [m|].
    + destruct (Nat.ltb_spec m (length (set_add w out))); [discriminate|]. intros H'. destruct mx' as [m'|]; [|now apply IH]. destruct U as (m0 & [= <-] & LE).
      destruct (Nat.ltb_spec m' (length (set_add w out))); [lia|]. now apply IH.
    + destruct mx' as [m'|]; [destruct U as (? & ? & _); discriminate|]. now apply IH.
  - intros H. apply L in H. apply map_app_nil in H. subst es. now destruct (vne_err _ _ _ _ _ (k_ne _ _ K) C).
  - now destruct (vne_err _ _ _ _ _ (k_ne _ _ K) C).
Qed.
End Vec.

Lemma min_ease c i a b n : lower le a b -> min_check c i a n = None -> min_check c i b n = None.
Proof.
  unfold min_check. destruct b as [m'|]; [|easy]. intros (m & -> & LE). destruct (Nat.ltb_spec n m); [discriminate|]. intros _. destruct (Nat.ltb_spec n m'); [lia|easy].
Qed.
Lemma max_ease c i a b n : upper le a b -> max_check_err c i a n = None -> max_check_err c i b n = None.
Proof.
  unfold max_check_err. destruct b as [m'|]; [|easy]. intros (m & -> & LE). destruct (Nat.ltb_spec m n); [discriminate|]. intros _. destruct (Nat.ltb_spec m' n); [lia|easy].
Qed.
Lemma plain_loop_ease i items : forall mc mc' ix a, mcr mc mc' -> no_validator_loop mc i ix items = VOk a -> no_validator_loop mc' i ix items = VOk a.
Proof.
  induction items as [|[x|e0] items IH]; intros mc mc' ix a M; cbn [no_validator_loop]; [easy| |discriminate].
  destruct (mc_incr mc) as [[u|] m1] eqn:I; [|discriminate]. destruct (incr_mcr _ _ _ _ M I) as (m1' & -> & M1).
  destruct (no_validator_loop m1 i (S ix) items) eqn:N; [|discriminate]. intros [= <-]. now rewrite (IH _ _ _ _ M1 N).
Qed.
Lemma list_ease c c' o o' : coll_looser c c' -> opt_rel kid o o' -> eases (list_validate c o validate_list) (list_validate c' o' validate_list).
Proof.
  intros (LS & LMn & LMx) K i s a t O. unfold list_validate, validate_iter_to_vec, enumerate_last_partial. cbv zeta.
  destruct (validate_list (strict_or s (co_strict c)) i) as [sq|] eqn:V; [|discriminate]. rewrite (laxer_reads _ _ _ _ _ _ _ list_reads LS V).
  pose proof (off_floor (sq_exactness sq) s O) as O1.
  assert (MC : mcr {| mc_current := 0; mc_max := co_max c; mc_field := CList; mc_input := i; mc_actual := sq_len sq |} {| mc_current := 0; mc_max := co_max c'; mc_field := CList; mc_input := i; mc_actual := sq_len sq |}).
  { unfold mcr. cbn. destruct (co_max c'); [|easy]. destruct LMx as (m & -> & LE). exists m. auto. }
  destruct K as [|v v' K].
  - destruct (sq_py_list sq).
    + destruct (min_check _ _ (co_min c) _) eqn:Mn; [discriminate|]. rewrite (min_ease _ _ _ _ _ LMn Mn).
      destruct (max_check_err _ _ (co_max c) _) eqn:Mx; [discriminate|]. now rewrite (max_ease _ _ _ _ _ LMx Mx).
    + destruct (no_validator_loop _ i 0 (sq_items sq)) as [out|] eqn:N; [|discriminate]. rewrite (plain_loop_ease _ _ _ _ _ _ MC N).
      destruct (min_check _ _ (co_min c) _) eqn:Mn; [discriminate|]. now rewrite (min_ease _ _ _ _ _ LMn Mn).
  - rewrite O1. cbn [is_active]. destruct (vec_loop v _ _ _ _ _ _ _) as [[out|] s1] eqn:L; [|discriminate]. rewrite (vec_ease v v' K _ (co_fail_fast c') _ _ _ _ _ _ _ _ MC O1 L).
    destruct (min_check _ _ (co_min c) _) eqn:Mn; [discriminate|]. now rewrite (min_ease _ _ _ _ _ LMn Mn).
Qed.
Lemma set_eases z c c' v v' vl : reads vl -> coll_looser c c' -> kid v v' -> eases (set_validate z c v vl) (set_validate z c' v' vl).
Proof.
  intros R (LS & LMn & LMx) K i s a t O. unfold set_validate, validate_iter_to_set, enumerate_last_partial. cbv zeta.
  destruct (vl (strict_or s (co_strict c)) i) as [sq|] eqn:V; [|discriminate]. rewrite (laxer_reads _ _ _ _ _ _ _ R LS V).
  pose proof (off_floor (sq_exactness sq) s O) as O1. rewrite O1. cbn [is_active].
  destruct (set_loop v _ _ _ _ _ _ _ _ _) as [[out|] s1] eqn:L; [|discriminate]. rewrite (set_ease v v' K _ (co_fail_fast c') _ _ _ _ _ LMx _ _ _ _ _ O1 L).
  destruct (min_check _ _ (co_min c) _) eqn:Mn; [discriminate|]. now rewrite (min_ease _ _ _ _ _ LMn Mn).
Qed.

(** ** Dicts *)
Section Dict.
Variables kv kv' vv vv' : validator.
Hypothesis HK : kid kv kv'.
Hypothesis HV : kid vv vv'.
Lemma dict_mono items : forall n out errs s a t, dict_loop kv vv PartialOff out errs (enumerate_from false n items) s = (VOk a, [], t) -> errs = [].
Proof.
  induction items as [|[key kloc value|e] items IH]; intros n out errs s a t; cbn [enumerate_from dict_loop andb]; [now intros [= _ -> _]| |discriminate].
  destruct (kv key _) as [[k|[es| | | |]] s1]; try discriminate; [| |apply IH]; (destruct (vv value _) as [[w|[es'| | | |]] s2]; try discriminate).
  - unfold set_item. destruct (hashable k); [apply IH|discriminate].
  - intros H. apply IH in H. now apply app_eq_nil in H.
  - apply IH.
  - intros H. apply IH in H. now apply app_eq_nil in H.
  - intros H. apply IH in H. apply app_eq_nil in H. destruct H as [H _]. now apply app_eq_nil in H.
  - intros H. apply IH in H. now apply app_eq_nil in H.
Qed.
Lemma dict_loop_ease items : forall n out s a t, off s -> dict_loop kv vv PartialOff out [] (enumerate_from false n items) s = (VOk a, [], t) ->
  dict_loop kv' vv' PartialOff out [] (enumerate_from false n items) s = (VOk a, [], t).
Proof.
  induction items as [|[key kloc value|e] items IH]; intros n out s a t O; cbn [enumerate_from dict_loop andb]; [easy| |discriminate].
  destruct (kv key _) as [[k|[es| | | |]] s1] eqn:C; try discriminate.
  - rewrite (k_ease _ _ HK _ _ _ _ (proj1 (off_part true s)) C).
    destruct (vv value _) as [[w|[es| | | |]] s2] eqn:C2; try discriminate.
    + rewrite (k_ease _ _ HV _ _ _ _ (proj1 (off_part true _)) C2). unfold set_item. destruct (hashable k); [|discriminate]. apply IH. exact (keeps_use _ _ _ _ _ (k_off _ _ HV) C2 eq_refl).
    + intros H. apply dict_mono in H. apply map_app_nil in H. subst es. now destruct (vne_err _ _ _ _ _ (k_ne _ _ HV) C2).
    + now destruct (vne_err _ _ _ _ _ (k_ne _ _ HV) C2).
  - assert (es <> []) by exact (vne_err _ _ _ _ _ (k_ne _ _ HK) C). destruct (vv value _) as [[w|[es'| | | |]] s2] eqn:C2; try discriminate; intros H1; apply dict_mono in H1.
    + now apply (map_app_nil _ _ _ []) in H1.
    + apply app_eq_nil in H1. destruct H1 as [H1 _]. now apply (map_app_nil _ _ _ []) in H1.
    + now apply (map_app_nil _ _ _ []) in H1.
  - now destruct (vne_err _ _ _ _ _ (k_ne _ _ HK) C).
Qed.
Lemma dict_ease repr c c' : coll_looser c c' -> eases (dict_validate c kv vv (dict_entries repr)) (dict_validate c' kv' vv' (dict_entries repr)).
Proof.
  intros (LS & LMn & LMx) i s a t O. unfold dict_validate, enumerate_last_partial.
  destruct (dict_entries repr (strict_or s (co_strict c)) i) as [es|] eqn:V; [|discriminate]. rewrite (laxer_reads _ _ _ _ _ _ _ (entries_reads repr) LS V).
  rewrite O. cbn [is_active]. destruct (dict_loop kv _ _ _ _ _ _) as [[[out|] errs] s1] eqn:L; [|discriminate]. destruct errs; cbn [is_nil]; [|discriminate].
  rewrite (dict_loop_ease _ _ _ _ _ _ O L). cbn [is_nil].
  destruct (min_check _ _ (co_min c) _) eqn:Mn; [discriminate|]. rewrite (min_ease _ _ _ _ _ LMn Mn).
  destruct (max_check_err _ _ (co_max c) _) eqn:Mx; [discriminate|]. now rewrite (max_ease _ _ _ _ _ LMx Mx).
Qed.
End Dict.

From Coq Require Import List NArith ZArith Bool Lia.
From Verif Require Import Base Float64 IntParse IntParseProofs Numbers NumbersSpec NumbersProofs BytesCodec Values VState LookupKey Collections Child Inputs Scalars Literal Wrappers Union TaggedUnion Tuple ModelFields TypedDict Assign Arguments Classes Interp InterpSpec InterpProofs ConformSpec ConformProofs.
Import ListNotations.
Open Scope nat_scope.

(** ** Lists of distinct keys *)
Lemma FOP_snoc A (R : A -> A -> Prop) l x : ForallOrdPairs R l -> Forall (fun y => R y x) l -> ForallOrdPairs R (l ++ [x]).
Proof.
  induction 1 as [|a l F H IH]; intros K; cbn; [constructor; constructor|]. inversion K; subst. constructor; [|auto].
  apply Forall_app. split; [exact F|]. constructor; [assumption|constructor].
Qed.
Lemma FOP_map A B (f : A -> B) (R : B -> B -> Prop) l : ForallOrdPairs (fun a b => R (f a) (f b)) l <-> ForallOrdPairs R (map f l).
Proof.
  split.
  - induction 1 as [|a l F H IH]; cbn; constructor; [|exact IH]. rewrite Forall_forall in *. intros y Y. apply in_map_iff in Y. destruct Y as (z & <- & Z). exact (F _ Z).
  - induction l as [|a l IH]; cbn; intros H; constructor; inversion H as [|? ? F G]; subst; [|auto]. rewrite Forall_forall in *. intros y Y. apply F, in_map, Y.
Qed.
Lemma distinct_map A (key : A -> pyval) l : distinct key l <-> distinct (fun x => x) (map key l).
Proof. apply (FOP_map _ _ key (fun a b => py_eq a b = false)). Qed.
Lemma dict_set_keys k v d : map fst (dict_set k v d) = map fst d \/ (map fst (dict_set k v d) = map fst d ++ [k] /\ Forall (fun a => py_eq a k = false) (map fst d)).
Proof.
  induction d as [|[a b] d IH]; cbn; [right; auto|]. destruct (py_eq a k) eqn:P; [now left|]. cbn. destruct IH as [->|[-> F]]; [now left|right].
  split; [reflexivity|]. now constructor.
Qed.
Lemma dict_set_distinct k v d : distinct fst d -> distinct fst (dict_set k v d).
Proof.
  rewrite (distinct_map _ fst d), (distinct_map _ fst (dict_set k v d)). destruct (dict_set_keys k v d) as [->|[-> F]]; [easy|]. intros H. apply FOP_snoc; assumption.
Qed.
Lemma dict_set_in a b k v d : In (a, b) (dict_set k v d) -> In (a, b) d \/ (b = v /\ (a = k \/ (py_eq a k = true /\ exists b', In (a, b') d))).
Proof.
  induction d as [|[x y] d IH]; cbn. { intros [[= <- <-]|[]]. auto. }
  destruct (py_eq x k) eqn:P.
  - intros [[= <- <-]|J]; [|auto]. right. split; [reflexivity|]. right. split; [exact P|]. exists y. now left.
  - intros [J|J]; [auto|]. destruct (IH J) as [H|[-> [->|[Q [b' H]]]]]; [auto|auto|]. right. split; [reflexivity|]. right. split; [exact Q|]. exists b'. now right.
Qed.
Lemma dict_set_keeps a k v d : In a (map fst d) -> In a (map fst (dict_set k v d)).
Proof. destruct (dict_set_keys k v d) as [->|[-> _]]; [easy|]. intros H. apply in_or_app. now left. Qed.
Lemma set_add_in x y l : In x (set_add y l) -> x = y \/ In x l.
Proof. unfold set_add. destruct (existsb _ l); [auto|]. intros H. apply in_app_or in H. destruct H as [H|[H|[]]]; auto. Qed.
Lemma set_add_distinct y l : distinct (fun x => x) l -> distinct (fun x => x) (set_add y l).
Proof.
  unfold set_add. destruct (existsb _ l) eqn:X; [easy|]. intros H. apply FOP_snoc; [exact H|]. rewrite Forall_forall. intros z Z.
  destruct (py_eq z y) eqn:P; [|reflexivity]. assert (T : existsb (fun y0 => py_eq y0 y) l = true) by (apply existsb_exists; now exists z). congruence.
Qed.
Lemma enum_forall A (P : A -> Prop) p n l : Forall P l -> Forall (fun t => P (snd t)) (enumerate_from p n l).
Proof. intros H. revert n. induction H; intros n; cbn; constructor; auto. Qed.

Section Loops.
Variable strings : bool.
Notation vok := (vok strings).
Notation allowed := (allowed strings).

(** ** Lists *)
Lemma mc_incr_ok mc mc' u : mc_incr mc = (VOk u, mc') -> mc_max mc' = mc_max mc /\ forall mx, mc_max mc = Some mx -> mc_current mc' = S (mc_current mc) /\ mc_current mc' <= mx.
Proof.
  unfold mc_incr. destruct (mc_max mc) as [m|] eqn:M; [|intros [= _ <-]; split; [exact M|discriminate]].
  destruct (m <? S (mc_current mc)) eqn:L; [discriminate|]. intros [= _ <-]. cbn. split; [reflexivity|]. intros mx [= <-]. apply Nat.ltb_ge in L. auto.
Qed.
Lemma mc_incr_no mc : no (fst (mc_incr mc)).
Proof. unfold mc_incr. destruct (mc_max mc); [|exact I]. destruct (_ <? _); exact I. Qed.
Lemma vec_loop_ok P O child ff p items : vok P O child -> Forall (fun t => item_allowed strings (snd t)) items -> forall mc out errors s,
  Forall P out -> (forall mx, mc_max mc = Some mx -> length out <= mc_current mc <= mx) ->
  vk (fun l => Forall P l /\ forall mx, mc_max mc = Some mx -> length l <= mx) False (fst (vec_loop child ff p mc out errors items s)).
Proof.
  intros V. induction 1 as [|[[ix lp] it] items A F IH]; intros mc out errors s HO HM; cbn [vec_loop].
  - destruct (is_nil errors); [|exact I]. split; [exact HO|]. intros mx M. specialize (HM _ M). lia.
  - cbn in A. destruct it as [i|e]; [|exact I]. cbv beta zeta. set (s0 := set_partial _ s). pose proof (V i s0 A) as R. destruct (child i s0) as [[v|[es|x| | |]] s1]; try exact I.
    + pose proof (mc_incr_no mc) as N. destruct (mc_incr mc) as [[u|e] mc'] eqn:M; [|destruct e; exact N]. destruct (mc_incr_ok _ _ _ M) as [M1 M2].
      rewrite <- M1 in M2 |- *. apply IH; [apply Forall_app; split; [exact HO|constructor; [exact R|constructor]]|].
      intros mx X. destruct (M2 _ X) as [Y Z]. rewrite M1 in X. specialize (HM _ X). rewrite app_length. cbn. lia.
    + pose proof (mc_incr_no mc) as N. destruct (mc_incr mc) as [[u|e] mc'] eqn:M; [|destruct e; exact N]. destruct (mc_incr_ok _ _ _ M) as [M1 M2].
      assert (K : forall er s, vk (fun l => Forall P l /\ forall mx, mc_max mc = Some mx -> length l <= mx) False (fst (vec_loop child ff p mc' out er items s))).
      { intros er s2. rewrite <- M1. apply IH; [exact HO|]. intros mx X. rewrite M1 in X. destruct (M2 _ X). specialize (HM _ X). lia. }
      destruct lp; [apply K|]. destruct ff; [exact I|apply K].
    + apply IH; assumption.
Qed.
Lemma no_validator_ok i items : forall mc ix n, (forall mx, mc_max mc = Some mx -> n <= mc_current mc <= mx) ->
  vk (fun l => forall mx, mc_max mc = Some mx -> n + length l <= mx) False (no_validator_loop mc i ix items).
Proof.
  induction items as [|it items IH]; intros mc ix n HM; cbn [no_validator_loop].
  - intros mx M. specialize (HM _ M). cbn. lia.
  - destruct it as [x|e]; [|exact I]. pose proof (mc_incr_no mc) as N. destruct (mc_incr mc) as [[u|e] mc'] eqn:M; [|destruct e; exact N]. destruct (mc_incr_ok _ _ _ M) as [M1 M2].
    specialize (IH mc' (S ix) (S n)). rewrite M1 in IH. assert (K : forall mx, mc_max mc = Some mx -> S n <= mc_current mc' <= mx).
    { intros mx X. destruct (M2 _ X). specialize (HM _ X). lia. } specialize (IH K).
    destruct (no_validator_loop mc' i (S ix) items) as [vs|e]; [|exact IH]. intros mx X. specialize (IH _ X). cbn. lia.
Qed.
Lemma min_check_ok c i mn n : min_check c i mn n = None -> forall m, mn = Some m -> m <= n.
Proof. unfold min_check. intros H m ->. destruct (n <? m) eqn:L; [discriminate|]. now apply Nat.ltb_ge. Qed.
Lemma min_check_no c i mn n e : min_check c i mn n = Some e -> no (@VErr unit e).
Proof. unfold min_check. destruct mn; [|discriminate]. destruct (_ <? _); [|discriminate]. intros [= <-]. exact I. Qed.
Lemma max_check_ok c i mn n : max_check_err c i mn n = None -> forall m, mn = Some m -> n <= m.
Proof. unfold max_check_err. intros H m ->. destruct (m <? n) eqn:L; [discriminate|]. now apply Nat.ltb_ge. Qed.
Lemma max_check_no c i mn n e : max_check_err c i mn n = Some e -> no (@VErr unit e).
Proof. unfold max_check_err. destruct mn; [|discriminate]. destruct (_ <? _); [|discriminate]. intros [= <-]. exact I. Qed.

Lemma list_ok c child vl P O : (forall v, child = Some v -> vok P O v) -> (forall b i sq, vl b i = VOk sq -> seq_allowed strings sq) -> (forall b i, no (vl b i)) ->
  vok (fun v => exists l, v = PList l /\ within (co_min c) (co_max c) (length l) /\ (child <> None -> Forall P l)) False (list_validate c child vl).
Proof.
  intros V HA HN i s A. unfold list_validate. specialize (HN (strict_or s (co_strict c)) i). destruct (vl _ i) as [sq|e] eqn:L; [|destruct e; exact HN]. specialize (HA _ _ _ L).
  cbv zeta. set (s0 := floor_exactness _ s). set (mc := {| mc_current := 0 |}).
  assert (H0 : forall mx, mc_max mc = Some mx -> 0 <= mc_current mc <= mx) by (cbn; intros; lia).
  destruct child as [v|].
  - unfold validate_iter_to_vec. pose proof (vec_loop_ok P O v (co_fail_fast c) (st_partial s0) _ (V _ eq_refl) (enum_forall _ _ (is_active (st_partial s0)) 0 _ HA) mc [] [] s0 (Forall_nil _) H0) as R.
    unfold enumerate_last_partial. destruct (vec_loop _ _ _ _ _ _ _ _) as [[out|e] s1]; [|destruct e; exact R]. destruct R as [R1 R2].
    destruct (min_check _ _ _ _) eqn:MN. { pose proof (min_check_no _ _ _ _ _ MN) as N. destruct v0; exact N. }
    exists out. split; [reflexivity|]. split; [|auto]. split; [exact (min_check_ok _ _ _ _ MN)|exact R2].
  - destruct (sq_py_list sq).
    + destruct (min_check _ _ _ _) eqn:MN. { pose proof (min_check_no _ _ _ _ _ MN) as N. destruct v; exact N. }
      destruct (max_check_err _ _ _ _) eqn:MX. { pose proof (max_check_no _ _ _ _ _ MX) as N. destruct v; exact N. }
      eexists. split; [reflexivity|]. split; [|easy]. split; [exact (min_check_ok _ _ _ _ MN)|exact (max_check_ok _ _ _ _ MX)].
    + pose proof (no_validator_ok i (sq_items sq) mc 0 0 H0) as R. destruct (no_validator_loop mc i 0 (sq_items sq)) as [out|e]; [|destruct e; exact R].
      destruct (min_check _ _ _ _) eqn:MN. { pose proof (min_check_no _ _ _ _ _ MN) as N. destruct v; exact N. }
      eexists. split; [reflexivity|]. split; [|easy]. split; [exact (min_check_ok _ _ _ _ MN)|exact R].
Qed.

(** ** Sets *)
Definition set_inv (P : pyval -> Prop) (mx : option nat) (l : list pyval) : Prop :=
  (forall x, In x l -> hashable x = true /\ P x) /\ distinct (fun x => x) l /\ (forall m, mx = Some m -> length l <= m).
Lemma set_loop_ok P O child ff c i0 mx p items : vok P O child -> Forall (fun t => item_allowed strings (snd t)) items -> forall st0 errors s, set_inv P mx st0 ->
  vk (set_inv P mx) False (fst (set_loop child ff c i0 mx p st0 errors items s)).
Proof.
  intros V. induction 1 as [|[[ix lp] it] items A F IH]; intros st0 errors s HI; cbn [set_loop].
  - destruct (is_nil errors); [exact HI|exact I].
  - cbn in A. destruct it as [i|e]; [|exact I].
    assert (K : forall st er (s : state), set_inv P mx st -> vk (set_inv P mx) False (fst (if ff && negb (is_nil er) then (VErr (LineErrors er), s) else set_loop child ff c i0 mx p st er items s))).
    { intros st er s0 H. destruct (ff && _); [exact I|]. apply IH, H. }
    cbv zeta. set (s0 := set_partial _ s). unfold validate_add. pose proof (V i s0 A) as R. destruct (child i s0) as [[v|[es|x| | |]] s1]; try exact I; try (apply K; exact HI).
    destruct (hashable v) eqn:HV; [|apply K; exact HI].
    assert (B : (forall x, In x (set_add v st0) -> hashable x = true /\ P x) /\ distinct (fun x => x) (set_add v st0)).
    { destruct HI as (H1 & H2 & _). split; [|apply set_add_distinct, H2]. intros x X. apply set_add_in in X. destruct X as [->|X]; [auto|apply H1, X]. }
    destruct mx as [m|].
    + destruct (m <? _) eqn:L; [exact I|]. apply K. split; [apply B|]. split; [apply B|]. intros m' [= <-]. now apply Nat.ltb_ge.
    + apply K. split; [apply B|]. split; [apply B|]. discriminate.
Qed.
Lemma set_ok (frozen : bool) c child vl P O : vok P O child -> (forall b i sq, vl b i = VOk sq -> seq_allowed strings sq) -> (forall b i, no (vl b i)) ->
  vok (fun v => exists l, v = (if frozen then PFrozenSet l else PSet l) /\ within (co_min c) (co_max c) (length l) /\ (forall x, In x l -> hashable x = true /\ P x) /\ distinct (fun x => x) l)
    False (set_validate frozen c child vl).
Proof.
  intros V HA HN i s A. unfold set_validate. specialize (HN (strict_or s (co_strict c)) i). destruct (vl _ i) as [sq|e] eqn:L; [|destruct e; exact HN]. specialize (HA _ _ _ L).
  cbv zeta. set (s0 := floor_exactness _ s). set (k := if frozen then CFrozenset else CSet). unfold validate_iter_to_set.
  assert (H0 : set_inv P (co_max c) []). { split; [easy|]. split; [constructor|]. cbn. intros; lia. }
  pose proof (set_loop_ok P O child (co_fail_fast c) k i (co_max c) (st_partial s0) _ V (enum_forall _ _ (is_active (st_partial s0)) 0 _ HA) [] [] s0 H0) as R.
  unfold enumerate_last_partial. destruct (set_loop _ _ _ _ _ _ _ _ _ _) as [[out|e] s1]; [|destruct e; exact R]. destruct R as (R1 & R2 & R3).
  destruct (min_check _ _ _ _) eqn:MN. { pose proof (min_check_no _ _ _ _ _ MN) as N. destruct v; exact N. }
  exists out. split; [reflexivity|]. split; [|auto]. split; [exact (min_check_ok _ _ _ _ MN)|exact R3].
Qed.

(** ** Dicts *)
Definition dict_inv (K V : pyval -> Prop) (d : list (pyval * pyval)) : Prop :=
  (forall a b, In (a, b) d -> hashable a = true /\ K a /\ V b) /\ distinct fst d.
Lemma dict_loop_ok K V O1 O2 kv vv p items : vok K O1 kv -> vok V O2 vv -> Forall (fun t => entry_ok strings (snd t)) items -> forall out errors s, dict_inv K V out ->
  vk (dict_inv K V) False (fst (fst (dict_loop kv vv p out errors items s))).
Proof.
  intros HK HV. induction 1 as [|[[ix lp] en] items A F IH]; intros out errors s HI; cbn [dict_loop]; [exact HI|].
  cbn in A. destruct en as [key kl value|e]; [|destruct e; exact A]. destruct A as [A1 A2]. cbv zeta.
  set (s0 := set_partial _ s). pose proof (HK key s0 A1) as R. destruct (kv key s0) as [[k|[es|x| | |]] s1]; try exact I; try (apply IH; exact HI).
  - set (s2 := set_partial _ s1). pose proof (HV value s2 A2) as R2. destruct (vv value s2) as [[v|[es|x| | |]] s3]; try exact I; try (apply IH; exact HI).
    unfold set_item. destruct (hashable k) eqn:HH; [|exact I]. apply IH. destruct HI as [H1 H2]. split; [|apply dict_set_distinct, H2].
    intros a b J. apply dict_set_in in J. destruct J as [J|[-> [->|[_ [b' J]]]]]; [auto|auto|]. destruct (H1 _ _ J) as (X & Y & _). auto.
  - set (s2 := set_partial _ s1). destruct (vv value s2) as [[v|[ess|x| | |]] s3]; try exact I; apply IH; exact HI.
Qed.
Lemma dict_ok c kv vv vd K V O1 O2 : vok K O1 kv -> vok V O2 vv -> (forall b i, allowed i -> vk (Forall (entry_ok strings)) False (vd b i)) ->
  vok (fun v => exists d, v = PDict d /\ within (co_min c) (co_max c) (length d) /\ (forall a b, In (a, b) d -> hashable a = true /\ K a /\ V b) /\ distinct fst d) False (dict_validate c kv vv vd).
Proof.
  intros HK HV HD i s A. unfold dict_validate. specialize (HD (strict_or s (co_strict c)) i A). destruct (vd _ i) as [es|e]; [|destruct e; exact HD]. cbn in HD.
  assert (H0 : dict_inv K V []) by (split; [easy|constructor]).
  pose proof (dict_loop_ok K V O1 O2 kv vv (st_partial s) _ HK HV (enum_forall _ _ (is_active (st_partial s)) 0 _ HD) [] [] s H0) as R.
  unfold enumerate_last_partial. destruct (dict_loop _ _ _ _ _ _ _) as [[[out|e] errs] s1]; [|destruct e; exact R]. destruct R as [R1 R2].
  destruct (is_nil errs); [|exact I].
  destruct (min_check _ _ _ _) eqn:MN. { pose proof (min_check_no _ _ _ _ _ MN) as N. destruct v; exact N. }
  destruct (max_check_err _ _ _ _) eqn:MX. { pose proof (max_check_no _ _ _ _ _ MX) as N. destruct v; exact N. }
  exists out. split; [reflexivity|]. split; [|auto]. split; [exact (min_check_ok _ _ _ _ MN)|exact (max_check_ok _ _ _ _ MX)].
Qed.
End Loops.

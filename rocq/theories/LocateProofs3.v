From Coq Require Import List NArith ZArith Bool Lia.
From Verif Require Import Base Float64 IntParse Numbers BytesCodec Values VState LookupKey Collections Child Inputs Scalars Literal Wrappers Union TaggedUnion Tuple ModelFields TypedDict Assign Arguments Classes Interp InterpSpec CollectionsProofs LookupKeyProofs ArgumentsProofs InterpProofs StableSpec LocateSpec LocateProofs LocateProofs2.
Import ListNotations.
Open Scope nat_scope.

Section Locate.
Variable E : env.
Variable label : loc_item -> Prop.
Notation step := (step E).
Notation located := (located E label).
Notation errs := (errs E label).
Notation tracks := (tracks E label).
Notation ctracks := (ctracks E label).
Notation seq_reads := (seq_reads E label).
Notation seq_at := (seq_at E).

Lemma forall_snoc {A} (P : A -> Prop) l x : Forall P l -> P x -> Forall P (l ++ [x]).
Proof. intros. apply Forall_app. auto. Qed.
Lemma forall_add {A} (P : A -> Prop) l l' : Forall P l -> Forall P l' -> Forall P (l ++ l').
Proof. intros. apply Forall_app. auto. Qed.
Lemma outer_all i l j es : step i l j -> Forall (located j) es -> Forall (located i) (map (with_outer l) es).
Proof. intros S. apply located_map. intros e. exact (located_outer E label i l j e S). Qed.

Definition indexed (i : input) (items : list (nat * bool * item input)) : Prop := Forall (fun x => item_at E i (fst (fst x)) (snd x)) items.
Lemma enumerate_at i p l : forall n, (forall m it, nth_error l m = Some it -> item_at E i (n + m) it) -> indexed i (enumerate_from p n l).
Proof.
  induction l as [|x l IH]; intros n H; cbn [enumerate_from]; constructor.
  - cbn. specialize (H 0 x eq_refl). now rewrite Nat.add_0_r in H.
  - apply IH. intros m it N. specialize (H (S m) it N). now rewrite Nat.add_succ_r in H.
Qed.
Lemma seq_indexed i l s : seq_at i l -> indexed i (enumerate_last_partial s l).
Proof. intros S. apply enumerate_at. intros m it. apply (sa_items _ _ _ S). Qed.

Lemma min_errs {A} c i mn n : forall e, min_check c i mn n = Some e -> errs i (@VErr A e).
Proof. unfold min_check. destruct mn as [k|]; [|discriminate]. destruct (n <? k); [|discriminate]. intros e [= <-]. now apply (errs_val E label (A := A)). Qed.
Lemma max_errs {A} c i mn n : forall e, max_check_err c i mn n = Some e -> errs i (@VErr A e).
Proof. unfold max_check_err. destruct mn as [k|]; [|discriminate]. destruct (k <? n); [|discriminate]. intros e [= <-]. now apply (errs_val E label (A := A)). Qed.
Lemma incr_at m i : mc_input m = i -> mc_input (snd (mc_incr m)) = i /\ errs i (fst (mc_incr m)).
Proof. intros <-. unfold mc_incr. destruct (mc_max m); [|split; [reflexivity|exact I]]. destruct (_ <? _); (split; [reflexivity|]); [now apply errs_val|exact I]. Qed.

Section Loops.
Variable i : input.

Lemma vec_at child ff p items : tracks child -> indexed i items -> forall mc out es s, mc_input mc = i -> Forall (located i) es ->
  errs i (fst (vec_loop child ff p mc out es items s)).
Proof.
  intros T. induction items as [|[[n lp] it] items IH]; intros X mc out es s M F; cbn [vec_loop].
  - destruct (is_nil es); [exact I|exact F].
  - inversion X as [|? ? X1 X2]; subst. cbn in X1. specialize (IH X2). destruct it as [x|ex]; [|destruct X1]. destruct X1 as [P S].
    pose proof (T x (set_partial (if lp then p else PartialOff) s) P) as C. destruct (child x _) as [[v|e] s1]; cbn in C.
    + pose proof (incr_at mc _ eq_refl) as N. destruct (mc_incr mc) as [[u|e] mc']; cbn in N; [apply IH; [apply N|exact F]|exact (proj2 N)].
    + destruct e as [l| | | |]; cbn [fst]; try exact I.
      * pose proof (incr_at mc _ eq_refl) as N. destruct (mc_incr mc) as [[u|e] mc']; cbn in N; [|exact (proj2 N)].
        destruct lp; [apply IH; [apply N|exact F]|]. pose proof (outer_all _ _ _ _ S C) as Q. destruct ff; [|apply IH; [apply N|]]; now apply forall_add.
      * apply IH; [reflexivity|exact F].
Qed.
Lemma no_validator_at items : (forall n it, nth_error items n = Some it -> exists m, item_at E i m it) -> forall mc n, mc_input mc = i -> errs i (no_validator_loop mc i n items).
Proof.
  induction items as [|it items IH]; intros X mc n M; cbn [no_validator_loop]; [exact I|].
  destruct (X 0 it eq_refl) as [m Y]. destruct it as [x|]; [|destruct Y]. pose proof (incr_at mc _ M) as N. destruct (mc_incr mc) as [[u|e] mc']; cbn in N; [|exact (proj2 N)].
  assert (R : errs i (no_validator_loop mc' i (S n) items)) by (apply IH; [intros k it K; exact (X (S k) it K)|apply N]). destruct (no_validator_loop mc' i (S n) items); [exact I|exact R].
Qed.

Lemma add_at child set x s : tracks child -> python_or_json x -> errs x (fst (validate_add child set x s)).
Proof.
  intros T P. unfold validate_add. specialize (T x s P). destruct (child x s) as [[v|e] s']; [|exact T]. destruct (hashable v); [exact I|now apply errs_val].
Qed.
Lemma set_at child ff c mx p items : tracks child -> indexed i items -> forall set es s, Forall (located i) es ->
  errs i (fst (set_loop child ff c i mx p set es items s)).
Proof.
  intros T. induction items as [|[[n lp] it] items IH]; intros X set es s F; cbn [set_loop].
  - destruct (is_nil es); [exact I|exact F].
  - inversion X as [|? ? X1 X2]; subst. cbn in X1. specialize (IH X2). destruct it as [x|ex]; [|destruct X1]. destruct X1 as [P S]. cbv zeta.
    assert (K : forall set' es' s', Forall (located i) es' -> errs i (fst (if ff && negb (is_nil es') then (VErr (LineErrors es'), s') else set_loop child ff c i mx p set' es' items s'))).
    { intros set' es' s' F'. destruct (ff && negb (is_nil es')); [exact F'|now apply IH]. }
    pose proof (add_at child set x (set_partial (if lp then p else PartialOff) s) T P) as C. destruct (validate_add child set x _) as [[set'|e] s1]; cbn in C.
    + destruct mx as [m|]; [destruct (_ <? _); [now apply errs_val|]|]; now apply K.
    + destruct e as [l| | | |]; cbn [fst]; try exact I; apply K; [|exact F]. destruct lp; [exact F|]. apply forall_add; [exact F|]. exact (outer_all _ _ _ _ S C).
Qed.

Definition entry_at (en : entry) : Prop := match en with Entry k kl v => python_or_json k /\ python_or_json v /\ key_of E i kl k /\ step i kl v | BadEntry _ => False end.
Lemma dict_at_loop kv vv p (items : list (nat * bool * entry)) : tracks kv -> tracks vv -> Forall (fun x => entry_at (snd x)) items -> forall out es s, Forall (located i) es ->
  let '(r, es', s') := dict_loop kv vv p out es items s in errs i r /\ (forall d, r = VOk d -> Forall (located i) es').
Proof.
  intros TK TV. induction items as [|[[n lp] en] items IH]; intros X out es s F; cbn [dict_loop].
  - split; [exact I|auto].
  - inversion X as [|? ? X1 X2]; subst. cbn in X1. specialize (IH X2). destruct en as [k kl v|]; [|destruct X1]. destruct X1 as (PK & PV & KO & ST). cbv zeta.
    assert (W : forall ok es1 s1, Forall (located i) es1 ->
      let '(r, es', s') :=
        match vv v (set_partial (if lp then p else PartialOff) s1) with
        | (VOk v0, s') => match ok with Some k0 => match set_item k0 v0 out with VOk output' => dict_loop kv vv p output' es1 items s' | VErr e => (VErr e, es1, s') end | None => dict_loop kv vv p out es1 items s' end
        | (VErr (LineErrors l), s') => dict_loop kv vv p out (if lp then es1 else es1 ++ map (with_outer kl) l) items s'
        | (VErr Omit, s') => dict_loop kv vv p out es1 items s'
        | (VErr e, s') => (VErr e, es1, s')
        end in errs i r /\ (forall d, r = VOk d -> Forall (located i) es')).
    { intros ok es1 s1 F1. pose proof (TV v (set_partial (if lp then p else PartialOff) s1) PV) as C. destruct (vv v _) as [[w|e] s2]; cbn in C.
      - destruct ok as [k0|]; [|now apply IH]. unfold set_item. destruct (hashable k0); [now apply IH|]. split; [exact I|discriminate].
      - destruct e as [l| | | |]; try (split; [exact I|discriminate]); apply IH; [|exact F1]. destruct lp; [exact F1|]. apply forall_add; [exact F1|]. exact (outer_all _ _ _ _ ST C). }
    pose proof (TK k (set_partial PartialOff s) PK) as C. destruct (kv k _) as [[w|e] s2]; cbn in C.
    + apply (W (Some w)). exact F.
    + destruct e as [l| | | |]; try (split; [exact I|discriminate]).
      * apply (W None). apply forall_add; [exact F|]. eapply located_map; [|exact C]. intros e H. eapply located_key; eauto.
      * apply IH, F.
Qed.

(** ** Tuples *)
Section Tuple.
Variable c : tuple_cfg.
Variable actual : option nat.
Variable items : list (item input).
Hypothesis SA : seq_at i items.

Definition acc_at (a : tacc) : Prop := Forall (located i) (ta_errs a) /\ ti_rest (ta_iter a) = skipn (ta_count a) items /\ ti_err (ta_iter a) = None.
Definition tres_at (r : tres) : Prop := match r with TDone a => acc_at a | TFail e _ => errs i (@VErr unit e) end.
(** The errors alone. *)
Definition acc_errs (a : tacc) : Prop := Forall (located i) (ta_errs a) /\ ti_err (ta_iter a) = None.
Definition tres_errs (r : tres) : Prop := match r with TDone a => acc_errs a | TFail e _ => errs i (@VErr unit e) end.
Lemma skip_next : forall n, match skipn n items with [] => length items <= n | x :: r => item_at E i n x /\ skipn (S n) items = r end.
Proof.
  intros n. assert (K : forall (l : list (item input)) n, match skipn n l with [] => length l <= n | x :: r => nth_error l n = Some x /\ skipn (S n) l = r end).
  { clear. induction l as [|x l IH]; intros [|n]; cbn; auto; try lia. specialize (IH n). destruct (skipn n l); [lia|]. split; [apply IH|]. destruct IH as [_ <-]. destruct l; [now destruct n|reflexivity]. }
  specialize (K items n). destruct (skipn n items); [exact K|]. split; [apply (sa_items _ _ _ SA); apply K|apply K].
Qed.
Lemma next_at a x it : acc_at a -> ti_next (ta_iter a) = (x, it) ->
  match x with
  | Some y => python_or_json y /\ step i (index_loc (ta_count a)) y
  | None => ~ in_data i [index_loc (ta_count a)]
  end /\ acc_at (ta_move it a).
Proof.
  intros (F & R & N) H. unfold ti_next in H. rewrite R in H. pose proof (skip_next (ta_count a)) as K. destruct (skipn (ta_count a) items) as [|[y|ex] r] eqn:SK; injection H as <- <-.
  - split; [now apply (sa_end _ _ _ SA)|]. unfold acc_at, ta_move; cbn [ta_errs ta_iter ti_rest ta_count ti_err]. split; [exact F|]. split; [|exact N]. rewrite skipn_all2 by (apply le_S; exact K). reflexivity.
  - destruct K as [[P S] K]. split; [auto|]. unfold acc_at, ta_move; cbn [ta_errs ta_iter ti_rest ta_count ti_err]. split; [exact F|]. split; [now rewrite K|exact N].
  - destruct K as [[] _].
Qed.
Lemma push_at v s a : acc_at a -> tres_at (push_output_item c i actual v s a).
Proof.
  intros H. unfold push_output_item. destruct (tu_max c); [destruct (_ <? _)|]; try exact H. now apply (errs_val E label (A := unit)).
Qed.
Lemma use_at n x r a : step i (index_loc n) x -> errs x (fst r) -> acc_at a -> tres_at (use_item c i actual n r a).
Proof.
  intros S R H. destruct r as [[v|e] s]; cbn [use_item]; [now apply push_at|]. cbn in R. destruct e as [l| | | |]; cbn; auto.
  destruct H as (F & H). split; [|exact H]. apply forall_add; [exact F|]. exact (outer_all _ _ _ _ S R).
Qed.
Lemma tuple_items_at vs : Forall ctracks vs -> forall a, acc_at a -> tres_at (tuple_items c i actual vs a).
Proof.
  induction vs as [|v vs IH]; intros X a H; cbn [tuple_items]; [exact H|]. inversion X as [|? ? X1 X2]; subst. specialize (IH X2). cbv zeta.
  match goal with |- tres_at (match ?q with _ => _ end) => assert (Q : tres_at q) end.
  { destruct (ti_next (ta_iter a)) as [[x|] it] eqn:N; destruct (next_at _ _ _ H N) as [Y HM].
    - eapply use_at; [apply Y|apply X1, Y|exact HM].
    - replace (ta_count (ta_move it a) - 1) with (ta_count a) by (cbn; lia). pose proof (proj2 X1 (Some (index_loc (ta_count a))) (ta_state a)) as D. destruct (cv_default v _ _) as [[[w|]|e] s].
      + exact HM.
      + destruct HM as (F & HM). split; [|exact HM]. cbn. apply forall_snoc; [exact F|].
        eapply loc_missing with (p := []); [reflexivity|reflexivity|constructor|reflexivity|]. apply absent_data; [apply (sa_data _ _ _ SA)|exact Y].
      + apply (errs_plain E label (A := unit)). exact (D _ eq_refl). }
  match type of Q with tres_at ?q => destruct q as [a'|e s]; [|exact Q] end. destruct (stop_now c a'); [exact Q|]. now apply IH.
Qed.
Lemma tuple_rest_at v : ctracks v -> forall rest a, rest = ti_rest (ta_iter a) -> acc_at a -> tres_at (tuple_rest c i actual v rest a).
Proof.
  intros X. induction rest as [|it rest IH]; intros a R H.
  - cbn [tuple_rest]. destruct (ti_next (ta_iter a)) as [x it'] eqn:N. exact (proj2 (next_at _ _ _ H N)).
  - cbn [tuple_rest]. destruct (ti_next (ta_iter a)) as [x it'] eqn:N. destruct (next_at _ _ _ H N) as [Y HM]. unfold ti_next in N. rewrite <- R in N. destruct it as [y|ex].
    + injection N as <- <-. cbn [snd].
      pose proof (use_at (ta_count a) y (cv_validate v y (ta_state a)) _ (proj2 Y) (proj1 X _ _ (proj1 Y)) HM) as U.
      match goal with |- tres_at (match ?q with _ => _ end) => destruct q as [a'|] eqn:Q; [|exact U] end. destruct (stop_now c a'); [exact U|]. apply IH; [|exact U].
      revert Q. unfold use_item. destruct (cv_validate v y (ta_state a)) as [[w|e] s'].
      * unfold push_output_item. destruct (tu_max c); [destruct (_ <? _); [discriminate|]|]; intros [= <-]; reflexivity.
      * destruct e; try discriminate; intros [= <-]; reflexivity.
    + exact HM.
Qed.
Lemma tuple_variable_at : Forall ctracks (tu_validators c) -> (forall k, tu_variadic c = Some k -> length (tu_validators c) <= S k) ->
  forall a, acc_at a -> tres_at (tuple_variable c i actual a).
Proof.
  intros X V a H. unfold tuple_variable. destruct (tu_variadic c) as [k|].
  - specialize (V _ eq_refl). assert (Z : match skipn k (tu_validators c) with [] => True | v :: tail => ctracks v /\ tail = [] end).
    { clear - X V. revert k V. induction X as [|v l HV HL IH]; intros [|k] V; cbn in *; auto. - split; [exact HV|]. destruct l; [reflexivity|cbn in V; lia]. - apply IH. lia. }
    destruct (skipn k (tu_validators c)) as [|v tail]; [exact I|]. destruct Z as [HV ->].
    assert (F : Forall ctracks (firstn k (tu_validators c))). { clear - X. revert k. induction X; intros [|k]; cbn; constructor; auto. }
    pose proof (tuple_items_at _ F a H) as Q. destruct (tuple_items _ _ _ _ a) as [a1|e s]; [|exact Q]. destruct (stop_now c a1); [exact Q|]. now apply tuple_rest_at.
  - pose proof (tuple_items_at _ X a H) as Q. destruct (tuple_items _ _ _ _ a) as [a1|e s]; [|exact Q]. destruct (stop_now c a1); [exact Q|].
    destruct (ti_next (ta_iter a1)) as [[x|] it] eqn:N; [now apply (errs_val E label (A := unit))|]. exact (proj2 (next_at _ _ _ Q N)).
Qed.
End Tuple.
End Loops.

Lemma list_tracks c child f : (forall v, child = Some v -> tracks v) -> seq_reads f -> tracks (list_validate c child f).
Proof.
  intros T R i s P. unfold list_validate. destruct (R (strict_or s (co_strict c)) i P) as [R1 R2]. destruct (f _ i) as [sq|e]; [|exact R1]. specialize (R2 _ eq_refl).
  set (mc := {| mc_current := 0; mc_max := co_max c; mc_field := CList; mc_input := i; mc_actual := sq_len sq |}). cbv zeta.
  assert (FI : forall r : vres (list pyval) * state, errs i (fst r) -> errs i (fst (let '(r, s') := r in match r with VErr e => (VErr e, s') | VOk out => match min_check CList i (co_min c) (length out) with Some e => (VErr e, s') | None => (VOk (PList out), s') end end))).
  { intros [[out|e] s'] H; [|exact H]. destruct (min_check _ _ _ _) eqn:M; [exact (min_errs (A := pyval) _ _ _ _ _ M)|exact I]. }
  destruct child as [v|].
  - specialize (T _ eq_refl). set (r := validate_iter_to_vec _ _ _ _ _). specialize (FI r). destruct r as [[out|e] s'] eqn:RR; apply FI; change (errs i (fst (VErr e, s'))) || idtac;
      rewrite <- RR; unfold r, validate_iter_to_vec; (apply vec_at; [exact T|now apply seq_indexed|reflexivity|constructor]).
  - destruct (sq_py_list sq).
    + destruct (min_check _ _ _ _) eqn:M; [exact (min_errs (A := pyval) _ _ _ _ _ M)|]. destruct (max_check_err _ _ _ _) eqn:X; [exact (max_errs (A := pyval) _ _ _ _ _ X)|exact I].
    + specialize (FI (no_validator_loop mc i 0 (sq_items sq), floor_exactness (sq_exactness sq) s)). cbn [fst] in FI.
      assert (N : errs i (no_validator_loop mc i 0 (sq_items sq))). { apply no_validator_at; [|reflexivity]. intros n it H. exists n. exact (sa_items _ _ _ R2 _ _ H). }
      specialize (FI N). destruct (no_validator_loop mc i 0 (sq_items sq)); exact FI.
Qed.
Lemma set_tracks fr c child f : tracks child -> seq_reads f -> tracks (set_validate fr c child f).
Proof.
  intros T R i s P. unfold set_validate. destruct (R (strict_or s (co_strict c)) i P) as [R1 R2]. destruct (f _ i) as [sq|e]; [|exact R1]. specialize (R2 _ eq_refl).
  cbv zeta. match goal with |- context [validate_iter_to_set ?a ?b ?k ?d ?e ?f ?g] => assert (Q : errs i (fst (validate_iter_to_set a b k d e f g))); [|destruct (validate_iter_to_set a b k d e f g) as [[out|x] s']] end.
  { apply set_at; [exact T|now apply seq_indexed|constructor]. }
  - destruct (min_check _ _ _ _) eqn:M; [exact (min_errs (A := pyval) _ _ _ _ _ M)|exact I].
  - exact Q.
Qed.
Lemma dict_tracks c kv vv f : tracks kv -> tracks vv -> (forall b i, python_or_json i -> errs i (f b i) /\ forall es, f b i = VOk es -> Forall (entry_at i) es) ->
  tracks (dict_validate c kv vv f).
Proof.
  intros TK TV R i s P. unfold dict_validate. destruct (R (strict_or s (co_strict c)) i P) as [R1 R2]. destruct (f _ i) as [es|e]; [|exact R1]. specialize (R2 _ eq_refl).
  assert (X : forall p n, Forall (fun x => entry_at i (snd x)) (enumerate_from p n es)). { intros p. induction R2; intros n; cbn; constructor; auto. }
  pose proof (dict_at_loop i kv vv (st_partial s) (enumerate_last_partial s es) TK TV (X _ _) [] [] s (Forall_nil _)) as Q. destruct (dict_loop _ _ _ _ _ _ _) as [[[out|e] errors] s']; [|exact (proj1 Q)].
  destruct (is_nil errors); [|exact (proj2 Q _ eq_refl)]. destruct (min_check _ _ _ _) eqn:M; [exact (min_errs (A := pyval) _ _ _ _ _ M)|]. destruct (max_check_err _ _ _ _) eqn:Y; [exact (max_errs (A := pyval) _ _ _ _ _ Y)|exact I].
Qed.
Lemma tuple_tracks c f : Forall ctracks (tu_validators c) -> (forall k, tu_variadic c = Some k -> length (tu_validators c) <= S k) -> seq_reads f -> tracks (tuple_validate c f).
Proof.
  intros X V R i s P. unfold tuple_validate. cbv zeta. destruct (R (strict_or (set_partial PartialOff s) (tu_strict c)) i P) as [R1 R2]. destruct (f _ i) as [sq|e]; [|exact R1]. specialize (R2 _ eq_refl).
  match goal with |- context [tuple_variable c i ?n ?a] => pose proof (tuple_variable_at i c n (sq_items sq) R2 X V a) as Q; destruct (tuple_variable c i n a) as [a'|e s'] end.
  - destruct Q as (F & _ & N); [repeat split; constructor|]. rewrite N. cbv zeta.
    assert (G : Forall (located i) (ta_errs a' ++ match tu_min c with Some mn => if length (ta_out a') <? mn then [new_error (ETooShort CTuple mn (length (ta_out a'))) i] else [] | None => [] end)).
    { apply forall_add; [exact F|]. destruct (tu_min c); [|constructor]. destruct (_ <? _); constructor; [now apply located_new|constructor]. }
    destruct (is_nil _); [exact I|exact G].
  - apply Q. repeat split; constructor.
Qed.
End Locate.

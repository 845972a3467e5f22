From Coq Require Import List NArith ZArith Bool Lia.
From Verif Require Import Base Float64 IntParse Numbers BytesCodec Values VState LookupKey Collections Child Inputs Scalars Literal Wrappers Union TaggedUnion Tuple ModelFields TypedDict Assign Arguments Classes Interp InterpSpec InterpProofs StrictSpec StrictProofs StrictProofs3 StrictProofs5 LooseSpec LooseQuiet LooseOff LooseProofs.
Import ListNotations.
Open Scope nat_scope.

(** ** Tuples *)
Section Tup.
Variables c c' : tuple_cfg.
Variable i : input. Variable actual : option nat.
Hypothesis MX : upper le (tu_max c) (tu_max c').
Lemma push_errs v s a a' : push_output_item c i actual v s a = TDone a' -> ta_errs a' = ta_errs a.
Proof. unfold push_output_item. cbv zeta. destruct (tu_max c); [destruct (_ <? _); [discriminate|]|]; now intros [= <-]. Qed.
Lemma use_mono ix r a a' : use_item c i actual ix r a = TDone a' -> ta_errs a' = [] -> ta_errs a = [].
Proof.
  unfold use_item. destruct r as [[w|[es| | | |]] s]; try discriminate; [intros H; now rewrite (push_errs _ _ _ _ H)| |]; intros [= <-]; cbn; [|easy]. intros H. now apply app_eq_nil in H.
Qed.
Lemma push_ease v s a a' : push_output_item c i actual v s a = TDone a' -> push_output_item c' i actual v s a = TDone a'.
Proof.
  unfold push_output_item. cbv zeta. destruct (tu_max c') as [m'|].
  - destruct MX as (m & -> & LE). destruct (Nat.ltb_spec m (length (ta_out a ++ [v]))); [discriminate|]. destruct (Nat.ltb_spec m' (length (ta_out a ++ [v]))); [lia|easy].
  - destruct (tu_max c); [destruct (_ <? _); [discriminate|]|]; easy.
Qed.
Lemma use_ease ix r r' a a' : ne (fst r) -> (forall v s, r = (VOk v, s) -> r' = (VOk v, s)) -> use_item c i actual ix r a = TDone a' -> ta_errs a' = [] -> use_item c' i actual ix r' a = TDone a'.
Proof.
  intros N E. unfold use_item. destruct r as [[w|[es| | | |]] s]; try discriminate; [|intros [= <-]; cbn; intros H|contradiction N].
  - rewrite (E _ _ eq_refl). intros H _. now apply push_ease.
  - apply map_app_nil in H. subst es. now destruct N.
Qed.
Lemma no_stop x a : ta_errs a = [] -> stop_now x a = false. Proof. intros H. unfold stop_now. rewrite H. apply andb_false_r. Qed.

Lemma items_mono vs : forall a a', tuple_items c i actual vs a = TDone a' -> ta_errs a' = [] -> ta_errs a = [].
Proof.
  induction vs as [|v vs IH]; intros a a'; cbn [tuple_items]; [now intros [= <-]|].
  match goal with |- match ?st with TDone _ => _ | TFail _ _ => _ end = _ -> _ => assert (S : forall b, st = TDone b -> ta_errs b = [] -> ta_errs a = []); [|destruct st as [b|] eqn:ST; [|discriminate]] end.
  { intros b. destruct (ti_next _) as [[x|] it']; [intros H Z; exact (use_mono _ _ _ _ H Z)|]. cbv zeta. destruct (cv_default v _ _) as [[[w|]|e] s']; try discriminate; intros [= <-]; cbn; [easy|]. intros H. now apply app_eq_nil in H. }
  destruct (stop_now c b); [intros [= <-] Z; exact (S _ eq_refl Z)|]. intros H Z. exact (S _ eq_refl (IH _ _ H Z)).
Qed.
Lemma items_ease vs vs' : Forall2 (ckid true) vs vs' -> forall a a', off (ta_state a) -> tuple_items c i actual vs a = TDone a' -> ta_errs a' = [] -> tuple_items c' i actual vs' a = TDone a'.
Proof.
  induction 1 as [|v v' vs vs' [K DN DO DE] F IH]; intros a a' O; cbn [tuple_items]; [easy|].
  match goal with |- match ?st with TDone _ => _ | TFail _ _ => _ end = _ -> _ -> match ?st' with TDone _ => _ | TFail _ _ => _ end = _ => assert (S : forall b, st = TDone b -> ta_errs b = [] -> st' = TDone b); [|assert (OB : toff st); [|destruct st as [b|] eqn:ST; [|discriminate]]] end.
  - intros b. destruct (ti_next _) as [[x|] it'].
    + apply use_ease; [apply (k_ne _ _ K)|]. intros w s E. exact (k_ease _ _ K _ _ _ _ O E).
    + cbv zeta. set (l := Some _). destruct (cv_default v l (ta_state a)) as [[[w|]|e] s'] eqn:E; try discriminate; intros [= <-]; cbn; intros Z.
      * destruct (DE _ _ _ _ O E) as [[_ X]|X]; [discriminate X|]. now rewrite X.
      * now apply app_eq_nil in Z.
  - destruct (ti_next _) as [[x|] it']; [apply use_off, (k_off _ _ K), O|]. cbv zeta. specialize (DO (Some (index_loc (ta_count (ta_move it' a) - 1))) _ O). destruct (cv_default v _ _) as [[[w|]|e] s']; exact DO.
  - destruct (stop_now c b) eqn:SN.
    + intros [= <-] Z. now rewrite (no_stop _ _ Z) in SN.
    + intros H Z. pose proof (items_mono _ _ _ H Z) as ZB. rewrite (S _ eq_refl ZB), (no_stop _ _ ZB). now apply IH.
Qed.
Lemma rest_mono v rest : forall a a', tuple_rest c i actual v rest a = TDone a' -> ta_errs a' = [] -> ta_errs a = [].
Proof.
  induction rest as [|[x|] rest IH]; intros a a'; cbn [tuple_rest]; [now intros [= <-]| |now intros [= <-]].
  destruct (use_item _ _ _ _ _ _) as [b|] eqn:U; [|discriminate]. destruct (stop_now c b); [intros [= <-] Z|intros H Z; pose proof (IH _ _ H Z) as Z']; apply use_mono in U; auto.
Qed.
Lemma rest_ease v v' rest : ckid true v v' -> forall a a', off (ta_state a) -> tuple_rest c i actual v rest a = TDone a' -> ta_errs a' = [] -> tuple_rest c' i actual v' rest a = TDone a'.
Proof.
  intros [K _ _ _]. induction rest as [|[x|] rest IH]; intros a a' O; cbn [tuple_rest]; [easy| |easy].
  pose proof (use_off c i actual (ta_count a) (cv_validate v x (ta_state a)) (ta_move (snd (ti_next (ta_iter a))) a) (k_off _ _ K _ _ O)) as OB.
  destruct (use_item c i actual (ta_count a) (cv_validate v x (ta_state a)) (ta_move (snd (ti_next (ta_iter a))) a)) as [b|] eqn:U; [|discriminate]. destruct (stop_now c b) eqn:SN.
  - intros [= <-] Z. now rewrite (no_stop _ _ Z) in SN.
  - intros H Z. pose proof (rest_mono _ _ _ _ H Z) as ZB. rewrite (use_ease _ _ (cv_validate v' x (ta_state a)) _ _ (k_ne _ _ K _ _) (fun w s E => k_ease _ _ K _ _ _ _ O E) U ZB), (no_stop _ _ ZB). now apply IH.
Qed.
Definition bdone (b : buffered) : option tacc := match b with BEnd a _ _ => Some a | BReturn (TDone a) => Some a | BReturn _ => None end.
Lemma buf_mono v rest : forall buf ix a a', bdone (tuple_buffered c i actual v rest buf ix a) = Some a' -> ta_errs a' = [] -> ta_errs a = [].
Proof.
  induction rest as [|[x|] rest IH]; intros buf ix a a'; cbn [tuple_buffered]; [now intros [= <-]| |now intros [= <-]].
  destruct (buf ++ [x]) as [|y buf']; [discriminate|]. destruct (use_item _ _ _ _ _ _) as [b|] eqn:U; [|discriminate].
  destruct (stop_now c b); [intros [= <-] Z|intros H Z; pose proof (IH _ _ _ _ H Z) as Z']; apply use_mono in U; auto.
Qed.
Lemma buf_ease v v' rest : ckid true v v' -> forall buf ix a a', off (ta_state a) -> bdone (tuple_buffered c i actual v rest buf ix a) = Some a' -> ta_errs a' = [] ->
  tuple_buffered c' i actual v' rest buf ix a = tuple_buffered c i actual v rest buf ix a /\ (exists b x, tuple_buffered c i actual v rest buf ix a = BEnd a' b x) /\ off (ta_state a').
Proof.
  intros [K _ _ _]. induction rest as [|[x|] rest IH]; intros buf ix a a' O; cbn [tuple_buffered].
  - intros [= <-] _. split; [reflexivity|]. split; [now eexists _, _|exact O].
  - destruct (buf ++ [x]) as [|y buf']; [discriminate|].
    pose proof (use_off c i actual (ta_count a) (cv_validate v y (ta_state a)) (ta_move (snd (ti_next (ta_iter a))) a) (k_off _ _ K _ _ O)) as OB.
    destruct (use_item c i actual (ta_count a) (cv_validate v y (ta_state a)) (ta_move (snd (ti_next (ta_iter a))) a)) as [b|] eqn:U; [|discriminate]. destruct (stop_now c b) eqn:SN.
    + intros [= <-] Z. now rewrite (no_stop _ _ Z) in SN.
    + intros H Z. pose proof (buf_mono _ _ _ _ _ _ H Z) as ZB. rewrite (use_ease _ _ (cv_validate v' y (ta_state a)) _ _ (k_ne _ _ K _ _) (fun w s E => k_ease _ _ K _ _ _ _ O E) U ZB), (no_stop _ _ ZB). now apply IH.
  - intros [= <-] _. split; [reflexivity|]. split; [now eexists _, _|exact O].
Qed.
Lemma f2_first A B (P : A -> B -> Prop) n l l' : Forall2 P l l' -> Forall2 P (firstn n l) (firstn n l').
Proof. intros F. revert n. induction F; intros [|n]; cbn; constructor; auto. Qed.
Lemma f2_len A B (P : A -> B -> Prop) l l' : Forall2 P l l' -> length l = length l'.
Proof. induction 1; cbn; auto. Qed.
Lemma f2_skip A B (P : A -> B -> Prop) n l l' : Forall2 P l l' -> Forall2 P (skipn n l) (skipn n l').
Proof. intros F. revert n. induction F; intros [|n]; cbn; auto. Qed.
Hypothesis VA : tu_variadic c' = tu_variadic c.
Lemma variable_ease a a' : Forall2 (ckid true) (tu_validators c) (tu_validators c') -> off (ta_state a) -> tuple_variable c i actual a = TDone a' -> ta_errs a' = [] -> tuple_variable c' i actual a = TDone a'.
Proof.
  intros F O. unfold tuple_variable. rewrite VA. destruct (tu_variadic c) as [k|].
  - pose proof (f2_skip _ _ _ k _ _ F) as FS. pose proof (f2_first _ _ _ k _ _ F) as FF.
    assert (CK : Forall ckeeps (firstn k (tu_validators c))). { clear -FF. induction FF as [|x y l l' [K D1 D2 D3] FF IH]; constructor; auto. split; [apply (k_off _ _ K)|exact D2]. }
    destruct FS as [|v v' tail tail' KV FT]; [discriminate|].
    pose proof (titems_off c i actual _ a CK O) as O1. destruct (tuple_items c i actual (firstn k (tu_validators c)) a) as [a1|] eqn:T1; [|discriminate].
    destruct (stop_now c a1) eqn:SN. { intros [= <-] Z. now rewrite (no_stop _ _ Z) in SN. }
    intros H Z. assert (Z1 : ta_errs a1 = []).
    { destruct tail as [|w tail].
      - exact (rest_mono _ _ _ _ H Z).
      - destruct (ti_take _ _) as [buf it]. clear T1. destruct (tuple_buffered _ _ _ _ _ _ _ _) as [a3 buf' ix|r] eqn:B.
        + destruct (tuple_items _ _ _ _ _) as [a4|] eqn:T2; [|discriminate]. injection H as <-. cbn in Z. apply (items_mono _ _ _ T2) in Z. cbn in Z.
          refine (_ : ta_errs {| ta_out := ta_out a1; ta_errs := ta_errs a1; ta_count := ta_count a1; ta_iter := it; ta_state := ta_state a1 |} = []).
          eapply buf_mono; [now rewrite B|exact Z].
        + subst r. refine (_ : ta_errs {| ta_out := ta_out a1; ta_errs := ta_errs a1; ta_count := ta_count a1; ta_iter := it; ta_state := ta_state a1 |} = []).
          eapply buf_mono; [now rewrite B|exact Z]. }
    rewrite (items_ease _ _ FF _ _ O T1 Z1), (no_stop _ _ Z1).
    destruct FT as [|w w' tail tail' KW FT]; [exact (rest_ease _ _ _ KV _ _ O1 H Z)|].
    assert (LL : length (w' :: tail') = length (w :: tail)) by (exact (f_equal S (eq_sym (f2_len _ _ _ _ _ FT)))). rewrite LL. clear LL.
    destruct (ti_take _ _) as [buf it]. set (a2 := {| ta_out := ta_out a1; ta_errs := ta_errs a1; ta_count := ta_count a1; ta_iter := it; ta_state := ta_state a1 |}) in *.
    assert (BA : forall a3, bdone (tuple_buffered c i actual v (ti_rest it) buf (ta_count a2) a2) = Some a3 -> ta_errs a3 = [] ->
       tuple_buffered c' i actual v' (ti_rest it) buf (ta_count a2) a2 = tuple_buffered c i actual v (ti_rest it) buf (ta_count a2) a2 /\ (exists b x, tuple_buffered c i actual v (ti_rest it) buf (ta_count a2) a2 = BEnd a3 b x) /\ off (ta_state a3)).
    { intros a3 B Z3. exact (buf_ease _ _ _ KV _ _ a2 _ O1 B Z3). }
    destruct (tuple_buffered c i actual v (ti_rest it) buf (ta_count a2) a2) as [a3 buf' ix|r] eqn:B.
    + destruct (tuple_items c i actual (w :: tail) _) as [a4|] eqn:T2; [|discriminate]. injection H as <-. cbn in Z. pose proof (items_mono _ _ _ T2 Z) as Z3. cbn in Z3.
      destruct (BA _ eq_refl Z3) as (-> & _ & O3). rewrite (fun X => items_ease _ _ (Forall2_cons _ _ KW FT) _ _ X T2 Z); [reflexivity|exact O3].
    + subst r. destruct (BA _ eq_refl Z) as (_ & (b & x & X) & _). discriminate X.
  - destruct (tuple_items _ _ _ _ a) as [a1|] eqn:T; [|discriminate]. destruct (stop_now c a1) eqn:SN. { intros [= <-] Z. now rewrite (no_stop _ _ Z) in SN. }
    destruct (ti_next (ta_iter a1)) as [[x|] it] eqn:TN; [discriminate|]. intros [= <-] Z. cbn in Z. now rewrite (items_ease _ _ F _ _ O T Z), (no_stop _ _ Z), TN.
Qed.
End Tup.
Lemma tuple_ease c c' : laxer (tu_strict c) (tu_strict c') -> tu_variadic c' = tu_variadic c -> lower le (tu_min c) (tu_min c') -> upper le (tu_max c) (tu_max c') ->
  Forall2 (ckid true) (tu_validators c) (tu_validators c') -> eases (tuple_validate c validate_tuple) (tuple_validate c' validate_tuple).
Proof.
  intros LS VA LMn LMx F i s a t O. unfold tuple_validate. cbv zeta.
  destruct (validate_tuple (strict_or _ (tu_strict c)) i) as [sq|] eqn:V; [|discriminate]. rewrite (laxer_reads _ _ _ _ _ _ _ tuple_reads LS V).
  destruct (tuple_variable c i _ _) as [b|] eqn:T; [|discriminate].
  destruct (ti_err (ta_iter b)) eqn:TE; [discriminate|]. destruct (is_nil _) eqn:N; [|discriminate]. apply is_nil_true in N. apply app_eq_nil in N. destruct N as [N1 N2].
  intros [= <- <-]. rewrite (fun X => variable_ease c c' i _ LMx VA _ _ F X T N1), TE, N1; [|exact (off_floor _ _ (proj1 (off_part true s)))]. cbn [app].
  destruct (tu_min c') as [m'|]; [|reflexivity]. destruct LMn as (m & E & LE). rewrite E in N2. destruct (Nat.ltb_spec (length (ta_out b)) m); [discriminate|]. destruct (Nat.ltb_spec (length (ta_out b)) m'); [lia|reflexivity].
Qed.

(** ** Fields *)
Ltac adv H :=
  match type of H with
  | context [match ?x with _ => _ end] =>
      lazymatch x with
      | context [match _ with _ => _ end] => fail
      | _ => first [is_var x; destruct x | let E := fresh "E" in destruct x eqn:E]
      end
  end; try discriminate H.
Ltac known :=
  match goal with
  | K : kid ?v ?v', E : ?v ?i ?s = (VOk _, _) |- context [?v' ?i ?s] => rewrite (fun X => k_ease _ _ K _ _ _ _ X E); [|go]
  end; cbv beta iota.
Lemma deases_some n (d d' : option loc_item -> state -> vres (option pyval) * state) l s w t : deases n d d' -> off s -> d l s = (VOk (Some w), t) -> d' l s = (VOk (Some w), t).
Proof. intros D O E. destruct (D _ _ _ _ O E) as [[_ X]|X]; [discriminate X|exact X]. Qed.
Lemma deases_none (d d' : option loc_item -> state -> vres (option pyval) * state) l s w t : deases false d d' -> off s -> d l s = (VOk w, t) -> d' l s = (VOk w, t).
Proof. intros D O E. destruct (D _ _ _ _ O E) as [[X _]|X]; [discriminate X|exact X]. Qed.
Ltac dknown :=
  match goal with
  | D : deases false ?v ?v', E : ?v ?i ?s = (VOk ?w, ?t) |- context [?v' ?i ?s] => rewrite (fun X => deases_none _ _ _ _ _ _ D X E); [|go]
  | D : deases _ ?v ?v', E : ?v ?i ?s = (VOk (Some ?w), ?t) |- context [?v' ?i ?s] => rewrite (fun X => deases_some _ _ _ _ _ _ _ D X E); [|go]
  end; cbv beta iota.
Ltac bad := exfalso; match goal with
  | H : vne ?v, E : ?v ?i ?s = (VErr ?e, ?s') |- _ => exact (vne_err v i s e s' H E)
  | H : dne ?v, E : ?v ?i ?s = (VErr ?e, ?s') |- _ => exact (dne_err v i s e s' H E)
  | H : vne ?v, E : ?v ?i ?s = (VErr (LineErrors ?e), ?s'), Z : _ = [] |- _ => apply map_app_nil in Z; now destruct (vne_err v i s _ s' H E)
  | H : dne ?v, E : ?v ?i ?s = (VErr (LineErrors ?e), ?s'), Z : ?l ++ ?e = [] |- _ => apply app_eq_nil in Z; now destruct (dne_err v i s _ s' H E)
  | Z : ?l ++ [_] = [] |- _ => now apply app_eq_nil in Z
  end.

Section Fields.
Variables c c' : fields_cfg.
Variable md : mdict. Variable i : input. Variables ba bn : bool.
Definition fkid (n : field -> bool) (f f' : field) : Prop := f_name f' = f_name f /\ f_keys f' = f_keys f /\ ckid (n f) (f_cv f) (f_cv f').
Lemma fields_mono fs : forall a s b t, fields_loop c md i ba bn fs a s = (VOk b, t) -> fa_errors b = [] -> fa_errors a = [].
Proof.
  induction fs as [|f fs IH]; intros a s b t; cbn [fields_loop]; [now intros [= <- _]|]. cbv zeta. unfold rebind.
  intros H. repeat adv H; intros Z; specialize (IH _ _ _ _ H Z); try exact IH; cbn in IH; now apply app_eq_nil in IH.
Qed.
Lemma fields_ease fs fs' : Forall2 (fkid (fun _ => true)) fs fs' -> forall a s b t, off s -> fields_loop c md i ba bn fs a s = (VOk b, t) -> fa_errors b = [] ->
  fields_loop c' md i ba bn fs' a s = (VOk b, t).
Proof.
  induction 1 as [|f f' fs fs' (EN & EK & [K DN DO DE]) F IH]; intros a s b t O; cbn [fields_loop]; [easy|]. cbv zeta. unfold rebind.
  rewrite EN, EK. clear EN EK. pose proof (k_ne _ _ K) as KN. pose proof (k_off _ _ K) as KO.
  intros H Z. pose proof (fields_mono fs) as MO. repeat adv H; try (apply IH; [go|exact H|exact Z]).
  all: try (specialize (MO _ _ _ _ H Z); cbn in MO; bad).
  all: try bad.
  - known. now apply IH; [go| |].
  - dknown. now apply IH; [go| |].
Qed.
Lemma extras_mono used es : forall out errors fset s o er fs t, extras_loop c used es out errors fset s = (VOk (o, er, fs), t) -> er = [] -> errors = [].
Proof.
  induction es as [|[k kl v|e] es IH]; intros out errors fset s o er fs t; cbn [extras_loop]; [now intros [= _ <- _ _]| |discriminate]. cbv zeta.
  intros H Z. repeat adv H; specialize (IH _ _ _ _ _ _ _ _ H Z); try exact IH; now apply app_eq_nil in IH.
Qed.
Lemma extras_ease used es : fc_extra c' = fc_extra c -> opt_rel kid (fc_extras c) (fc_extras c') -> opt_rel kid (fc_extras_keys c) (fc_extras_keys c') ->
  forall out errors fset s o fs t, off s -> extras_loop c used es out errors fset s = (VOk (o, [], fs), t) -> extras_loop c' used es out errors fset s = (VOk (o, [], fs), t).
Proof.
  intros EE OX OK. induction es as [|[k kl v|e] es IH]; intros out errors fset s o fs t O; cbn [extras_loop]; [easy| |discriminate]. cbv zeta. rewrite EE.
  pose proof (extras_mono used es) as MO. intros H.
  destruct OX as [|x x' KX]; destruct OK as [|y y' KY].
  all: try (pose proof (k_ne _ _ KX) as KXN; pose proof (k_off _ _ KX) as KXO).
  all: try (pose proof (k_ne _ _ KY) as KYN; pose proof (k_off _ _ KY) as KYO).
  all: repeat adv H; try (apply IH; [go|exact H]).
  all: try (specialize (MO _ _ _ _ _ _ _ _ H eq_refl); bad).
  all: try bad.
  all: repeat known; repeat match goal with E : as_str _ = _ |- _ => rewrite E; clear E end; repeat known; now apply IH; [go|].
Qed.
Lemma extras_forbid used es : fc_extra c = ExtraForbid -> forall out errors fset s o fs t, extras_loop c used es out errors fset s = (VOk (o, [], fs), t) -> o = out /\ fs = fset /\ t = s.
Proof.
  intros EE. pose proof (extras_mono used) as MO. induction es as [|[k kl v|e] es IH]; intros out errors fset s o fs t; cbn [extras_loop]; [now intros [= -> _ -> ->]| |discriminate]. rewrite EE.
  intros H. repeat adv H; exact (IH _ _ _ _ _ _ _ H).
Qed.
End Fields.
Lemma reads2_1 vm fa : reads2 vm -> reads (fun st => vm st fa).
Proof. intros R i. specialize (R fa i). cbv beta. destruct (vm true fa i); [apply R|exact R]. Qed.
Lemma model_fields_ease c c' vm : reads2 vm -> extra_looser false (fc_extra c) (fc_extra c') -> laxer (fc_strict c) (fc_strict c') -> fc_from_attributes c' = fc_from_attributes c ->
  fc_by_alias c' = fc_by_alias c -> fc_by_name c' = fc_by_name c -> Forall2 (fkid (fun _ => true)) (fc_fields c) (fc_fields c') ->
  opt_rel kid (fc_extras c) (fc_extras c') -> opt_rel kid (fc_extras_keys c) (fc_extras_keys c') -> eases (model_fields_validate c vm) (model_fields_validate c' vm).
Proof.
  intros R EX LS FA EA EN F OX OK i s a t O. unfold model_fields_validate. cbv zeta. rewrite FA, EA, EN.
  set (s0 := set_partial PartialOff s). set (fa := unwrap_or _ _).
  destruct (vm (strict_or s0 (fc_strict c)) fa i) as [md|[]] eqn:V; try discriminate.
  rewrite (laxer_reads _ (fun st => vm st fa) _ _ _ _ _ (reads2_1 _ _ R) LS V). unfold rebind.
  set (ba := validate_by_alias_or s0 (fc_by_alias c)). set (bn := validate_by_name_or s0 (fc_by_name c)).
  assert (FC : Forall (fun f => ckeeps (f_cv f)) (fc_fields c)).
  { clear -F. induction F as [|f f' l l' (_ & _ & [K D1 D2 D3]) F IH]; constructor; auto. split; [apply (k_off _ _ K)|exact D2]. }
  destruct (fields_loop c md i ba bn (fc_fields c) fa_init _) as [[b|e] s1] eqn:L; [|discriminate].
  assert (O1 : off s1). { refine (_ : off (snd (VOk b, s1))). rewrite <- L. apply fields_off; [exact FC|exact (proj1 (off_part true s))]. }
  assert (LE : fa_errors b = [] -> fields_loop c' md i ba bn (fc_fields c') fa_init (set_extra (set_data (Some []) (st_extra s0)) s0) = (VOk b, s1)).
  { intros Z. refine (fields_ease c c' _ _ _ _ _ _ F _ _ _ _ _ L Z). exact (proj1 (off_part true s)). }
  set (sx := set_extra _ s1) in *. change (off sx) in O1.
  destruct (extra_behavior_eqb (fc_extra c) ExtraIgnore || md_is_attr md) eqn:Q.
  - destruct (is_nil (fa_errors b)) eqn:N; [|discriminate]. apply is_nil_true in N. rewrite (LE N). fold sx.
    assert (QQ : extra_behavior_eqb (fc_extra c') ExtraIgnore || md_is_attr md = true).
    { destruct (md_is_attr md); [apply orb_true_r|]. rewrite orb_false_r in *. destruct EX as [->|[X _]]; [exact Q|]. now rewrite X in Q. }
    rewrite QQ, N. intros [= <- <-]. cbn [is_nil]. f_equal. f_equal. destruct EX as [->|[-> [->|X]]]; [reflexivity|reflexivity|discriminate X].
  - destruct (md_iter md) as [es|] eqn:MI; [|discriminate].
    destruct (extras_loop c (fa_used b) es [] (fa_errors b) (fa_set b) sx) as [[[[out er] fset]|e] s2] eqn:X; [|discriminate].
    destruct (is_nil er) eqn:N; [|discriminate]. apply is_nil_true in N. subst er. pose proof (extras_mono c _ _ _ _ _ _ _ _ _ _ X eq_refl) as Z. rewrite (LE Z). fold sx.
    intros [= <- <-]. destruct EX as [EE|[E1 [E2|EE]]]; [| |discriminate EE].
    + rewrite EE, Q, (extras_ease c c' _ _ EE OX OK _ _ _ _ _ _ _ O1 X). reflexivity.
    + destruct (extras_forbid c _ _ E1 _ _ _ _ _ _ _ X) as (-> & -> & ->). rewrite E2, E1, Z. reflexivity.
Qed.

(** ** Typed dicts *)
Section TD.
Variables c c' : fields_cfg.
Variable md : mdict. Variable i : input. Variables ba bn : bool.
Lemma td_mono fs : forall a s b t, td_loop c md i None PartialOff ba bn fs a s = (VOk b, t) -> fa_errors b = [] -> fa_errors a = [].
Proof.
  induction fs as [|f fs IH]; intros a s b t; cbn [td_loop last_is negb orb]; [now intros [= <- _]|]. cbv zeta. unfold rebind.
  intros H. repeat adv H; intros Z; specialize (IH _ _ _ _ H Z); try exact IH; cbn in IH; now apply app_eq_nil in IH.
Qed.
Definition tkid (f f' : field) : Prop := laxer (f_required f) (f_required f') /\ fkid f_required f f'.
Lemma td_ease fs fs' : Forall2 tkid fs fs' -> forall a s b t, off s -> td_loop c md i None PartialOff ba bn fs a s = (VOk b, t) -> fa_errors b = [] ->
  td_loop c' md i None PartialOff ba bn fs' a s = (VOk b, t).
Proof.
  induction 1 as [|f f' fs fs' (LR & EN & EK & [K DN DO DE]) F IH]; intros a s b t O; cbn [td_loop last_is negb orb]; [easy|]. cbv zeta. unfold rebind.
  rewrite EN, EK. clear EN EK. pose proof (k_ne _ _ K) as KN. pose proof (k_off _ _ K) as KO.
  intros H Z. pose proof (td_mono fs) as MO. repeat adv H; try (apply IH; [go|exact H|exact Z]).
  all: try (specialize (MO _ _ _ _ H Z); cbn in MO; bad).
  all: try bad.
  - known. now apply IH; [go| |].
  - dknown. now apply IH; [go| |].
  - destruct (f_required f') eqn:RR; [now specialize (LR eq_refl)|]. dknown. now apply IH; [go| |].
Qed.
Lemma td_extras_mono used es : forall out errors s o er t, td_extras c used None PartialOff es out errors s = (VOk (o, er), t) -> er = [] -> errors = [].
Proof.
  induction es as [|[k kl v|e] es IH]; intros out errors s o er t; cbn [td_extras last_is]; [now intros [= _ <- _]| |discriminate]. cbv zeta.
  intros H Z. repeat adv H; specialize (IH _ _ _ _ _ _ H Z); try exact IH; now apply app_eq_nil in IH.
Qed.
Lemma td_extras_ease used es : fc_extra c' = fc_extra c -> opt_rel kid (fc_extras c) (fc_extras c') ->
  forall out errors s o t, off s -> td_extras c used None PartialOff es out errors s = (VOk (o, []), t) -> td_extras c' used None PartialOff es out errors s = (VOk (o, []), t).
Proof.
  intros EE OX. induction es as [|[k kl v|e] es IH]; intros out errors s o t O; cbn [td_extras last_is]; [easy| |discriminate]. cbv zeta. rewrite EE.
  pose proof (td_extras_mono used es) as MO. intros H.
  destruct OX as [|x x' KX].
  all: try (pose proof (k_ne _ _ KX) as KXN; pose proof (k_off _ _ KX) as KXO).
  all: repeat adv H; try (apply IH; [go|exact H]).
  all: try (specialize (MO _ _ _ _ _ _ H eq_refl); bad).
  all: try bad.
  all: repeat known; now apply IH; [go|].
Qed.
Lemma td_extras_forbid used es : fc_extra c = ExtraForbid -> forall out errors s o t, td_extras c used None PartialOff es out errors s = (VOk (o, []), t) ->
  o = out /\ t = s /\ td_extras c' used None PartialOff es out errors s = (VOk (o, []), t).
Proof.
  intros EE. pose proof (td_extras_mono used) as MO. induction es as [|[k kl v|e] es IH]; intros out errors s o t; cbn [td_extras last_is]; [now intros [= -> -> ->]| |discriminate]. rewrite EE.
  intros H. repeat adv H; try exact (IH _ _ _ _ _ H). specialize (MO _ _ _ _ _ _ _ H eq_refl). bad.
Qed.
End TD.
Lemma typed_dict_ease c c' vd : reads vd -> extra_looser true (fc_extra c) (fc_extra c') -> laxer (fc_strict c) (fc_strict c') ->
  fc_by_alias c' = fc_by_alias c -> fc_by_name c' = fc_by_name c -> Forall2 tkid (fc_fields c) (fc_fields c') ->
  opt_rel kid (fc_extras c) (fc_extras c') \/ fc_extra c = ExtraForbid -> eases (typed_dict_validate c vd) (typed_dict_validate c' vd).
Proof.
  intros R EX LS EA EN F OX i s a t O. unfold typed_dict_validate. rewrite EA, EN, O. cbn [is_active]. cbv zeta.
  destruct (vd (strict_or s (fc_strict c)) i) as [md|[]] eqn:V; try discriminate.
  rewrite (laxer_reads _ _ _ _ _ _ _ R LS V). unfold rebind.
  set (ba := validate_by_alias_or s (fc_by_alias c)). set (bn := validate_by_name_or s (fc_by_name c)).
  assert (FC : Forall (fun f => ckeeps (f_cv f)) (fc_fields c)).
  { clear -F. induction F as [|f f' l l' (_ & _ & _ & [K D1 D2 D3]) F IH]; constructor; auto. split; [apply (k_off _ _ K)|exact D2]. }
  destruct (td_loop c md i None PartialOff ba bn (fc_fields c) fa_init _) as [[b|e] s1] eqn:L; [|discriminate].
  assert (O1 : off s1). { refine (_ : off (snd (VOk b, s1))). rewrite <- L. apply td_off; [exact FC|exact O]. }
  assert (LE : fa_errors b = [] -> td_loop c' md i None PartialOff ba bn (fc_fields c') fa_init (set_extra (set_data (Some []) (st_extra s)) s) = (VOk b, s1)).
  { intros Z. refine (td_ease c c' _ _ _ _ _ _ F _ _ _ _ _ L Z). exact O. }
  set (sx := set_extra _ (add_fields_set _ s1)) in *. change (off sx) in O1.
  destruct (extra_behavior_eqb (fc_extra c) ExtraIgnore || md_is_attr md) eqn:Q.
  - destruct (is_nil (fa_errors b)) eqn:N; [|discriminate]. apply is_nil_true in N. rewrite (LE N). fold sx.
    assert (QQ : extra_behavior_eqb (fc_extra c') ExtraIgnore || md_is_attr md = true).
    { destruct (md_is_attr md); [apply orb_true_r|]. rewrite orb_false_r in *. destruct EX as [->|[X _]]; [exact Q|]. now rewrite X in Q. }
    rewrite QQ, N. now intros [= <- <-].
  - destruct (md_iter md) as [es|] eqn:MI; [|discriminate].
    destruct (td_extras c (fa_used b) None PartialOff es (fa_dict b) (fa_errors b) sx) as [[[out er]|e] s2] eqn:X; [|discriminate].
    destruct (is_nil er) eqn:N; [|discriminate]. apply is_nil_true in N. subst er. pose proof (td_extras_mono c _ _ _ _ _ _ _ _ X eq_refl) as Z. rewrite (LE Z). fold sx.
    intros [= <- <-].
    assert (FB : fc_extra c = ExtraForbid -> (if extra_behavior_eqb (fc_extra c') ExtraIgnore || md_is_attr md then if is_nil (fa_errors b) then (VOk (PDict (fa_dict b)), sx) else (VErr (LineErrors (fa_errors b)), sx)
       else match td_extras c' (fa_used b) None PartialOff es (fa_dict b) (fa_errors b) sx with (VOk (out, errors), s'') => if is_nil errors then (VOk (PDict out), s'') else (VErr (LineErrors errors), s'') | (VErr e, s'') => (VErr e, s'') end) = (VOk (PDict out), s2)).
    { intros E1. destruct (td_extras_forbid c c' _ _ E1 _ _ _ _ _ X) as (-> & -> & X2). rewrite X2, Z. match goal with |- (if ?x then _ else _) = _ => now destruct x end. }
    destruct EX as [EE|[E1 _]]; [|exact (FB E1)]. destruct OX as [OX|E1]; [|exact (FB E1)].
    rewrite EE, Q, (td_extras_ease c c' _ _ EE OX _ _ _ _ _ O1 X). reflexivity.
Qed.

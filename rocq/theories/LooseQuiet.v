From Coq Require Import List NArith ZArith Bool Lia.
From Verif Require Import Base Float64 IntParse Numbers BytesCodec Values VState LookupKey Collections Child Inputs Scalars Literal Wrappers Union TaggedUnion Tuple ModelFields TypedDict Assign Arguments Classes Interp InterpSpec InterpProofs StrictSpec LooseSpec.
Import ListNotations.
Open Scope nat_scope.

(** Splitting the innermost match of the goal. *)
Ltac brk :=
  match goal with
  | |- context [match ?x with _ => _ end] =>
      lazymatch x with
      | context [match _ with _ => _ end] => fail
      | _ => tryif is_var x then destruct x else (let E := fresh "E" in destruct x eqn:E)
      end
  end.

(** ** Failing validations have an error, when user code raises ordinary exceptions *)
Definition okv (e : verror) : Prop := match e with LineErrors l => l <> [] | InternalErr x => ordinary x | Omit | UseDefault => False | Panic => True end.
Definition ne {A} (r : vres A) : Prop := match r with VOk _ => True | VErr e => okv e end.
Definition vne (v : validator) : Prop := forall i s, ne (fst (v i s)).
Definition dne (f : option loc_item -> state -> vres (option pyval) * state) : Prop := forall l s, ne (fst (f l s)).
Definition cvne (v : cv) : Prop := vne (cv_validate v) /\ dne (cv_default v).

Lemma ne_nil A (es : list line_error) : is_nil es = false -> ne (@VErr A (LineErrors es)).
Proof. destruct es; [discriminate|]. intros _. discriminate. Qed.
Lemma vne_err v i s e s' : vne v -> v i s = (VErr e, s') -> okv e.
Proof. intros H E. specialize (H i s). now rewrite E in H. Qed.
Lemma dne_err v i s e s' : dne v -> v i s = (VErr e, s') -> okv e.
Proof. intros H E. specialize (H i s). now rewrite E in H. Qed.
Lemma ne_err A (r : vres A) e : ne r -> r = VErr e -> okv e.
Proof. intros H ->. exact H. Qed.
Lemma okv_with_outer l e : okv e -> okv (with_outer_err l e).
Proof. destruct e as [es| | | |]; cbn; auto. destruct es; [easy|discriminate]. Qed.
Lemma no_default_ne v : vne v -> cvne (no_default v).
Proof. intros H; split; [exact H|]. intros l s; exact I. Qed.
Lemma map_not_nil A B (f : A -> B) l : l <> [] -> map f l <> []. Proof. destruct l; [easy|discriminate]. Qed.
Lemma app_not_nil A (l m : list A) : m <> [] -> l ++ m <> []. Proof. intros H E. apply app_eq_nil in E. now apply H. Qed.

Ltac fin :=
  solve [ exact I | cbn; exact I | cbn; discriminate | match goal with H : vne ?v, E : ?v ?i ?s = (VErr ?e, ?s') |- _ => exact (vne_err v i s e s' H E) end | match goal with H : dne ?v, E : ?v ?i ?s = (VErr ?e, ?s') |- _ => exact (dne_err v i s e s' H E) end ].

Lemma mc_incr_ne mc : ne (fst (mc_incr mc)).
Proof. unfold mc_incr. repeat first [fin | brk]. Qed.
Lemma mc_incr_err mc e m : mc_incr mc = (VErr e, m) -> okv e.
Proof. intros E. pose proof (mc_incr_ne mc). now rewrite E in H. Qed.
Ltac fin ::=
  solve [ exact I | cbn; exact I | cbn; discriminate | match goal with H : vne ?v, E : ?v ?i ?s = (VErr ?e, ?s') |- _ => exact (vne_err v i s e s' H E) end | match goal with H : dne ?v, E : ?v ?i ?s = (VErr ?e, ?s') |- _ => exact (dne_err v i s e s' H E) end | cbn [ne fst snd]; eapply mc_incr_err; eassumption ].

Lemma vec_loop_ne child ff p mc items out errors s : vne child -> ne (fst (vec_loop child ff p mc out errors items s)).
Proof.
  intros H. revert mc out errors s. induction items as [|[[ix lp] it] items IH]; intros mc out errors s; cbn [vec_loop].
  - destruct errors; fin.
  - repeat first [apply IH | fin | brk].
    cbn. apply app_not_nil, map_not_nil. exact (vne_err _ _ _ _ _ H E).
Qed.
Lemma no_validator_ne mc i ix items : ne (no_validator_loop mc i ix items).
Proof.
  revert mc ix. induction items as [|it items IH]; intros mc ix; cbn [no_validator_loop]; [fin|].
  destruct it; [|fin]. destruct (mc_incr mc) as [[] mc'] eqn:M; [|fin].
  specialize (IH mc' (S ix)). destruct (no_validator_loop _ _ _ _); [exact I|exact IH].
Qed.
Lemma min_check_ne c i mn n e : min_check c i mn n = Some e -> okv e.
Proof. unfold min_check. destruct mn; [|discriminate]. destruct (_ <? _); [|discriminate]. intros [= <-]. discriminate. Qed.
Lemma max_check_ne c i mn n e : max_check_err c i mn n = Some e -> okv e.
Proof. unfold max_check_err. destruct mn; [|discriminate]. destruct (_ <? _); [|discriminate]. intros [= <-]. discriminate. Qed.
Ltac chk := first [fin | eapply min_check_ne; eassumption | eapply max_check_ne; eassumption | eapply ne_nil; eassumption].

Lemma list_ne c child vl : (forall v, child = Some v -> vne v) -> (forall b i, ne (vl b i)) -> vne (list_validate c child vl).
Proof.
  intros H HL i s. unfold list_validate. specialize (HL (strict_or s (co_strict c)) i). destruct (vl _ i) as [sq|e]; [|exact HL].
  destruct child as [v|].
  - unfold validate_iter_to_vec. 
    match goal with |- context [vec_loop ?a ?b ?c ?d ?e ?f ?g ?h] => pose proof (vec_loop_ne a b c d g e f h (H _ eq_refl)) as N; destruct (vec_loop a b c d e f g h) as [[out|er] s'] end; [|exact N].
    repeat first [chk | brk].
  - destruct (sq_py_list sq).
    + repeat first [chk | brk].
    + match goal with |- context [no_validator_loop ?a ?b ?c ?d] => pose proof (no_validator_ne a b c d) as N; destruct (no_validator_loop a b c d) as [out|er] end; [|exact N].
      repeat first [chk | brk].
Qed.

Lemma set_loop_ne child ff c i0 mx p items set errors s : vne child -> ne (fst (set_loop child ff c i0 mx p set errors items s)).
Proof.
  intros H. revert set errors s. induction items as [|[[ix lp] it] items IH]; intros set errors s; cbn [set_loop].
  - destruct errors; fin.
  - destruct it as [i|e]; [|fin].
    assert (K : forall st er s, ne (fst (if ff && negb (is_nil er) then (VErr (LineErrors er), s) else set_loop child ff c i0 mx p st er items s))).
    { intros st er s0. destruct ff; cbn [andb]; [|apply IH]. destruct (is_nil er) eqn:N; cbn [negb]; [apply IH|exact (ne_nil pyval _ N)]. }
    unfold validate_add. destruct (child i _) as [[v|[es| | | |]] s'] eqn:E; try apply K; try fin.
    destruct (hashable v); [|apply K]. destruct mx; [|apply K]. destruct (_ <? _); [fin|apply K].
Qed.
Lemma set_ne fz c child vl : vne child -> (forall b i, ne (vl b i)) -> vne (set_validate fz c child vl).
Proof.
  intros H HL i s. unfold set_validate. specialize (HL (strict_or s (co_strict c)) i). destruct (vl _ i) as [sq|e]; [|exact HL].
  unfold validate_iter_to_set.
  match goal with |- context [set_loop ?a ?b ?c ?d ?e ?f ?g ?h ?i ?j] => pose proof (set_loop_ne a b c d e f i g h j H) as N; destruct (set_loop a b c d e f g h i j) as [[out|er] s'] end; [|exact N].
  repeat first [chk | brk].
Qed.

Definition entries_ne (l : list entry) : Prop := forall e, In (BadEntry e) l -> okv e.
Lemma in_enum A (x : A) p n l i b : In (i, b, x) (enumerate_from p n l) -> In x l.
Proof. revert n. induction l as [|y l IH]; intros n; cbn; [easy|]. intros [[= _ _ <-]|H]; [now left|right; exact (IH _ H)]. Qed.
Lemma dict_loop_ne kv vv p items out errors s : vne kv -> vne vv -> (forall ix b e, In (ix, b, BadEntry e) items -> okv e) ->
  ne (fst (fst (dict_loop kv vv p out errors items s))).
Proof.
  intros Hk Hv. revert out errors s. induction items as [|[[ix lp] en] items IH]; intros out errors s B; cbn [dict_loop]; [fin|].
  assert (IH' : forall o e s, ne (fst (fst (dict_loop kv vv p o e items s)))). { intros. apply IH. intros ? ? ? I. apply (B _ _ _ (or_intror I)). }
  destruct en as [key kl value|e]; [|exact (B _ _ _ (or_introl eq_refl))].
  unfold set_item. repeat first [apply IH' | fin | brk].
Qed.
Lemma dict_ne c kv vv vd : vne kv -> vne vv -> (forall b i, ne (vd b i)) -> (forall b i l, vd b i = VOk l -> entries_ne l) -> vne (dict_validate c kv vv vd).
Proof.
  intros Hk Hv HD HB i s. unfold dict_validate. specialize (HD (strict_or s (co_strict c)) i). destruct (vd _ i) as [es|e] eqn:D; [|exact HD].
  match goal with |- context [dict_loop ?a ?b ?c ?d ?e ?f ?g] => pose proof (dict_loop_ne a b c f d e g Hk Hv) as N; destruct (dict_loop a b c d e f g) as [[[out|er] errs] s'] end.
  - repeat first [chk | brk].
  - apply N. intros ix b e I. apply in_enum in I. exact (HB _ _ _ D _ I).
Qed.

Lemma key_str_ne i : ne (key_str i).
Proof. unfold key_str. repeat first [fin | brk]. Qed.
Lemma key_str_err i e : key_str i = VErr e -> okv e.
Proof. intros E. pose proof (key_str_ne i). now rewrite E in H. Qed.
Ltac fin ::=
  solve [ exact I | cbn; exact I | cbn; discriminate | match goal with H : vne ?v, E : ?v ?i ?s = (VErr ?e, ?s') |- _ => exact (vne_err v i s e s' H E) end | match goal with H : dne ?v, E : ?v ?i ?s = (VErr ?e, ?s') |- _ => exact (dne_err v i s e s' H E) end | cbn [ne fst snd]; eapply mc_incr_err; eassumption | cbn [ne fst snd]; eapply key_str_err; eassumption ].

Definition tne (r : tres) : Prop := match r with TFail e _ => okv e | _ => True end.
Section TupleNe.
Variable c : tuple_cfg. Variable i : input. Variable actual : option nat.
Lemma push_ne v s a : tne (push_output_item c i actual v s a).
Proof. unfold push_output_item. repeat first [fin | brk]. Qed.
Lemma use_item_ne ix r a : ne (fst r) -> tne (use_item c i actual ix r a).
Proof. destruct r as [[v|[es| | | |]] s]; intros H; try exact I; try exact H; apply push_ne. Qed.
Lemma tuple_items_ne vs a : Forall cvne vs -> tne (tuple_items c i actual vs a).
Proof.
  intros H. revert a. induction H as [|v vs [Hv Hd] H IH]; intros a; cbn [tuple_items]; [exact I|].
  match goal with |- tne (match ?st with TDone _ => _ | TFail _ _ => _ end) => assert (S : tne st) end.
  { destruct (ti_next _) as [[x|] it']; [apply use_item_ne, Hv|]. repeat first [fin | brk]. }
  match goal with |- tne (match ?st with TDone _ => _ | TFail _ _ => _ end) => destruct st as [a'|e s] end; [|exact S].
  destruct (stop_now c a'); [exact I|apply IH].
Qed.
Lemma tuple_rest_ne v rest a : cvne v -> tne (tuple_rest c i actual v rest a).
Proof.
  intros [H _]. revert a. induction rest as [|it rest IH]; intros a; cbn [tuple_rest]; [exact I|]. destruct it; [|exact I].
  pose proof (use_item_ne (ta_count a) (cv_validate v a0 (ta_state a)) (ta_move (snd (ti_next (ta_iter a))) a) (H _ _)) as U. destruct (use_item _ _ _ _ _ _) as [a'|]; [|exact U].
  destruct (stop_now _ _); [exact I|apply IH].
Qed.
Lemma tuple_buffered_ne v rest buf ix a : cvne v -> match tuple_buffered c i actual v rest buf ix a with BReturn r => tne r | _ => True end.
Proof.
  intros [H _]. revert buf ix a. induction rest as [|it rest IH]; intros buf ix a; cbn [tuple_buffered]; [exact I|]. destruct it; [|exact I].
  destruct (buf ++ [a0]) as [|y buf']; [exact I|].
  pose proof (use_item_ne (ta_count a) (cv_validate v y (ta_state a)) (ta_move (snd (ti_next (ta_iter a))) a) (H _ _)) as U. destruct (use_item _ _ _ _ _ _) as [a'|]; [|exact U].
  destruct (stop_now _ _); [exact I|apply IH].
Qed.
Lemma tuple_variable_ne a : Forall cvne (tu_validators c) -> tne (tuple_variable c i actual a).
Proof.
  intros H. assert (D : forall vs, incl vs (tu_validators c) -> forall a, tne (tuple_items c i actual vs a)).
  { intros vs I a0. apply tuple_items_ne. rewrite Forall_forall in *. intros x X. apply H, I, X. }
  unfold tuple_variable. destruct (tu_variadic c) as [k|].
  - destruct (skipn k (tu_validators c)) as [|v tail] eqn:S; [exact I|].
    assert (I1 : incl (firstn k (tu_validators c)) (tu_validators c)). { intros x X. rewrite <- (firstn_skipn k (tu_validators c)). apply in_or_app. now left. }
    assert (I2 : incl (v :: tail) (tu_validators c)). { intros x X. rewrite <- (firstn_skipn k (tu_validators c)), S. apply in_or_app. now right. }
    assert (I3 : incl tail (tu_validators c)). { intros x X. apply I2. now right. }
    assert (Hv : cvne v). { rewrite Forall_forall in H. apply H, I2. now left. }
    pose proof (D _ I1 a) as T. destruct (tuple_items _ _ _ _ _) as [a1|]; [|exact T].
    destruct (stop_now c a1); [exact I|]. destruct tail as [|w tail'] eqn:ET; [exact (tuple_rest_ne _ _ _ Hv)|].
    destruct (ti_take _ _) as [buf it]. match goal with |- context [tuple_buffered ?a ?b ?c ?d ?e ?f ?g ?h] => pose proof (tuple_buffered_ne d e f g h Hv) as B; destruct (tuple_buffered a b c d e f g h) as [a3 buf' ix|r] end; [|exact B].
    match goal with |- context [tuple_items ?a ?b ?c ?d ?e] => pose proof (D _ I3 e) as T2; destruct (tuple_items a b c d e) end; [exact I|exact T2].
  - pose proof (D _ (incl_refl _) a) as T. destruct (tuple_items _ _ _ _ _) as [a1|]; [|exact T]. destruct (stop_now c a1); [exact I|].
    destruct (ti_next _) as [[x|] it']; fin.
Qed.
End TupleNe.
Lemma tuple_ne c vt : Forall cvne (tu_validators c) -> (forall b i, ne (vt b i)) -> vne (tuple_validate c vt).
Proof.
  intros H HL i s. unfold tuple_validate. match goal with |- context [vt ?b i] => specialize (HL b i); destruct (vt b i) as [sq|e] end; [|exact HL].
  match goal with |- context [tuple_variable ?a ?b ?c ?d] => pose proof (tuple_variable_ne a b c d H) as N; destruct (tuple_variable a b c d) as [a'|e s'] end; [|exact N].
  destruct (ti_err _); [fin|].
  match goal with |- context [is_nil ?l] => destruct (is_nil l) eqn:Z end; [fin|exact (ne_nil _ _ Z)].
Qed.

Definition mdne (md : mdict) : Prop :=
  (forall k, ne (md_get md k)) /\ ne (md_iter md) /\ (forall l, md_iter md = VOk l -> entries_ne l).
Lemma md_get_err md k e : mdne md -> md_get md k = VErr e -> okv e.
Proof. intros [H _] E. specialize (H k). now rewrite E in H. Qed.
Ltac fin ::=
  solve [ exact I | cbn; exact I | cbn; discriminate | match goal with H : vne ?v, E : ?v ?i ?s = (VErr ?e, ?s') |- _ => exact (vne_err v i s e s' H E) end | match goal with H : dne ?v, E : ?v ?i ?s = (VErr ?e, ?s') |- _ => exact (dne_err v i s e s' H E) end | cbn [ne fst snd]; eapply mc_incr_err; eassumption | cbn [ne fst snd]; eapply key_str_err; eassumption | cbn [ne fst snd]; eapply md_get_err; eassumption ].

Lemma fields_loop_ne c md i ba bn fs a s : mdne md -> Forall (fun f => cvne (f_cv f)) fs -> ne (fst (fields_loop c md i ba bn fs a s)).
Proof.
  intros M H. revert a s. induction H as [|f fs [Hf Hd] H IH]; intros a s; cbn [fields_loop]; [fin|].
  unfold rebind. repeat first [apply IH | fin | brk].
Qed.
Definition opt_vne (o : option validator) : Prop := forall v, o = Some v -> vne v.
Lemma extras_loop_ne c used es out errors fset s : opt_vne (fc_extras c) -> opt_vne (fc_extras_keys c) -> entries_ne es -> ne (fst (extras_loop c used es out errors fset s)).
Proof.
  intros H1 H2. revert out errors fset s. induction es as [|en es IH]; intros out errors fset s B; [fin|].
  assert (IH' : forall o er f s, ne (fst (extras_loop c used es o er f s))). { intros. apply IH. intros x X. apply B. now right. }
  cbn [extras_loop]. destruct en as [k kl v|e]; [|exact (B e (or_introl eq_refl))].
  destruct (fc_extras c) as [v1|]; [specialize (H1 _ eq_refl)|]; (destruct (fc_extras_keys c) as [v2|]; [specialize (H2 _ eq_refl)|]); repeat first [apply IH' | fin | brk].
Qed.
Lemma model_fields_ne c vm : Forall (fun f => cvne (f_cv f)) (fc_fields c) -> opt_vne (fc_extras c) -> opt_vne (fc_extras_keys c) -> (forall a b i, ne (vm a b i)) -> (forall a b i md, vm a b i = VOk md -> mdne md) ->
  vne (model_fields_validate c vm).
Proof.
  intros H H1 H2 HV HM i s. unfold model_fields_validate, rebind.
  match goal with |- context [vm ?a ?b i] => specialize (HV a b i); destruct (vm a b i) as [md|e] eqn:V end.
  - pose proof (HM _ _ _ _ V) as M.
    match goal with |- context [fields_loop ?a ?b ?c ?d ?e ?f ?g ?h] => pose proof (fields_loop_ne a b c d e f g h M H) as N; destruct (fields_loop a b c d e f g h) as [[a'|e'] s'] end; [|exact N].
    destruct M as (_ & MI & ME).
    destruct (extra_behavior_eqb _ _ || _); [repeat first [chk | brk]|].
    destruct (md_iter md) as [es|e] eqn:IT; [|exact MI].
    match goal with |- context [extras_loop ?a ?b ?c ?d ?e ?f ?g] => pose proof (extras_loop_ne a b c d e f g H1 H2 (ME _ eq_refl)) as N2; destruct (extras_loop a b c d e f g) as [[[[out errs] fset]|e'] s''] end; [|exact N2].
    repeat first [chk | brk].
  - destruct e as [es| | | |]; try exact HV. cbn in *. now apply map_not_nil.
Qed.

Lemma td_loop_ne c md i last p ba bn fs a s : mdne md -> Forall (fun f => cvne (f_cv f)) fs -> ne (fst (td_loop c md i last p ba bn fs a s)).
Proof.
  intros M H. revert a s. induction H as [|f fs [Hf Hd] H IH]; intros a s; cbn [td_loop]; [fin|].
  unfold rebind. repeat first [apply IH | fin | brk].
Qed.
Lemma td_extras_ne c used last p es out errors s : opt_vne (fc_extras c) -> entries_ne es -> ne (fst (td_extras c used last p es out errors s)).
Proof.
  intros H1. revert out errors s. induction es as [|en es IH]; intros out errors s B; [fin|].
  assert (IH' : forall o er s, ne (fst (td_extras c used last p es o er s))). { intros. apply IH. intros x X. apply B. now right. }
  cbn [td_extras]. destruct en as [k kl v|e]; [|exact (B e (or_introl eq_refl))].
  destruct (fc_extras c) as [v1|]; [specialize (H1 _ eq_refl)|]; repeat first [apply IH' | fin | brk].
Qed.
Lemma typed_dict_ne c vm : Forall (fun f => cvne (f_cv f)) (fc_fields c) -> opt_vne (fc_extras c) -> (forall a i, ne (vm a i)) -> (forall a i md, vm a i = VOk md -> mdne md) ->
  vne (typed_dict_validate c vm).
Proof.
  intros H H1 HV HM i s. unfold typed_dict_validate, rebind.
  match goal with |- context [vm ?a i] => specialize (HV a i); destruct (vm a i) as [md|e] eqn:V end; [|exact HV].
  pose proof (HM _ _ _ V) as M.
  match goal with |- context [td_loop ?a ?b ?c ?d ?d' ?e ?f ?g ?h ?k] => pose proof (td_loop_ne a b c d d' e f g h k M H) as N; destruct (td_loop a b c d d' e f g h k) as [[a'|e'] s'] end; [|exact N].
  destruct M as (_ & MI & ME).
  destruct (extra_behavior_eqb _ _ || _); [repeat first [chk | brk]|].
  destruct (md_iter md) as [es|e] eqn:IT; [|exact MI].
  match goal with |- context [td_extras ?a ?b ?c ?d ?e ?f ?g ?h] => pose proof (td_extras_ne a b c d e f g h H1 (ME _ eq_refl)) as N2; destruct (td_extras a b c d e f g h) as [[[out errs]|e'] s''] end; [|exact N2].
  repeat first [chk | brk].
Qed.

Definition aine (ai : arg_input) : Prop := forall md n, ai_kwargs ai = Some (md, n) -> mdne md.
Lemma params_loop_ne c ai i ba bn ix ps a s : aine ai -> Forall (fun f => cvne (pa_cv f)) ps -> ne (fst (params_loop c ai i ba bn ix ps a s)).
Proof.
  intros M H. revert ix a s. induction H as [|f fs [Hf Hd] H IH]; intros ix a s; cbn [params_loop]; [fin|].
  unfold rebind. destruct (ai_kwargs ai) as [[md n]|] eqn:KW; [specialize (M _ _ KW)|]; repeat first [apply IH | fin | brk].
Qed.
Lemma var_args_ne v ix xs a s : opt_vne v -> ne (fst (var_args_loop v ix xs a s)).
Proof. intros H. revert ix a s. induction xs as [|x xs IH]; intros ix a s; cbn [var_args_loop]; [fin|]. destruct v as [v|]; [specialize (H _ eq_refl)|]; repeat first [apply IH | fin | brk]. Qed.
Lemma var_kwargs_ne c es r a s : opt_vne (ac_var_kwargs c) -> entries_ne es -> ne (fst (var_kwargs_loop c es r a s)).
Proof.
  intros H1. revert r a s. induction es as [|en es IH]; intros r a s B; [fin|].
  assert (IH' : forall o er s, ne (fst (var_kwargs_loop c es o er s))). { intros. apply IH. intros x X. apply B. now right. }
  cbn [var_kwargs_loop]. destruct en as [k kl v|e]; [|exact (B e (or_introl eq_refl))].
  destruct (ac_var_kwargs c) as [v1|]; [specialize (H1 _ eq_refl)|]; repeat first [apply IH' | fin | brk].
Qed.
Lemma args_finish_ne a s : ne (fst (args_finish a s)).
Proof. unfold args_finish. destruct (is_nil _) eqn:Z; [fin|exact (ne_nil _ _ Z)]. Qed.
Lemma arguments_ne c va : Forall (fun f => cvne (pa_cv f)) (ac_params c) -> opt_vne (ac_var_args c) -> opt_vne (ac_var_kwargs c) -> (forall i, ne (va i)) -> (forall i ai, va i = VOk ai -> aine ai) ->
  vne (arguments_validate c va).
Proof.
  intros H H1 H2 HV HM i s. unfold arguments_validate. specialize (HV i). destruct (va i) as [ai|e] eqn:V; [|exact HV]. pose proof (HM _ _ V) as M.
  match goal with |- context [params_loop ?a ?b ?c ?d ?e ?f ?g ?h ?k] => pose proof (params_loop_ne a b c d e f g h k M H) as N; destruct (params_loop a b c d e f g h k) as [[a'|e'] s'] end; [|exact N].
  unfold var_args_stage.
  destruct (match ai_args ai with Some _ => _ | None => _ end) as [[a2|e2] s2] eqn:VA.
  - unfold var_kwargs_stage. destruct (match ai_kwargs ai with Some _ => _ | None => _ end) as [[[a3 rem]|e3] s3] eqn:VK.
    + unfold unpacked_stage. destruct (ac_var_kwargs c) as [v1|]; [specialize (H2 _ eq_refl)|]; repeat first [apply args_finish_ne | fin | brk].
    + destruct (ai_kwargs ai) as [[md n]|] eqn:K; [|discriminate]. destruct (M _ _ K) as (_ & MI & ME). destruct (_ <? _); [|discriminate].
      destruct (md_iter md) as [es|e] eqn:IT.
      * pose proof (var_kwargs_ne c es [] a2 s2 H2 (ME _ eq_refl)) as W. now rewrite VK in W.
      * injection VK as -> _. exact MI.
  - destruct (ai_args ai) as [l|]; [|discriminate]. destruct (_ <? _); [|discriminate].
    match type of VA with var_args_loop ?a ?b ?c ?d ?e = _ => pose proof (var_args_ne a b c d e H1) as W end. now rewrite VA in W.
Qed.

Lemma dc_loop_ne c ai i ba bn ix fs a s : aine ai -> Forall (fun f => cvne (df_cv f)) fs -> ne (fst (dc_loop c ai i ba bn ix fs a s)).
Proof.
  intros M H. revert ix a s. induction H as [|f fs [Hf Hd] H IH]; intros ix a s; cbn [dc_loop]; [fin|].
  unfold rebind. destruct (ai_kwargs ai) as [[md n]|] eqn:KW; [specialize (M _ _ KW)|]; repeat first [apply IH | fin | brk].
Qed.
Lemma dc_extras_ne c es a s : opt_vne (dc_extras c) -> entries_ne es -> ne (fst (dc_extras_loop c es a s)).
Proof.
  intros H1. revert a s. induction es as [|en es IH]; intros a s B; [fin|].
  assert (IH' : forall er s, ne (fst (dc_extras_loop c es er s))). { intros. apply IH. intros x X. apply B. now right. }
  cbn [dc_extras_loop]. destruct en as [k kl v|e]; [|exact (B e (or_introl eq_refl))].
  destruct (dc_extras c) as [v1|]; [specialize (H1 _ eq_refl)|]; repeat first [apply IH' | fin | brk].
Qed.
Lemma dataclass_args_ne c va : Forall (fun f => cvne (df_cv f)) (dc_fields c) -> opt_vne (dc_extras c) -> (forall i, ne (va i)) -> (forall i ai, va i = VOk ai -> aine ai) ->
  vne (dataclass_args_validate c va).
Proof.
  intros H H1 HV HM i s. unfold dataclass_args_validate, rebind. specialize (HV i). destruct (va i) as [ai|e] eqn:V; [|exact HV]. pose proof (HM _ _ V) as M.
  match goal with |- context [dc_loop ?a ?b ?c ?d ?e ?f ?g ?h ?k] => pose proof (dc_loop_ne a b c d e f g h k M H) as N; destruct (dc_loop a b c d e f g h k) as [[a'|e'] s'] end; [|exact N].
  unfold dc_kwargs_stage. destruct (match ai_kwargs ai with Some _ => _ | None => _ end) as [[a3|e3] s3] eqn:VK.
  - unfold dc_finish. destruct (is_nil _) eqn:Z; [fin|exact (ne_nil _ _ Z)].
  - destruct (ai_kwargs ai) as [[md n]|] eqn:K; [|discriminate]. destruct (M _ _ K) as (_ & MI & ME). destruct (negb _); [|discriminate].
    destruct (md_iter md) as [es|e] eqn:IT.
    + match type of VK with dc_extras_loop ?a ?b ?c ?d = _ => pose proof (dc_extras_ne a b c d H1 (ME _ eq_refl)) as W end. now rewrite VK in W.
    + injection VK as -> _. exact MI.
Qed.

(** Inputs. *)
Lemma new_key_ne v : ne (new_key v). Proof. unfold new_key. repeat first [fin | brk]. Qed.
Lemma new_value_ne v : ne (new_value v). Proof. unfold new_value. repeat first [fin | brk]. Qed.
Lemma py_mdne repr d : mdne (py_mdict repr d).
Proof.
  split; [intros; exact I|]. split; [exact I|]. intros l [= <-] e X. apply in_map_iff in X. destruct X as (x & X & _). discriminate.
Qed.
Lemma json_mdne l : mdne (json_mdict l).
Proof.
  split; [intros; exact I|]. split; [exact I|]. intros x [= <-] e X. apply in_map_iff in X. destruct X as (y & X & _). discriminate.
Qed.
Lemma strings_mdne repr d : mdne (strings_mdict repr d).
Proof.
  split. { intros k. cbn. destruct (py_get_dict_item k d) as [[p v]|]; [|exact I]. pose proof (new_value_ne v) as H. destruct (new_value v); [exact I|exact H]. }
  split; [exact I|]. intros l [= <-] e X. apply in_map_iff in X. destruct X as (x & X & _).
  pose proof (new_key_ne (fst x)) as K. pose proof (new_value_ne (snd x)) as V. destruct (new_key _), (new_value _); try discriminate; injection X as <-; assumption.
Qed.
Lemma attr_mdne ga o kw : mdne (attr_mdict ga o kw).
Proof.
  split. { intros k. cbn. unfold py_get_attr. repeat first [fin | brk]. }
  split; [exact I|]. intros l [= <-] e [].
Qed.
Lemma validate_dict_ne repr b i : ne (validate_dict repr b i).
Proof. unfold validate_dict. repeat first [fin | brk]. Qed.
Lemma validate_dict_md repr b i md : validate_dict repr b i = VOk md -> mdne md.
Proof.
  unfold validate_dict. destruct i as [v|j|k|v].
  - destruct (dict_items v); [|discriminate]. intros [= <-]. apply py_mdne.
  - destruct j; try discriminate. intros [= <-]. apply json_mdne.
  - discriminate.
  - destruct (as_str v), (dict_items v); try discriminate. intros [= <-]. apply strings_mdne.
Qed.
Lemma validate_mf_ne repr ga a b i : ne (validate_model_fields repr ga a b i).
Proof. unfold validate_model_fields. repeat first [fin | apply validate_dict_ne | brk]. Qed.
Lemma validate_mf_md repr ga a b i md : validate_model_fields repr ga a b i = VOk md -> mdne md.
Proof.
  unfold validate_model_fields. destruct i as [v|j|k|v]; try apply validate_dict_md. destruct b; [|apply validate_dict_md].
  destruct (dict_items v); [intros [= <-]; apply py_mdne|]. destruct (from_attributes_applicable v); [intros [= <-]; apply attr_mdne|].
  destruct v as [| | | | | | |[|o [|kw [|]]]| | | | |]; try discriminate. destruct (dict_items kw); [|discriminate]. destruct (from_attributes_applicable o); [|discriminate]. intros [= <-]. apply attr_mdne.
Qed.
Lemma validate_args_ne repr i : ne (validate_args repr i).
Proof. unfold validate_args. repeat first [fin | brk]. Qed.
Lemma validate_args_md repr i ai : validate_args repr i = VOk ai -> aine ai.
Proof.
  unfold validate_args, aine. destruct i as [v|j|k|v].
  - destruct (dict_items v). { intros [= <-] ? ? [= <- _]. apply py_mdne. }
    destruct (as_args_kwargs v) as [[args [kw|]]|]. { intros [= <-] ? ? [= <- _]. apply py_mdne. } { intros [= <-] ? ? [=]. }
    destruct (strip v); try discriminate; intros [= <-]; discriminate.
  - destruct j; try discriminate; intros [= <-]; [discriminate|]. intros ? ? [= <- _]. apply json_mdne.
  - discriminate.
  - discriminate.
Qed.
Lemma validate_dargs_ne repr i : ne (validate_dataclass_args repr i).
Proof. unfold validate_dataclass_args. repeat first [fin | brk]. Qed.
Lemma validate_dargs_md repr i ai : validate_dataclass_args repr i = VOk ai -> aine ai.
Proof.
  unfold validate_dataclass_args, aine. destruct i as [v|j|k|v].
  - destruct (dict_items v). { intros [= <-] ? ? [= <- _]. apply py_mdne. }
    destruct (as_args_kwargs v) as [[args [kw|]]|]. { intros [= <-] ? ? [= <- _]. apply py_mdne. } { intros [= <-] ? ? [=]. } discriminate.
  - destruct j; try discriminate; intros [= <-]. intros ? ? [= <- _]. apply json_mdne.
  - discriminate.
  - destruct (as_str v), (dict_items v); try discriminate. intros [= <-] ? ? [= <- _]. apply strings_mdne.
Qed.
Lemma validate_list_ne b i : ne (validate_list b i). Proof. unfold validate_list, lax_sequence. repeat first [fin | brk]. Qed.
Lemma validate_tuple_ne b i : ne (validate_tuple b i). Proof. unfold validate_tuple, lax_sequence. repeat first [fin | brk]. Qed.
Lemma validate_set_ne b i : ne (validate_set b i). Proof. unfold validate_set, lax_sequence. repeat first [fin | brk]. Qed.
Lemma validate_frozenset_ne b i : ne (validate_frozenset b i). Proof. unfold validate_frozenset, lax_sequence. repeat first [fin | brk]. Qed.

(** Scalars. *)
Lemma accept_ne A (m : matched A) s k : ne m -> (forall a s, ne (fst (k a s))) -> ne (fst (accept m s k)).
Proof. intros M K. unfold accept. destruct m as [[a e]|e]; [apply K|exact M]. Qed.
Lemma lax_ne A (r : vres A) : ne r -> ne (lax r). Proof. now destruct r. Qed.
Lemma strictly_ne A (r : vres A) : ne r -> ne (strictly r). Proof. now destruct r. Qed.
Lemma maybe_ne v t : ne (maybe_as_string v t). Proof. unfold maybe_as_string. repeat first [fin | brk]. Qed.
Lemma maybe_err v t e : maybe_as_string v t = VErr e -> okv e.
Proof. intros E. pose proof (maybe_ne v t) as H. now rewrite E in H. Qed.
Ltac scalar := repeat first [fin | eapply maybe_err; eassumption | apply lax_ne | apply strictly_ne | brk].
Lemma bool_ne st : vne (bool_validate st).
Proof. intros i s. apply accept_ne; [|intros; fin]. unfold validate_bool, in_str_as_bool, in_int_as_bool. scalar. Qed.
Lemma int_ne md st c : vne (int_validate md st c).
Proof.
  intros i s. apply accept_ne.
  - unfold validate_int, in_str_as_int, in_float_as_int. scalar.
  - intros a s'. scalar.
Qed.
Lemma float_ne pf st c : vne (float_validate pf st c).
Proof.
  intros i s. apply accept_ne.
  - unfold validate_float, in_str_as_float. scalar.
  - intros a s'. scalar.
Qed.
Lemma str_ne ps fs tl tu c : (forall f, sc_pattern c = Some f -> raises_ordinary f) -> vne (str_validate ps fs tl tu c).
Proof.
  intros H i s. apply accept_ne.
  - unfold validate_str. scalar.
  - intros a s'. cbv beta zeta. destruct (sc_pattern c) as [f|]; [specialize (H _ eq_refl)|]; repeat first [fin | match goal with E : f _ = inr _ |- _ => exact (H _ _ E) end | brk].
Qed.
Lemma bytes_ne c : vne (bytes_validate c).
Proof.
  intros i s. apply accept_ne.
  - unfold validate_bytes, in_deserialize. scalar.
  - intros a s'. scalar.
Qed.
Lemma lk_err ps fs md lk i e : lk_validate ps fs md lk i = VErr e -> okv e.
Proof.
  unfold lk_validate. destruct (bool_slot _ _); [discriminate|]. destruct (int_slot _ _ _) as [[]|e'] eqn:IS; try discriminate.
  - destruct (str_slot _ _ _ _); [discriminate|]. destruct (pd_lookup _ _); [discriminate|]. destruct (values_slot _ _); discriminate.
  - intros [= ->]. unfold int_slot in IS. destruct (lk_int _); [discriminate|]. destruct (exact_int _ _) as [n|]; [|discriminate]. unfold into_i64 in IS. destruct (fits_i64 _); [discriminate|]. injection IS as <-. discriminate.
Qed.
Lemma literal_ne ps fs md l : vne (literal_validate ps fs md l).
Proof. intros i s. unfold literal_validate. repeat first [fin | eapply lk_err; eassumption | brk]. Qed.

(** Wrappers. *)
Lemma wd_ne n w : wd_on_error w <> OnOmit -> vne (wd_inner w) -> (forall d e, stored_default (wd_default_kind w) d = VErr e -> okv e) ->
  (forall i s r s', wd_validate n w i s = Some (r, s') -> ne r) /\
  (forall l s r s', default_value (wd_validate n w) w l s = Some (r, s') -> ne r).
Proof.
  intros NO H HF. assert (K : forall m, (forall i s r s', wd_validate m w i s = Some (r, s') -> ne r) -> forall l s r s', default_value (wd_validate m w) w l s = Some (r, s') -> ne r).
  { intros m V l s r s' D. unfold default_value in D. destruct (stored_default _ _) as [[d|]|e] eqn:S.
    - destruct (wd_validate_default w); [|injection D as <- <-; fin].
      destruct (wd_validate m w (IPy d) s) as [[[v|e] s1]|] eqn:E; [| |discriminate]; injection D as <- <-; [fin|].
      specialize (V _ _ _ _ E). destruct l; [apply okv_with_outer|]; exact V.
    - injection D as <- <-. fin.
    - injection D as <- <-. exact (HF _ _ S). }
  assert (V : forall i s r s', wd_validate n w i s = Some (r, s') -> ne r); [|split; [exact V|exact (K n V)]].
  induction n as [|n IH]; [discriminate|]. intros i s r s' E. cbn [wd_validate] in E.
  assert (U : forall e s1, okv e -> match default_value (wd_validate n w) w None s1 with
       | None => None | Some (VErr e', s') => Some (VErr e', s') | Some (VOk (Some v), s') => Some (VOk v, s') | Some (VOk None, s') => Some (VErr e, s') end = Some (r, s') -> ne r).
  { clear E. intros e s1 NE X. destruct (default_value (wd_validate n w) w None s1) as [[[[v|]|e'] s2]|] eqn:D; [| | |discriminate]; injection X as <- <-; [fin|exact NE|].
    exact (K n IH _ _ _ _ D). }
  destruct (is_undefined i); [apply (U Panic s); [fin|exact E]|].
  pose proof (H i s) as N. destruct (wd_inner w i s) as [[v|[es| | | |]] s1].
  - injection E as <- <-. fin.
  - destruct (wd_on_error w); [injection E as <- <-; exact N|now destruct NO|exact (U _ _ N E)].
  - destruct (wd_on_error w); [injection E as <- <-; exact N|now destruct NO|exact (U _ _ N E)].
  - destruct (wd_on_error w); [injection E as <- <-; exact N|now destruct NO|exact (U _ _ N E)].
  - destruct N.
  - injection E as <- <-. fin.
Qed.
Lemma wd_cv_ne n w : wd_on_error w <> OnOmit -> vne (wd_inner w) -> (forall d e, stored_default (wd_default_kind w) d = VErr e -> okv e) -> cvne (wd_cv n w).
Proof.
  intros NO H HF. destruct (wd_ne n w NO H HF) as [A B]. split.
  - intros i s. cbn. destruct (wd_validate n w i s) as [[r s']|] eqn:E; [exact (A _ _ _ _ E)|fin].
  - intros l s. cbn. destruct (default_value _ w l s) as [[r s']|] eqn:E; [exact (B _ _ _ _ E)|fin].
Qed.
Lemma chain_ne l : Forall vne l -> vne (chain_validate l).
Proof.
  intros H. assert (R : forall steps, Forall vne steps -> forall v s, ne (fst (chain_rest steps v s))).
  { clear. induction 1 as [|x l Hx H IH]; intros v s; cbn [chain_rest]; [fin|]. specialize (Hx (IPy v) s). destruct (x (IPy v) s) as [[w|e] s']; [apply IH|exact Hx]. }
  intros i s. destruct H as [|x l Hx H]; cbn; [fin|]. specialize (Hx i s). destruct (x i s) as [[w|e] s']; [apply R, H|exact Hx].
Qed.
Lemma lax_or_strict_ne b l t : vne l -> vne t -> vne (lax_or_strict b l t).
Proof. intros L T i s. unfold lax_or_strict. destruct (strict_or s b); [apply T|]. destruct (st_exactness s); [|apply L]. destruct (t i s) as [[v|[]] s']; try apply L; fin. Qed.
Lemma convert_err_ne e i : ordinary e -> okv (convert_err e i).
Proof. intros H. destruct e as [| | | | |[|]| | |]; try exact I; try discriminate; contradiction H. Qed.
Lemma call_fun_ne (f : pyfun) own v i s : (forall v inf e, f v inf = inr e -> ordinary e) -> ne (call_fun f own v i s).
Proof. intros H. unfold call_fun. destruct (f v _) as [w|e] eqn:E; [fin|]. apply convert_err_ne. exact (H _ _ _ E). Qed.
Lemma run_wrap_ne inner s p e x r : vne inner -> wrap_ordinary p -> run_wrap inner s p e = (Some (inr x), r) -> ordinary x.
Proof.
  intros V W. revert e. induction W as [v|ex N|v l k H IH]; intros e R; cbn [run_wrap] in R.
  - discriminate.
  - injection R as <- <-. exact N.
  - pose proof (V (IPy v) (handler_state s e)) as N. destruct (inner _ _) as [[w|err] s'].
    + apply (IH (inl w)) in R; [exact R|]. discriminate.
    + destruct (to_exception l err) as [ex|] eqn:T; [|discriminate]. apply (IH (inr ex)) in R; [exact R|].
      intros e' [= <-]. unfold to_exception in T. destruct err as [es|e0| | |]; try discriminate.
      * injection T as <-. cbn in N. destruct l; destruct es; try exact I; now apply N.
      * injection T as <-. exact N.
      * destruct N.
      * destruct N.
Qed.
Lemma function_wrap_ne f own inner : vne inner -> (forall v inf, wrap_ordinary (f v inf)) -> vne (function_wrap f own inner).
Proof.
  intros V W i s. unfold function_wrap. destruct (run_wrap _ _ _ _) as [[[v|x]|] e] eqn:R; try fin.
  apply convert_err_ne. exact (run_wrap_ne _ _ _ _ _ _ V (W _ _) R).
Qed.
Lemma custom_error_ne t inner : vne (custom_error t inner).
Proof. intros i s. unfold custom_error. repeat first [fin | brk]. Qed.

(** Unions. *)
Lemma flat_ne (errs : member_errors) : errs <> [] -> Forall (fun e => snd e <> []) errs -> flat_map (fun e => map (with_outer (LStr (fst e))) (snd e)) errs <> [].
Proof. intros N F. destruct F as [|x l X F]; [easy|]. cbn. destruct (snd x); [easy|]. discriminate. Qed.
Lemma smart_ne custom cs : cs <> [] -> Forall (fun c => vne (ch_validator c)) cs -> vne (validate_smart custom cs).
Proof.
  intros NE H i s. unfold validate_smart.
  assert (L : forall oe on cs, Forall (fun c => vne (ch_validator c)) cs -> forall best errs s,
     (custom = None -> best = None -> errs <> [] \/ cs <> []) -> Forall (fun e => snd e <> []) errs ->
     match smart_loop custom oe on cs i best errs s with
     | Returned r _ => ne r | Tried b er _ => b = None -> custom = None -> flat_map (fun e => map (with_outer (LStr (fst e))) (snd e)) er <> [] end).
  { clear NE H cs s. intros oe on. induction 1 as [|c cs Hc H IH]; intros best errs s NE F; cbn [smart_loop].
    - intros B C. apply flat_ne; [|exact F]. destruct (NE C B) as [X|X]; [exact X|easy].
    - destruct (ch_validator c i _) as [[v|[lines| | | |]] s1] eqn:E; try fin.
      + assert (K : forall b s, b <> None -> match smart_loop custom oe on cs i b errs s with
           | Returned r _ => ne r | Tried b er _ => b = None -> custom = None -> flat_map (fun e => map (with_outer (LStr (fst e))) (snd e)) er <> [] end).
        { intros b s2 NB. apply IH; [|exact F]. intros _ X. now rewrite X in NB. }
        assert (NB : forall e n, (if replaces best e n then Some (v, e, n) else best) <> None).
        { intros e n. destruct best as [[[a b] d]|]; [destruct (replaces _ _ _); discriminate|cbn; discriminate]. }
        destruct (st_exactness s1) as [[]|], (st_fields_set s1); try exact I; apply K, NB.
      + apply IH; destruct best as [b|]; try (intros _ X; discriminate X); try exact F.
        * intros C _. left. unfold push_errors. rewrite C. intros X. now destruct errs.
        * unfold push_errors. destruct custom; [exact F|]. apply Forall_app. split; [exact F|]. constructor; [|constructor]. exact (vne_err _ _ _ _ _ Hc E). }
  specialize (L (st_exactness s) (st_fields_set s) cs H None [] s (fun _ _ => or_intror NE) (Forall_nil _)).
  destruct (smart_loop _ _ _ _ _ _ _ _) as [[[[v e] n]|] errs s1|r s1]; [fin| |exact L].
  unfold into_val_error. destruct custom; [fin|]. exact (L eq_refl eq_refl).
Qed.
Lemma ltr_ne custom cs : cs <> [] -> Forall (fun c => vne (ch_validator c)) cs -> vne (validate_left_to_right custom cs).
Proof.
  intros NE H i s. unfold validate_left_to_right.
  assert (L : forall cs, Forall (fun c => vne (ch_validator c)) cs -> forall errs s, (custom = None -> errs <> [] \/ cs <> []) -> Forall (fun e => snd e <> []) errs -> ne (fst (ltr_loop custom cs i errs s))).
  { clear NE H cs s. induction 1 as [|c cs Hc H IH]; intros errs s NE F; cbn [ltr_loop].
    - unfold into_val_error. destruct custom; [fin|]. apply flat_ne; [|exact F]. now destruct (NE eq_refl).
    - destruct (ch_validator c i s) as [[v|[lines| | | |]] s1] eqn:E; try fin. apply IH.
      + intros C. left. unfold push_errors. rewrite C. intros X. now destruct errs.
      + unfold push_errors. destruct custom; [exact F|]. apply Forall_app. split; [exact F|]. constructor; [|constructor]. exact (vne_err _ _ _ _ _ Hc E). }
  apply L; [exact H|auto|constructor].
Qed.
Lemma find_call_ne repr ps fs md custom choices tag : Forall (fun c => vne (snd c)) choices -> vne (find_call_validator repr ps fs md custom choices tag).
Proof.
  intros H i s. unfold find_call_validator. destruct (lk_validate _ _ _ _ _) as [[id|]|]; [|destruct custom; fin|destruct custom; fin].
  destruct (nth_error choices id) as [[t v]|] eqn:E; [|fin]. apply nth_error_In in E. rewrite Forall_forall in H. specialize (H _ E). cbn in H.
  destruct (v i s) as [[x|e] s'] eqn:V; [fin|]. apply okv_with_outer. exact (vne_err _ _ _ _ _ H V).
Qed.
Lemma tagged_ne repr ga ps fs md d fa custom choices : Forall (fun c => vne (snd c)) choices -> (forall f, d = DFunction f -> raises_ordinary f) ->
  vne (tagged_union_validate repr ga ps fs md d fa custom choices).
Proof.
  intros H D i s. unfold tagged_union_validate, tag_not_found. destruct d as [k|f].
  - match goal with |- context [validate_model_fields ?a ?b ?c ?d ?e] => pose proof (validate_mf_ne a b c d e) as N; pose proof (validate_mf_md a b c d e) as M; destruct (validate_model_fields a b c d e) as [m|] end; [|exact N].
    specialize (M _ eq_refl). repeat first [fin | apply (find_call_ne repr ps fs md custom choices _ H) | brk].
  - specialize (D _ eq_refl). destruct (f (input_object i)) as [t|e] eqn:F; [|exact (D _ _ F)].
    destruct t; try apply (find_call_ne repr ps fs md custom choices _ H). destruct custom; fin.
Qed.

(** Classes. *)
Lemma inst_attr_err v n e : inst_attr v n = VErr e -> okv e.
Proof. unfold inst_attr. destruct v; try (intros [= <-]; exact I). destruct (assoc _ _); [discriminate|]. intros [= <-]. exact I. Qed.
Lemma inst_to_dict_err names v d e : inst_to_dict names v d = VErr e -> okv e.
Proof. revert d. induction names as [|n names IH]; intros d; cbn; [discriminate|]. destruct (inst_attr v n) eqn:E; [apply IH|]. intros [= <-]. exact (inst_attr_err _ _ _ E). Qed.
Lemma model_data_err r v e : model_data r v = VErr e -> okv e.
Proof.
  unfold model_data. destruct r; [apply inst_attr_err|].
  destruct (inst_attr v dunder_dict) as [d|] eqn:A; [|intros [= <-]; exact (inst_attr_err _ _ _ A)].
  destruct (inst_attr v dunder_extra) as [x|] eqn:B; [|intros [= <-]; exact (inst_attr_err _ _ _ B)].
  destruct x; try discriminate; repeat (match goal with |- context [match ?y with _ => _ end] => destruct y end; try discriminate); intros [= <-]; exact I.
Qed.
Lemma call_post_init_ne f inst i : (forall g, f = Some g -> raises_ordinary g) -> ne (call_post_init f inst i).
Proof. intros H. unfold call_post_init. destruct f as [g|]; [|fin]. destruct (g inst) eqn:E; [fin|]. apply convert_err_ne. exact (H _ eq_refl _ _ E). Qed.
Lemma build_model_err c ex out e : build_model c ex out = VErr e -> okv e.
Proof. unfold build_model. repeat (match goal with |- context [match ?y with _ => _ end] => destruct y end; try discriminate); intros [= <-]; exact I. Qed.
Lemma model_ne sub c inner : vne inner -> (forall f, mo_custom_init c = Some f -> raises_ordinary f) -> (forall f, mo_post_init c = Some f -> raises_ordinary f) ->
  vne (model_validate sub c inner).
Proof.
  intros H HC HP. assert (K : forall i ex s, ne (fst (model_construct c inner i ex s))).
  { intros i ex s. unfold model_construct, rebind.
    destruct (match mo_custom_init c with Some _ => _ | None => _ end) as [[v|e]|] eqn:CI; [fin| |].
    - destruct (mo_custom_init c) as [f|]; [|discriminate]. destruct (as_kwargs i); [|discriminate]. injection CI as CI. apply convert_err_ne. exact (HC _ eq_refl _ _ CI).
    - destruct (mo_root c).
      + destruct (inner i _) as [[v|e] s'] eqn:E; [apply call_post_init_ne, HP|exact (vne_err _ _ _ _ _ H E)].
      + destruct (inner i _) as [[v|e] s'] eqn:E; [|exact (vne_err _ _ _ _ _ H E)]. destruct (build_model c ex v) eqn:B; [apply call_post_init_ne, HP|exact (build_model_err _ _ _ _ B)]. }
  intros i s. unfold model_validate. destruct (instance_input _ _ _ _) as [[v force]|]; [|apply K].
  destruct (_ || force); [|fin]. destruct (inst_attr v _) eqn:A; [|exact (inst_attr_err _ _ _ A)]. destruct (model_data _ v) eqn:D; [apply K|exact (model_data_err _ _ _ D)].
Qed.
Lemma dataclass_ne sub c inner : vne inner -> (forall f, da_post_init c = Some f -> forall v l e, f v l = inr e -> ordinary e) ->
  vne (dataclass_validate sub c inner).
Proof.
  intros H HP. assert (K : forall out i, ne (set_dict_call c out i)).
  { intros out i. unfold set_dict_call. destruct (da_post_init c) as [f|]; [specialize (HP _ eq_refl)|].
    all: repeat first [fin | brk]; apply convert_err_ne; eapply HP; eassumption. }
  intros i s. unfold dataclass_validate. destruct (instance_input _ _ _ _) as [[v force]|].
  - destruct (_ || force); [|fin]. destruct (inst_to_dict _ v _) as [d|] eqn:D; [|exact (inst_to_dict_err _ _ _ _ D)].
    destruct (inner _ s) as [[out|e] s'] eqn:E; [apply K|exact (vne_err _ _ _ _ _ H E)].
  - destruct (_ && _); [fin|]. destruct (inner _ s) as [[out|e] s'] eqn:E; [apply K|exact (vne_err _ _ _ _ _ H E)].
Qed.

Lemma any_ne : vne any_validate. Proof. intros i s. exact I. Qed.
Lemma none_ne : vne none_validate. Proof. intros i s. unfold none_validate. repeat first [fin | brk]. Qed.
Lemma nullable_ne v : vne v -> vne (nullable v).
Proof. intros H i s. unfold nullable. destruct (is_none_input i); [fin|apply H]. Qed.
Lemma json_or_python_ne j p : vne j -> vne p -> vne (json_or_python j p).
Proof. intros H K i s. unfold json_or_python. destruct (x_input_type _); auto. Qed.
Lemma is_instance_ne sub c : vne (is_instance_validate sub c).
Proof. intros i s. unfold is_instance_validate. repeat first [fin | brk]. Qed.
Lemma before_ne f own v : (forall v inf e, f v inf = inr e -> ordinary e) -> vne v -> vne (function_before f own v).
Proof. intros F H i s. unfold function_before. pose proof (call_fun_ne f own (input_object i) i s F) as N. destruct (call_fun _ _ _ _ _); [apply H|exact N]. Qed.
Lemma after_ne f own v : (forall v inf e, f v inf = inr e -> ordinary e) -> vne v -> vne (function_after f own v).
Proof. intros F H i s. unfold function_after. pose proof (H i s) as N. destruct (v i s) as [[w|e] s']; [apply call_fun_ne, F|exact N]. Qed.
Lemma plain_ne f own : (forall v inf e, f v inf = inr e -> ordinary e) -> vne (function_plain f own).
Proof. intros F i s. unfold function_plain. apply call_fun_ne, F. Qed.

Lemma opt_vne_map (f : schema -> cv) o : (forall c, In c (opt_list o) -> cvne (f c)) -> opt_vne (option_map (fun sc => cv_validate (f sc)) o).
Proof. intros H v E. destruct o as [x|]; [|discriminate]. injection E as <-. apply H. now left. Qed.
Lemma Forall_map_in A B (f : A -> B) (Q : B -> Prop) l : (forall x, In x l -> Q (f x)) -> Forall Q (map f l).
Proof. intros H. rewrite Forall_forall. intros y Y. apply in_map_iff in Y. destruct Y as (x & <- & X). auto. Qed.

Lemma dict_entries_ne repr b i : ne (dict_entries repr b i).
Proof.
  unfold dict_entries. pose proof (validate_dict_ne repr b i) as N. destruct (validate_dict repr b i) as [md|] eqn:E; [|exact N].
  apply (validate_dict_md repr b i md E).
Qed.
Lemma dict_entries_md repr b i l : dict_entries repr b i = VOk l -> entries_ne l.
Proof.
  unfold dict_entries. destruct (validate_dict repr b i) as [md|] eqn:E; [|discriminate]. intros M. exact (proj2 (proj2 (validate_dict_md repr b i md E)) _ M).
Qed.

Lemma eval_ne E ref : (forall k, cvne (ref k)) -> forall sc, everywhere orderly sc -> cvne (eval E ref sc).
Proof.
  intros R. apply (schema_children_ind (fun sc => everywhere orderly sc -> cvne (eval E ref sc))).
  intros sc IH W. destruct W as [sc P W].
  assert (C : forall c, In c (children sc) -> cvne (eval E ref c)) by auto. clear IH W.
  destruct sc; cbn [eval children orderly] in *; try apply no_default_ne.
  - apply any_ne.
  - apply none_ne.
  - apply bool_ne.
  - apply int_ne.
  - apply float_ne.
  - now apply str_ne.
  - apply bytes_ne.
  - apply literal_ne.
  - apply is_instance_ne.
  - apply list_ne; [|intros; apply validate_list_ne]. exact (opt_vne_map _ _ C).
  - apply set_ne; [apply C; now left|]. destruct frozen; [apply validate_frozenset_ne|apply validate_set_ne].
  - apply tuple_ne; [|apply validate_tuple_ne]. apply Forall_map_in, C.
  - apply dict_ne; [apply C; now left|apply C; right; now left|apply dict_entries_ne|apply dict_entries_md].
  - apply nullable_ne, C. now left.
  - apply wd_cv_ne; [exact (proj2 P)|apply C; now left|]. destruct P as [P _]. intros d e. cbn. destruct k as [| |f td]; cbn [stored_default]; try discriminate.
    destruct (f _) eqn:F; [discriminate|]. intros [= <-]. exact (P _ _ F).
  - apply chain_ne. apply Forall_map_in. intros x X. now apply C.
  - apply json_or_python_ne; apply C; [now left|right; now left].
  - apply lax_or_strict_ne; apply C; [now left|right; now left].
  - apply custom_error_ne.
  - apply before_ne; [exact P|apply C; now left].
  - apply after_ne; [exact P|apply C; now left].
  - apply plain_ne, P.
  - apply function_wrap_ne; [apply C; now left|exact P].
  - assert (F : Forall (fun c => vne (ch_validator c)) (map (fun cl => {| ch_validator := cv_validate (eval E ref (fst cl)); ch_label := snd cl |}) choices)).
    { apply Forall_map_in. intros x X. cbn. apply C. now apply in_map. }
    destruct mode; [apply smart_ne|apply ltr_ne]; try exact F; now destruct choices.
  - apply tagged_ne; [|intros f ->; exact P]. apply Forall_map_in. intros x X. cbn. apply C. now apply in_map.
  - apply model_fields_ne; cbn.
    + apply Forall_map_in. intros x X. cbn. apply C, in_or_app. left. now apply in_map.
    + apply opt_vne_map. intros x X. apply C, in_or_app. right. apply in_or_app. now left.
    + apply opt_vne_map. intros x X. apply C, in_or_app. right. apply in_or_app. now right.
    + apply validate_mf_ne.
    + apply validate_mf_md.
  - apply typed_dict_ne; cbn.
    + apply Forall_map_in. intros x X. cbn. apply C, in_or_app. left. now apply in_map.
    + apply opt_vne_map. intros x X. apply C, in_or_app. now right.
    + apply validate_dict_ne.
    + apply validate_dict_md.
  - apply arguments_ne; cbn.
    + apply Forall_map_in. intros x X. cbn. apply C, in_or_app. left. now apply in_map.
    + apply opt_vne_map. intros x X. apply C, in_or_app. right. apply in_or_app. now left.
    + apply opt_vne_map. intros x X. apply C, in_or_app. right. apply in_or_app. now right.
    + apply validate_args_ne.
    + apply validate_args_md.
  - apply dataclass_args_ne; cbn.
    + apply Forall_map_in. intros x X. cbn. apply C, in_or_app. left. now apply in_map.
    + apply opt_vne_map. intros x X. apply C, in_or_app. now right.
    + apply validate_dargs_ne.
    + apply validate_dargs_md.
  - apply model_ne; [apply C; now left|apply P|apply P].
  - apply dataclass_ne; [apply C; now left|exact P].
  - apply R.
Qed.
Lemma refs_ne E defs : (forall k d, defs k = Some d -> everywhere orderly d) -> forall fuel depth k, cvne (refs E defs fuel depth k).
Proof.
  intros D. induction fuel as [|fuel IH]; intros depth k; cbn [refs]; [split; intros ? ?; fin|].
  destruct (defs k) as [sc|] eqn:K; [|split; intros ? ?; fin].
  assert (V : forall d, cvne (eval E (refs E defs fuel d) sc)) by (intros d; apply eval_ne; [apply IH|exact (D _ _ K)]).
  split; [|apply V]. intros i s. cbn [cv_validate]. destruct i; try (destruct (_ <=? _); [fin|]); apply V.
Qed.
Lemma run_ne E defs fuel sc : holds_of orderly defs sc -> vne (run E defs fuel sc).
Proof. intros [A B]. apply eval_ne; [|exact A]. apply refs_ne, B. Qed.

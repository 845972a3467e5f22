From Coq Require Import List NArith ZArith Bool Lia.
From Verif Require Import Base Float64 IntParse Numbers BytesCodec Values VState LookupKey Collections Child Inputs Scalars Literal Wrappers Union TaggedUnion Tuple ModelFields TypedDict Assign Arguments Classes Interp InterpSpec InterpProofs StrictSpec LooseSpec LooseQuiet.
Import ListNotations.
Open Scope nat_scope.

(** ** What surrounds a value stays what it was *)
(** Mode, options and data are after a validation what they were before. *)
Definition off (a s : state) : Prop := st_extra s = st_extra a.
Definition keeps (v : validator) : Prop := forall i s, off s (snd (v i s)).
Definition dkeeps (f : option loc_item -> state -> vres (option pyval) * state) : Prop := forall l s, off s (snd (f l s)).
Definition ckeeps (v : cv) : Prop := keeps (cv_validate v) /\ dkeeps (cv_default v).

Lemma keeps_use v i s r t : keeps v -> v i s = (r, t) -> st_extra t = st_extra s.
Proof. intros K E. specialize (K i s). now rewrite E in K. Qed.
Lemma dkeeps_use (f : option loc_item -> state -> vres (option pyval) * state) i s r t : dkeeps f -> f i s = (r, t) -> st_extra t = st_extra s.
Proof. intros K E. specialize (K i s). now rewrite E in K. Qed.
Lemma floor_extra e s : st_extra (floor_exactness e s) = st_extra s.
Proof. unfold floor_exactness. destruct (st_exactness s) as [[]|]; auto. destruct e; auto. Qed.
Ltac go := solve [unfold off in *;
  repeat match goal with
  | H : keeps ?v, E : ?v ?i ?s = (_, ?t) |- _ => apply (keeps_use _ _ _ _ _ H) in E
  | H : dkeeps ?v, E : ?v ?i ?s = (_, ?t) |- _ => apply (dkeeps_use _ _ _ _ _ H) in E
  end; cbn [fst snd st_extra set_extra set_partial set_fields_set add_fields_set set_exactness] in *; rewrite ?floor_extra in *; cbn [fst snd st_extra set_extra set_partial set_fields_set add_fields_set set_exactness] in *; congruence].
Ltac vi H := eapply eq_trans; [apply H|go].
Ltac vix H K := eapply eq_trans; [apply H; exact K|go].

Lemma vec_off child ff p mc items out errs s : keeps child -> off s (snd (vec_loop child ff p mc out errs items s)).
Proof.
  intros K. revert mc out errs s. induction items as [|[[ix lp] it] items IH]; intros mc out errs s; cbn [vec_loop]; [go|].
  repeat first [vi IH | go | brk].
Qed.
Lemma list_off c child vl : (forall v, child = Some v -> keeps v) -> keeps (list_validate c child vl).
Proof.
  intros K i s. unfold list_validate, validate_iter_to_vec. destruct (vl _ i) as [sq|e]; [|go]. destruct child as [v|].
  - match goal with |- context [vec_loop ?a ?b ?p ?d ?e ?f ?g ?h] => pose proof (vec_off a b p d g e f h (K _ eq_refl)) as N; destruct (vec_loop a b p d e f g h) as [[out|er] s'] end; cbn [snd] in N; repeat first [go | brk].
  - repeat first [go | brk].
Qed.
Lemma set_loop_off child ff c i0 mx p items set errs s : keeps child -> off s (snd (set_loop child ff c i0 mx p set errs items s)).
Proof.
  intros K. revert set errs s. induction items as [|[[ix lp] it] items IH]; intros set errs s; cbn [set_loop]; [go|].
  destruct it as [x|]; [|go]. unfold validate_add.
  assert (L : forall st er t, st_extra t = st_extra s -> off s (snd (if ff && negb (is_nil er) then (VErr (LineErrors er), t) else set_loop child ff c i0 mx p st er items t))).
  { intros st er t T. destruct (_ && _); [exact T|]. eapply eq_trans; [apply IH|exact T]. }
  destruct (child x _) as [[v|[es| | | |]] s'] eqn:E; try (apply L; go); try go.
  destruct (hashable v); [|apply L; go]. destruct mx; [|apply L; go]. destruct (_ <? _); [go|apply L; go].
Qed.
Lemma set_off fz c child vl : keeps child -> keeps (set_validate fz c child vl).
Proof.
  intros K i s. unfold set_validate, validate_iter_to_set. destruct (vl _ i) as [sq|e]; [|go].
  match goal with |- context [set_loop ?a ?b ?c ?d ?e ?p ?g ?h ?i ?j] => pose proof (set_loop_off a b c d e p i g h j K) as N; destruct (set_loop a b c d e p g h i j) as [[out|er] s'] end; cbn [snd] in N; repeat first [go | brk].
Qed.
Lemma dict_loop_off kv vv p items out errs s : keeps kv -> keeps vv -> off s (snd (dict_loop kv vv p out errs items s)).
Proof.
  intros K V. revert out errs s. induction items as [|[[ix lp] en] items IH]; intros out errs s; cbn [dict_loop]; [go|].
  destruct en as [key kl value|e]; [|go]. unfold set_item. repeat first [vi IH | go | brk].
Qed.
Lemma dict_off c kv vv vd : keeps kv -> keeps vv -> keeps (dict_validate c kv vv vd).
Proof.
  intros K V i s. unfold dict_validate. destruct (vd _ i) as [es|e]; [|go].
  match goal with |- context [dict_loop ?a ?b ?p ?d ?e ?f ?g] => pose proof (dict_loop_off a b p f d e g K V) as N; destruct (dict_loop a b p d e f g) as [[[out|er] errs] s'] end; cbn [snd] in N; repeat first [go | brk].
Qed.

Definition toff (z : state) (r : tres) : Prop := match r with TFail _ s => off z s | TDone a => off z (ta_state a) end.
Section TupleOff.
Variable z : state. Variable c : tuple_cfg. Variable i : input. Variable actual : option nat.
Lemma push_off v s a : off z s -> toff z (push_output_item c i actual v s a).
Proof. intros O. unfold push_output_item. cbv zeta. repeat first [exact O | brk]. Qed.
Lemma use_off ix r a : off z (snd r) -> toff z (use_item c i actual ix r a).
Proof. destruct r as [[v|[es| | | |]] s]; cbn [snd use_item]; intros H; try exact H. now apply push_off. Qed.
Lemma titems_off vs a : Forall ckeeps vs -> off z (ta_state a) -> toff z (tuple_items c i actual vs a).
Proof.
  intros H. revert a. induction H as [|v vs [Hv Hd] H IH]; intros a O; cbn [tuple_items]; [exact O|].
  match goal with |- toff z (match ?st with TDone _ => _ | TFail _ _ => _ end) => assert (S : toff z st) end.
  { destruct (ti_next _) as [[x|] it']; [apply use_off; eapply eq_trans; [apply Hv|exact O]|]. specialize (Hd (Some (index_loc (ta_count (ta_move it' a) - 1))) (ta_state (ta_move it' a))). pose proof (eq_trans Hd O : off z _) as Hd'; clear Hd; rename Hd' into Hd. cbv zeta. destruct (cv_default v _ _) as [[[w|]|e] s']; exact Hd. }
  match goal with |- toff z (match ?st with TDone _ => _ | TFail _ _ => _ end) => destruct st as [a'|e s] end; [|exact S].
  destruct (stop_now c a'); [exact S|now apply IH].
Qed.
Lemma trest_off v rest a : ckeeps v -> off z (ta_state a) -> toff z (tuple_rest c i actual v rest a).
Proof.
  intros [H _]. revert a. induction rest as [|it rest IH]; intros a O; cbn [tuple_rest]; [exact O|]. destruct it as [x|]; [|exact O].
  pose proof (use_off (ta_count a) (cv_validate v x (ta_state a)) (ta_move (snd (ti_next (ta_iter a))) a) (eq_trans (H _ _) O)) as U. destruct (use_item _ _ _ _ _ _) as [a'|]; [|exact U].
  destruct (stop_now _ _); [exact U|now apply IH].
Qed.
Lemma tbuf_off v rest buf ix a : ckeeps v -> off z (ta_state a) -> match tuple_buffered c i actual v rest buf ix a with BReturn r => toff z r | BEnd a _ _ => off z (ta_state a) end.
Proof.
  intros [H _]. revert buf ix a. induction rest as [|it rest IH]; intros buf ix a O; cbn [tuple_buffered]; [exact O|]. destruct it as [x|]; [|exact O].
  destruct (buf ++ [x]) as [|y buf']; [exact O|].
  pose proof (use_off (ta_count a) (cv_validate v y (ta_state a)) (ta_move (snd (ti_next (ta_iter a))) a) (eq_trans (H _ _) O)) as U. destruct (use_item _ _ _ _ _ _) as [a'|]; [|exact U].
  destruct (stop_now _ _); [exact U|now apply IH].
Qed.
Lemma tvar_off a : Forall ckeeps (tu_validators c) -> off z (ta_state a) -> toff z (tuple_variable c i actual a).
Proof.
  intros H O. assert (D : forall vs, incl vs (tu_validators c) -> forall a, off z (ta_state a) -> toff z (tuple_items c i actual vs a)).
  { intros vs I a0. apply titems_off. rewrite Forall_forall in *. intros x X. apply H, I, X. }
  unfold tuple_variable. destruct (tu_variadic c) as [k|].
  - destruct (skipn k (tu_validators c)) as [|v tail] eqn:S; [exact O|].
    assert (I1 : incl (firstn k (tu_validators c)) (tu_validators c)). { intros x X. rewrite <- (firstn_skipn k (tu_validators c)). apply in_or_app. now left. }
    assert (I2 : incl (v :: tail) (tu_validators c)). { intros x X. rewrite <- (firstn_skipn k (tu_validators c)), S. apply in_or_app. now right. }
    assert (I3 : incl tail (tu_validators c)). { intros x X. apply I2. now right. }
    assert (Hv : ckeeps v). { rewrite Forall_forall in H. apply H, I2. now left. }
    pose proof (D _ I1 a O) as T. destruct (tuple_items _ _ _ _ _) as [a1|]; [|exact T].
    destruct (stop_now c a1); [exact T|]. destruct tail as [|w tail'] eqn:ET; [exact (trest_off _ _ _ Hv T)|].
    destruct (ti_take _ _) as [buf it]. match goal with |- context [tuple_buffered ?a ?b ?c ?d ?e ?f ?g ?h] => pose proof (tbuf_off d e f g h Hv T) as B; destruct (tuple_buffered a b c d e f g h) as [a3 buf' ix|r] end; [|exact B].
    match goal with |- context [tuple_items ?a ?b ?c ?d ?e] => pose proof (D _ I3 e B) as T2; destruct (tuple_items a b c d e) end; exact T2.
  - pose proof (D _ (incl_refl _) a O) as T. destruct (tuple_items _ _ _ _ _) as [a1|]; [|exact T]. destruct (stop_now c a1); [exact T|].
    destruct (ti_next _) as [[x|] it']; exact T.
Qed.
End TupleOff.
Lemma tuple_off c vt : Forall ckeeps (tu_validators c) -> keeps (tuple_validate c vt).
Proof.
  intros H i s. unfold tuple_validate. match goal with |- context [vt ?b i] => destruct (vt b i) as [sq|e] end; [|go].
  match goal with |- context [tuple_variable ?a ?b ?c ?d] => pose proof (tvar_off s a b c d H ltac:(cbn [ta_state]; go)) as N; destruct (tuple_variable a b c d) as [a'|e s'] end; [|exact N].
  cbn [toff] in N. repeat first [go | brk].
Qed.

Definition opt_keeps (o : option validator) : Prop := forall v, o = Some v -> keeps v.
Lemma extras_off c used es out errors fset s : opt_keeps (fc_extras c) -> opt_keeps (fc_extras_keys c) -> off s (snd (extras_loop c used es out errors fset s)).
Proof.
  intros H1 H2. revert out errors fset s. induction es as [|en es IH]; intros out errors fset s; [exact eq_refl|].
  cbn [extras_loop]. destruct en as [k kl v|e]; [|go].
  destruct (fc_extras c) as [v1|]; [specialize (H1 _ eq_refl)|]; (destruct (fc_extras_keys c) as [v2|]; [specialize (H2 _ eq_refl)|]); repeat first [vi IH | go | brk].
Qed.
Lemma model_fields_off c vm : Forall (fun f => ckeeps (f_cv f)) (fc_fields c) -> opt_keeps (fc_extras c) -> opt_keeps (fc_extras_keys c) -> keeps (model_fields_validate c vm).
Proof.
  intros H H1 H2 i s. unfold model_fields_validate, rebind.
  match goal with |- context [vm ?a ?b i] => destruct (vm a b i) as [md|e] eqn:V end; [|destruct e; go].
  match goal with |- context [fields_loop ?a ?b ?c ?d ?e ?f ?g ?h] => destruct (fields_loop a b c d e f g h) as [[a'|e'] s'] end; [|go].
  destruct (extra_behavior_eqb _ _ || _); [repeat first [go | brk]|].
  destruct (md_iter md) as [es|e] eqn:IT; [|go].
  match goal with |- context [extras_loop ?a ?b ?c ?d ?e ?f ?g] => pose proof (extras_off a b c d e f g H1 H2) as N2; destruct (extras_loop a b c d e f g) as [[[[out errs] fset]|e'] s''] end; cbn [snd] in N2; repeat first [go | brk].
Qed.
Lemma td_extras_off c used last pp es out errors s : opt_keeps (fc_extras c) -> off s (snd (td_extras c used last pp es out errors s)).
Proof.
  intros H1. revert out errors s. induction es as [|en es IH]; intros out errors s; [exact eq_refl|].
  cbn [td_extras]. destruct en as [k kl v|e]; [|go].
  destruct (fc_extras c) as [v1|]; [specialize (H1 _ eq_refl)|]; repeat first [vi IH | go | brk].
Qed.
Lemma typed_dict_off c vm : Forall (fun f => ckeeps (f_cv f)) (fc_fields c) -> opt_keeps (fc_extras c) -> keeps (typed_dict_validate c vm).
Proof.
  intros H H1 i s. unfold typed_dict_validate, rebind.
  match goal with |- context [vm ?a i] => destruct (vm a i) as [md|e] eqn:V end; [|go].
  match goal with |- context [td_loop ?a ?b ?c ?d ?pp ?e ?f ?g ?h ?k] => destruct (td_loop a b c d pp e f g h k) as [[a'|e'] s'] end; [|go].
  destruct (extra_behavior_eqb _ _ || _); [repeat first [go | brk]|].
  destruct (md_iter md) as [es|e] eqn:IT; [|go].
  match goal with |- context [td_extras ?a ?b ?c ?pp ?e ?f ?g ?h] => pose proof (td_extras_off a b c pp e f g h H1) as N2; destruct (td_extras a b c pp e f g h) as [[[out errs]|e'] s''] end; cbn [snd] in N2; repeat first [go | brk].
Qed.
Lemma params_off c ai i ba bn ix ps a s : Forall (fun f => ckeeps (pa_cv f)) ps -> off s (snd (params_loop c ai i ba bn ix ps a s)).
Proof.
  intros H. revert ix a s. induction H as [|f fs [Hf Hd] H IH]; intros ix a s; cbn [params_loop]; [go|].
  unfold rebind. repeat first [vi IH | go | brk].
Qed.
Lemma var_args_off v ix xs a s : opt_keeps v -> off s (snd (var_args_loop v ix xs a s)).
Proof. intros H. revert ix a s. induction xs as [|x xs IH]; intros ix a s; cbn [var_args_loop]; [go|]. destruct v as [v|]; [specialize (H _ eq_refl)|]; repeat first [vi IH | go | brk]. Qed.
Lemma var_kwargs_off c es r a s : opt_keeps (ac_var_kwargs c) -> off s (snd (var_kwargs_loop c es r a s)).
Proof.
  intros H1. revert r a s. induction es as [|en es IH]; intros r a s; [exact eq_refl|].
  cbn [var_kwargs_loop]. destruct en as [k kl v|e]; [|go].
  destruct (ac_var_kwargs c) as [v1|]; [specialize (H1 _ eq_refl)|]; repeat first [vi IH | go | brk].
Qed.
Lemma finish_off a s : off s (snd (args_finish a s)). Proof. unfold args_finish. repeat first [go | brk]. Qed.
Lemma unpacked_off c rem a s : opt_keeps (ac_var_kwargs c) -> off s (snd (unpacked_stage c rem a s)).
Proof. intros H. unfold unpacked_stage. destruct (ac_var_kwargs c) as [v1|]; [specialize (H _ eq_refl)|]; repeat first [vi finish_off | go | brk]. Qed.
Lemma va_off c ai a s : opt_keeps (ac_var_args c) -> off s (snd (var_args_stage c ai a s)).
Proof. intros H. unfold var_args_stage. repeat first [vix var_args_off H | go | brk]. Qed.
Lemma vk_off c ai a s : opt_keeps (ac_var_kwargs c) -> off s (snd (var_kwargs_stage c ai a s)).
Proof. intros H. unfold var_kwargs_stage. repeat first [vix var_kwargs_off H | go | brk]. Qed.
Lemma arguments_off c va : Forall (fun f => ckeeps (pa_cv f)) (ac_params c) -> opt_keeps (ac_var_args c) -> opt_keeps (ac_var_kwargs c) -> keeps (arguments_validate c va).
Proof.
  intros H H1 H2 i s. unfold arguments_validate. destruct (va i) as [ai|e] eqn:V; [|go].
  match goal with |- context [params_loop ?a ?b ?c ?d ?e ?f ?g ?h ?k] => pose proof (params_off a b c d e f g h k H) as N; destruct (params_loop a b c d e f g h k) as [[a'|e'] s'] end; cbn [snd] in N; [|go].
  pose proof (va_off c ai a' s' H1) as N1. destruct (var_args_stage c ai a' s') as [[a1|e1] s1]; cbn [snd] in N1; [|go].
  pose proof (vk_off c ai a1 s1 H2) as N2. destruct (var_kwargs_stage c ai a1 s1) as [[[a2 rem]|e2] s2]; cbn [snd] in N2; [|go].
  vix unpacked_off H2.
Qed.
Lemma dataclass_args_off c va : keeps (dataclass_args_validate c va).
Proof.
  intros i s. unfold dataclass_args_validate, rebind. destruct (va i) as [ai|e] eqn:V; [|go].
  match goal with |- off _ (snd (let '(_, _) := ?x in _)) => destruct x end. go.
Qed.

(** Scalars. *)
Lemma accept_off A (m : matched A) s k : (forall a s, off s (snd (k a s))) -> off s (snd (accept m s k)).
Proof. intros K. unfold accept. destruct m as [[a e]|e]; [vi K|go]. Qed.
Ltac scal := intros i s; apply accept_off; intros; cbv beta zeta; repeat first [go | brk].
Lemma bool_off st : keeps (bool_validate st). Proof. scal. Qed.
Lemma int_off md st c : keeps (int_validate md st c). Proof. scal. Qed.
Lemma float_off pf st c : keeps (float_validate pf st c). Proof. scal. Qed.
Lemma str_off ps fs tl tu c : keeps (str_validate ps fs tl tu c). Proof. scal. Qed.
Lemma bytes_off c : keeps (bytes_validate c). Proof. scal. Qed.
Lemma literal_off ps fs md l : keeps (literal_validate ps fs md l). Proof. intros i s. unfold literal_validate. repeat first [go | brk]. Qed.
Lemma any_off : keeps any_validate. Proof. intros i s. unfold any_validate. go. Qed.
Lemma none_off : keeps none_validate. Proof. intros i s. unfold none_validate. repeat first [go | brk]. Qed.
Lemma nullable_off v : keeps v -> keeps (nullable v). Proof. intros K i s. unfold nullable. destruct (is_none_input i); [go|now apply K]. Qed.
Lemma jop_off j p : keeps j -> keeps p -> keeps (json_or_python j p). Proof. intros K L i s. unfold json_or_python. destruct (x_input_type _); auto. Qed.
Lemma is_instance_off sub c : keeps (is_instance_validate sub c). Proof. intros i s. unfold is_instance_validate. repeat first [go | brk]. Qed.
Lemma los_off b l t : keeps l -> keeps t -> keeps (lax_or_strict b l t).
Proof. intros K L i s. unfold lax_or_strict. destruct (strict_or s b); [now apply L|]. destruct (st_exactness s); [|now apply K]. destruct (t i s) as [[v|[]] s'] eqn:E; try (vi K); go. Qed.
Lemma custom_off t v : keeps v -> keeps (custom_error t v). Proof. intros K i s. unfold custom_error. repeat first [go | brk]. Qed.
Lemma before_off f own v : keeps v -> keeps (function_before f own v). Proof. intros K i s. unfold function_before. destruct (call_fun _ _ _ _ _); [now apply K|go]. Qed.
Lemma after_off f own v : keeps v -> keeps (function_after f own v). Proof. intros K i s. unfold function_after. repeat first [go | brk]. Qed.
Lemma plain_off f own : keeps (function_plain f own). Proof. intros i s. unfold function_plain. go. Qed.
Lemma wrap_off f own v : keeps (function_wrap f own v). Proof. intros i s. unfold function_wrap. repeat first [go | brk]. Qed.
Lemma chain_off l : Forall keeps l -> keeps (chain_validate l).
Proof.
  intros H. assert (R : forall steps, Forall keeps steps -> forall v s, off s (snd (chain_rest steps v s))).
  { clear. induction 1 as [|x l Hx H IH]; intros v s; cbn [chain_rest]; [go|]. repeat first [vi IH | go | brk]. }
  intros i s. destruct H as [|x l Hx H]; cbn; [go|]. repeat first [vix R H | go | brk].
Qed.
Lemma wd_off n w : keeps (wd_inner w) ->
  (forall i s r s', wd_validate n w i s = Some (r, s') -> off s s') /\
  (forall l s r s', default_value (wd_validate n w) w l s = Some (r, s') -> off s s').
Proof.
  intros H. assert (K : forall m, (forall i s r s', wd_validate m w i s = Some (r, s') -> off s s') -> forall l s r s', default_value (wd_validate m w) w l s = Some (r, s') -> off s s').
  { intros m V l s r s' D. unfold default_value in D. destruct (stored_default _ _) as [[d|]|e] eqn:S.
    - destruct (wd_validate_default w); [|injection D as <- <-; reflexivity].
      destruct (wd_validate m w (IPy d) s) as [[[v|e] s1]|] eqn:E; [| |discriminate]; injection D as <- <-; exact (V _ _ _ _ E).
    - injection D as <- <-. reflexivity.
    - injection D as <- <-. reflexivity. }
  assert (V : forall i s r s', wd_validate n w i s = Some (r, s') -> off s s'); [|split; [exact V|exact (K n V)]].
  induction n as [|n IH]; [discriminate|]. intros i s r s' E. cbn [wd_validate] in E.
  assert (U : forall e s1, off s s1 -> match default_value (wd_validate n w) w None s1 with
       | None => None | Some (VErr e', s') => Some (VErr e', s') | Some (VOk (Some v), s') => Some (VOk v, s') | Some (VOk None, s') => Some (VErr e, s') end = Some (r, s') -> off s s').
  { clear E. intros e s1 O1 X. destruct (default_value (wd_validate n w) w None s1) as [[[[v|]|e'] s2]|] eqn:D; [| | |discriminate]; injection X as <- <-; exact (eq_trans (K n IH _ _ _ _ D) O1). }
  destruct (is_undefined i); [exact (U Panic s eq_refl E)|].
  pose proof (H i s) as N. destruct (wd_inner w i s) as [[v|[es| | | |]] s1]; cbn [snd] in N.
  - injection E as <- <-. exact N.
  - destruct (wd_on_error w); [injection E as <- <-; exact N|injection E as <- <-; exact N|exact (U _ _ N E)].
  - destruct (wd_on_error w); [injection E as <- <-; exact N|injection E as <- <-; exact N|exact (U _ _ N E)].
  - destruct (wd_on_error w); [injection E as <- <-; exact N|injection E as <- <-; exact N|exact (U _ _ N E)].
  - exact (U _ _ N E).
  - injection E as <- <-. exact N.
Qed.
Lemma wd_cv_off n w : keeps (wd_inner w) -> ckeeps (wd_cv n w).
Proof.
  intros H. destruct (wd_off n w H) as [A B]. split.
  - intros i s. cbn. destruct (wd_validate n w i s) as [[r s']|] eqn:E; [exact (A _ _ _ _ E)|reflexivity].
  - intros l s. cbn. destruct (default_value _ w l s) as [[r s']|] eqn:E; [exact (B _ _ _ _ E)|reflexivity].
Qed.
Lemma nd_off v : keeps v -> ckeeps (no_default v). Proof. intros H; split; [exact H|]. intros l s. reflexivity. Qed.

(** Unions. *)
Lemma smart_off custom cs : Forall (fun c => keeps (ch_validator c)) cs -> keeps (validate_smart custom cs).
Proof.
  intros H i s. unfold validate_smart.
  assert (L : forall oe on cs, Forall (fun c => keeps (ch_validator c)) cs -> forall best errs z s, off z s ->
     match smart_loop custom oe on cs i best errs s with Returned _ t => off z t | Tried _ _ t => off z t end).
  { clear. intros oe on. induction 1 as [|c cs Hc H IH]; intros best errs z s O; cbn [smart_loop]; [exact O|].
    destruct (ch_validator c i _) as [[v|[lines| | | |]] s1] eqn:E; assert (O1 : off z s1) by go; try exact O1; try (apply IH; exact O1).
    destruct (st_exactness s1) as [[]|], (st_fields_set s1); try exact O1; apply IH; exact O1. }
  specialize (L (st_exactness s) (st_fields_set s) cs H None [] s s eq_refl).
  destruct (smart_loop _ _ _ _ _ _ _ _) as [[[[v e] n]|] errs s1|r s1]; [|go|go]. destruct n; go.
Qed.
Lemma ltr_off custom cs : Forall (fun c => keeps (ch_validator c)) cs -> keeps (validate_left_to_right custom cs).
Proof.
  intros H i s. unfold validate_left_to_right.
  assert (L : forall cs, Forall (fun c => keeps (ch_validator c)) cs -> forall errs z s, off z s -> off z (snd (ltr_loop custom cs i errs s))).
  { clear. induction 1 as [|c cs Hc H IH]; intros errs z s O; cbn [ltr_loop]; [go|].
    destruct (ch_validator c i s) as [[v|[lines| | | |]] s1] eqn:E; assert (O1 : off z s1) by go; try exact O1. apply IH, O1. }
  now apply L.
Qed.
Lemma find_call_off repr ps fs md custom choices tag : Forall (fun c => keeps (snd c)) choices -> keeps (find_call_validator repr ps fs md custom choices tag).
Proof.
  intros H i s. unfold find_call_validator. destruct (lk_validate _ _ _ _ _) as [[id|]|]; [|repeat first [go | brk]|repeat first [go | brk]].
  destruct (nth_error choices id) as [[t v]|] eqn:E; [|go]. apply nth_error_In in E. rewrite Forall_forall in H. specialize (H _ E). cbn in H.
  repeat first [go | brk].
Qed.
Lemma tagged_off repr ga ps fs md d fa custom choices : Forall (fun c => keeps (snd c)) choices -> keeps (tagged_union_validate repr ga ps fs md d fa custom choices).
Proof.
  intros H i s. unfold tagged_union_validate, tag_not_found.
  repeat first [go | (eapply eq_trans; [apply (find_call_off repr ps fs md custom choices _ H)|go]) | brk].
Qed.

(** Classes. *)
Lemma model_off sub c inner : keeps inner -> keeps (model_validate sub c inner).
Proof.
  intros H. assert (K : forall i ex s, off s (snd (model_construct c inner i ex s))).
  { intros i ex s. unfold model_construct, rebind.
    destruct (match mo_custom_init c with Some _ => _ | None => _ end) as [[v|e]|] eqn:CI; [go|go|]. destruct (mo_root c); repeat first [go | brk]. }
  intros i s. unfold model_validate. repeat first [vi K | go | brk].
Qed.
Lemma dataclass_off sub c inner : keeps inner -> keeps (dataclass_validate sub c inner).
Proof. intros H i s. unfold dataclass_validate. repeat first [go | brk]. Qed.

Lemma opt_keeps_map (f : schema -> cv) o : (forall c, In c (opt_list o) -> ckeeps (f c)) -> opt_keeps (option_map (fun sc => cv_validate (f sc)) o).
Proof. intros H v E. destruct o as [x|]; [|discriminate]. injection E as <-. apply H. now left. Qed.
Lemma eval_off E ref : (forall k, ckeeps (ref k)) -> forall sc, ckeeps (eval E ref sc).
Proof.
  intros R. apply (schema_children_ind (fun sc => ckeeps (eval E ref sc))).
  intros sc C. destruct sc; cbn [eval children] in *; try apply nd_off.
  - apply any_off.
  - apply none_off.
  - apply bool_off.
  - apply int_off.
  - apply float_off.
  - apply str_off.
  - apply bytes_off.
  - apply literal_off.
  - apply is_instance_off.
  - apply list_off. exact (opt_keeps_map _ _ C).
  - apply set_off. apply C; now left.
  - apply tuple_off. apply Forall_map_in, C.
  - apply dict_off; [apply C; now left|apply C; right; now left].
  - apply nullable_off, C. now left.
  - apply wd_cv_off. apply C; now left.
  - apply chain_off. apply Forall_map_in. intros x X. now apply C.
  - apply jop_off; apply C; [now left|right; now left].
  - apply los_off; apply C; [now left|right; now left].
  - apply custom_off, C. now left.
  - apply before_off, C; now left.
  - apply after_off, C; now left.
  - apply plain_off.
  - apply wrap_off.
  - assert (F : Forall (fun c => keeps (ch_validator c)) (map (fun cl => {| ch_validator := cv_validate (eval E ref (fst cl)); ch_label := snd cl |}) choices)).
    { apply Forall_map_in. intros x X. cbn. apply C. now apply in_map. }
    destruct mode; [apply smart_off|apply ltr_off]; exact F.
  - apply tagged_off. apply Forall_map_in. intros x X. cbn. apply C. now apply in_map.
  - apply model_fields_off; cbn.
    + apply Forall_map_in. intros x X. cbn. apply C, in_or_app. left. now apply in_map.
    + apply opt_keeps_map. intros x X. apply C, in_or_app. right. apply in_or_app. now left.
    + apply opt_keeps_map. intros x X. apply C, in_or_app. right. apply in_or_app. now right.
  - apply typed_dict_off; cbn.
    + apply Forall_map_in. intros x X. cbn. apply C, in_or_app. left. now apply in_map.
    + apply opt_keeps_map. intros x X. apply C, in_or_app. now right.
  - apply arguments_off; cbn.
    + apply Forall_map_in. intros x X. cbn. apply C, in_or_app. left. now apply in_map.
    + apply opt_keeps_map. intros x X. apply C, in_or_app. right. apply in_or_app. now left.
    + apply opt_keeps_map. intros x X. apply C, in_or_app. right. apply in_or_app. now right.
  - apply dataclass_args_off.
  - apply model_off, C; now left.
  - apply dataclass_off, C; now left.
  - apply R.
Qed.
Lemma refs_off E defs : forall fuel depth k, ckeeps (refs E defs fuel depth k).
Proof.
  induction fuel as [|fuel IH]; intros depth k; cbn [refs]; [split; intros ? ?; reflexivity|].
  destruct (defs k) as [sc|] eqn:K; [|split; intros ? ?; reflexivity].
  assert (V : forall d, ckeeps (eval E (refs E defs fuel d) sc)) by (intros d; apply eval_off; apply IH).
  split; [|apply V]. intros i s. cbn [cv_validate]. destruct i; try (destruct (_ <=? _); [go|]); (eapply eq_trans; [apply V|go]).
Qed.

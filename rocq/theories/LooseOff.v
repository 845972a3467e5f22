From Coq Require Import List NArith ZArith Bool Lia.
From Verif Require Import Base Float64 IntParse Numbers BytesCodec Values VState LookupKey Collections Child Inputs Scalars Literal Wrappers Union TaggedUnion Tuple ModelFields TypedDict Assign Arguments Classes Interp InterpSpec InterpProofs StrictSpec LooseSpec LooseQuiet.
Import ListNotations.
Open Scope nat_scope.

(** ** Partial validation stays off *)
Definition off (s : state) : Prop := st_partial s = PartialOff.
Definition keeps (v : validator) : Prop := forall i s, off s -> off (snd (v i s)).
Definition dkeeps (f : option loc_item -> state -> vres (option pyval) * state) : Prop := forall l s, off s -> off (snd (f l s)).
Definition ckeeps (v : cv) : Prop := keeps (cv_validate v) /\ dkeeps (cv_default v).

Lemma keeps_use v i s r t : keeps v -> v i s = (r, t) -> off s -> off t.
Proof. intros K E O. specialize (K i s O). now rewrite E in K. Qed.
Lemma dkeeps_use (f : option loc_item -> state -> vres (option pyval) * state) i s r t : dkeeps f -> f i s = (r, t) -> off s -> off t.
Proof. intros K E O. specialize (K i s O). now rewrite E in K. Qed.
Lemma off_part p s : off (set_partial PartialOff s) /\ off (set_partial (if p : bool then PartialOff else PartialOff) s). Proof. now destruct p. Qed.
Lemma off_extra x s : off s -> off (set_extra x s). Proof. exact (fun H => H). Qed.
Lemma off_fields n s : off s -> off (set_fields_set n s). Proof. exact (fun H => H). Qed.
Lemma off_exact e s : off s -> off (set_exactness e s). Proof. exact (fun H => H). Qed.
Lemma off_floor e s : off s -> off (floor_exactness e s).
Proof. unfold floor_exactness, off. destruct (st_exactness s) as [[]|]; auto. destruct e; auto. Qed.

Ltac offs :=
  repeat first
    [ assumption
    | match goal with
      | |- off (snd (_, _)) => cbn [snd]
      | |- off (set_partial PartialOff _) => exact (proj1 (off_part true _))
      | |- off (set_partial (if _ then PartialOff else PartialOff) _) => exact (proj2 (off_part _ _))
      | |- off (set_extra _ _) => apply off_extra
      | |- off (set_fields_set _ _) => apply off_fields
      | |- off (add_fields_set _ _) => apply off_fields
      | |- off (set_exactness _ _) => apply off_exact
      | |- off (floor_exactness _ _) => apply off_floor
      | H : keeps ?v, E : ?v ?i ?s = (_, ?t) |- off ?t => apply (keeps_use _ _ _ _ _ H E)
      | H : dkeeps ?v, E : ?v ?i ?s = (_, ?t) |- off ?t => apply (dkeeps_use _ _ _ _ _ H E)
      end ].
Ltac go := solve [offs].

Lemma vec_off child ff mc items out errs s : keeps child -> off s -> off (snd (vec_loop child ff PartialOff mc out errs items s)).
Proof.
  intros K. revert mc out errs s. induction items as [|[[ix lp] it] items IH]; intros mc out errs s O; cbn [vec_loop]; [go|].
  repeat first [apply IH; go | go | brk].
Qed.
Lemma list_off c child vl : (forall v, child = Some v -> keeps v) -> keeps (list_validate c child vl).
Proof.
  intros K i s O. unfold list_validate, validate_iter_to_vec. destruct (vl _ i) as [sq|e]; [|go]. destruct child as [v|].
  - pose proof (off_floor (sq_exactness sq) s O) as O1. rewrite O1.
    match goal with |- context [vec_loop ?a ?b PartialOff ?d ?e ?f ?g ?h] => pose proof (vec_off a b d g e f h (K _ eq_refl) O1) as N; destruct (vec_loop a b PartialOff d e f g h) as [[out|er] s'] end; cbn [snd] in N; repeat first [go | brk].
  - repeat first [go | brk].
Qed.
Lemma set_loop_off child ff c i0 mx items set errs s : keeps child -> off s -> off (snd (set_loop child ff c i0 mx PartialOff set errs items s)).
Proof.
  intros K. revert set errs s. induction items as [|[[ix lp] it] items IH]; intros set errs s O; cbn [set_loop]; [go|].
  destruct it as [x|]; [|go]. unfold validate_add.
  assert (L : forall st er s, off s -> off (snd (if ff && negb (is_nil er) then (VErr (LineErrors er), s) else set_loop child ff c i0 mx PartialOff st er items s))).
  { intros st er s0 O0. destruct (_ && _); [go|now apply IH]. }
  destruct (child x _) as [[v|[es| | | |]] s'] eqn:E; try (apply L; go); try go.
  destruct (hashable v); [|apply L; go]. destruct mx; [|apply L; go]. destruct (_ <? _); [go|apply L; go].
Qed.
Lemma set_off fz c child vl : keeps child -> keeps (set_validate fz c child vl).
Proof.
  intros K i s O. unfold set_validate, validate_iter_to_set. destruct (vl _ i) as [sq|e]; [|go].
  pose proof (off_floor (sq_exactness sq) s O) as O1. rewrite O1.
  match goal with |- context [set_loop ?a ?b ?c ?d ?e PartialOff ?g ?h ?i ?j] => pose proof (set_loop_off a b c d e i g h j K O1) as N; destruct (set_loop a b c d e PartialOff g h i j) as [[out|er] s'] end; cbn [snd] in N; repeat first [go | brk].
Qed.
Lemma dict_loop_off kv vv items out errs s : keeps kv -> keeps vv -> off s -> off (snd (dict_loop kv vv PartialOff out errs items s)).
Proof.
  intros K V. revert out errs s. induction items as [|[[ix lp] en] items IH]; intros out errs s O; cbn [dict_loop]; [go|].
  destruct en as [key kl value|e]; [|go]. unfold set_item. repeat first [apply IH; go | go | brk].
Qed.
Lemma dict_off c kv vv vd : keeps kv -> keeps vv -> keeps (dict_validate c kv vv vd).
Proof.
  intros K V i s O. unfold dict_validate. destruct (vd _ i) as [es|e]; [|go]. rewrite O.
  match goal with |- context [dict_loop ?a ?b PartialOff ?d ?e ?f ?g] => pose proof (dict_loop_off a b f d e g K V O) as N; destruct (dict_loop a b PartialOff d e f g) as [[[out|er] errs] s'] end; cbn [snd] in N; repeat first [go | brk].
Qed.

Definition toff (r : tres) : Prop := match r with TFail _ s => off s | TDone a => off (ta_state a) end.
Section TupleOff.
Variable c : tuple_cfg. Variable i : input. Variable actual : option nat.
Lemma push_off v s a : off s -> toff (push_output_item c i actual v s a).
Proof. intros O. unfold push_output_item. cbv zeta. repeat first [exact O | brk]. Qed.
Lemma use_off ix r a : off (snd r) -> toff (use_item c i actual ix r a).
Proof. destruct r as [[v|[es| | | |]] s]; cbn [snd use_item]; intros H; try exact H. now apply push_off. Qed.
Lemma titems_off vs a : Forall ckeeps vs -> off (ta_state a) -> toff (tuple_items c i actual vs a).
Proof.
  intros H. revert a. induction H as [|v vs [Hv Hd] H IH]; intros a O; cbn [tuple_items]; [exact O|].
  match goal with |- toff (match ?st with TDone _ => _ | TFail _ _ => _ end) => assert (S : toff st) end.
  { destruct (ti_next _) as [[x|] it']; [apply use_off, Hv, O|]. specialize (Hd (Some (index_loc (ta_count (ta_move it' a) - 1))) _ O). cbv zeta. destruct (cv_default v _ _) as [[[w|]|e] s']; exact Hd. }
  match goal with |- toff (match ?st with TDone _ => _ | TFail _ _ => _ end) => destruct st as [a'|e s] end; [|exact S].
  destruct (stop_now c a'); [exact S|now apply IH].
Qed.
Lemma trest_off v rest a : ckeeps v -> off (ta_state a) -> toff (tuple_rest c i actual v rest a).
Proof.
  intros [H _]. revert a. induction rest as [|it rest IH]; intros a O; cbn [tuple_rest]; [exact O|]. destruct it as [x|]; [|exact O].
  pose proof (use_off (ta_count a) (cv_validate v x (ta_state a)) (ta_move (snd (ti_next (ta_iter a))) a) (H _ _ O)) as U. destruct (use_item _ _ _ _ _ _) as [a'|]; [|exact U].
  destruct (stop_now _ _); [exact U|now apply IH].
Qed.
Lemma tbuf_off v rest buf ix a : ckeeps v -> off (ta_state a) -> match tuple_buffered c i actual v rest buf ix a with BReturn r => toff r | BEnd a _ _ => off (ta_state a) end.
Proof.
  intros [H _]. revert buf ix a. induction rest as [|it rest IH]; intros buf ix a O; cbn [tuple_buffered]; [exact O|]. destruct it as [x|]; [|exact O].
  destruct (buf ++ [x]) as [|y buf']; [exact O|].
  pose proof (use_off (ta_count a) (cv_validate v y (ta_state a)) (ta_move (snd (ti_next (ta_iter a))) a) (H _ _ O)) as U. destruct (use_item _ _ _ _ _ _) as [a'|]; [|exact U].
  destruct (stop_now _ _); [exact U|now apply IH].
Qed.
Lemma tvar_off a : Forall ckeeps (tu_validators c) -> off (ta_state a) -> toff (tuple_variable c i actual a).
Proof.
  intros H O. assert (D : forall vs, incl vs (tu_validators c) -> forall a, off (ta_state a) -> toff (tuple_items c i actual vs a)).
  { intros vs I a0. apply titems_off. rewrite Forall_forall in *. intros x X. apply H, I, X. }
  unfold tuple_variable. destruct (tu_variadic c) as [k|].
  - destruct (skipn k (tu_validators c)) as [|v tail] eqn:S; [exact O|].
    assert (I1 : incl (firstn k (tu_validators c)) (tu_validators c)). { intros x X. rewrite <- (firstn_skipn k (tu_validators c)). apply in_or_app. now left. }
    assert (I2 : incl (v :: tail) (tu_validators c)). { intros x X. rewrite <- (firstn_skipn k (tu_validators c)), S. apply in_or_app. now right. }
    assert (I3 : incl tail (tu_validators c)). { intros x X. apply I2. now right. }
    assert (Hv : ckeeps v). { rewrite Forall_forall in H. apply H, I2. now left. }
    pose proof (D _ I1 a O) as T. destruct (tuple_items _ _ _ _ _) as [a1|]; [|exact T].
    destruct (stop_now c a1); [exact T|]. destruct tail as [|w tail'] eqn:ET; [exact (trest_off _ _ _ Hv T)|].
    destruct (ti_take _ _) as [buf it]. match goal with |- context [tuple_buffered ?a ?b ?c ?d ?e ?f ?g ?h] => pose proof (tbuf_off d e f g h Hv T) as B; destruct (tuple_buffered a b c d e f g h) as [a3 buf' ix|r] end; [|exact B].
    match goal with |- context [tuple_items ?a ?b ?c ?d ?e] => pose proof (D _ I3 e B) as T2; destruct (tuple_items a b c d e) end; exact T2.
  - pose proof (D _ (incl_refl _) a O) as T. destruct (tuple_items _ _ _ _ _) as [a1|]; [|exact T]. destruct (stop_now c a1); [exact T|].
    destruct (ti_next _) as [[x|] it']; exact T.
Qed.
End TupleOff.
Lemma tuple_off c vt : Forall ckeeps (tu_validators c) -> keeps (tuple_validate c vt).
Proof.
  intros H i s O. unfold tuple_validate. match goal with |- context [vt ?b i] => destruct (vt b i) as [sq|e] end; [|go].
  match goal with |- context [tuple_variable ?a ?b ?c ?d] => pose proof (tvar_off a b c d H ltac:(cbn [ta_state]; go)) as N; destruct (tuple_variable a b c d) as [a'|e s'] end; [|exact N].
  cbn [toff] in N. repeat first [go | brk].
Qed.

Lemma fields_off c md i ba bn fs a s : Forall (fun f => ckeeps (f_cv f)) fs -> off s -> off (snd (fields_loop c md i ba bn fs a s)).
Proof.
  intros H. revert a s. induction H as [|f fs [Hf Hd] H IH]; intros a s O; cbn [fields_loop]; [go|].
  unfold rebind. repeat first [apply IH; go | go | brk].
Qed.
Definition opt_keeps (o : option validator) : Prop := forall v, o = Some v -> keeps v.
Lemma extras_off c used es out errors fset s : opt_keeps (fc_extras c) -> opt_keeps (fc_extras_keys c) -> off s -> off (snd (extras_loop c used es out errors fset s)).
Proof.
  intros H1 H2. revert out errors fset s. induction es as [|en es IH]; intros out errors fset s O; [go|].
  cbn [extras_loop]. destruct en as [k kl v|e]; [|go].
  destruct (fc_extras c) as [v1|]; [specialize (H1 _ eq_refl)|]; (destruct (fc_extras_keys c) as [v2|]; [specialize (H2 _ eq_refl)|]); repeat first [apply IH; go | go | brk].
Qed.
Lemma model_fields_off c vm : Forall (fun f => ckeeps (f_cv f)) (fc_fields c) -> opt_keeps (fc_extras c) -> opt_keeps (fc_extras_keys c) -> keeps (model_fields_validate c vm).
Proof.
  intros H H1 H2 i s O. unfold model_fields_validate, rebind.
  match goal with |- context [vm ?a ?b i] => destruct (vm a b i) as [md|e] eqn:V end; [|destruct e; go].
  match goal with |- context [fields_loop ?a ?b ?c ?d ?e ?f ?g ?h] => pose proof (fields_off a b c d e f g h H ltac:(go)) as N; destruct (fields_loop a b c d e f g h) as [[a'|e'] s'] end; cbn [snd] in N; [|go].
  destruct (extra_behavior_eqb _ _ || _); [repeat first [go | brk]|].
  destruct (md_iter md) as [es|e] eqn:IT; [|go].
  match goal with |- context [extras_loop ?a ?b ?c ?d ?e ?f ?g] => pose proof (extras_off a b c d e f g H1 H2 ltac:(go)) as N2; destruct (extras_loop a b c d e f g) as [[[[out errs] fset]|e'] s''] end; cbn [snd] in N2; repeat first [go | brk].
Qed.
Lemma td_off c md i last ba bn fs a s : Forall (fun f => ckeeps (f_cv f)) fs -> off s -> off (snd (td_loop c md i last PartialOff ba bn fs a s)).
Proof.
  intros H. revert a s. induction H as [|f fs [Hf Hd] H IH]; intros a s O; cbn [td_loop]; [go|].
  unfold rebind. repeat first [apply IH; go | go | brk].
Qed.
Lemma td_extras_off c used last es out errors s : opt_keeps (fc_extras c) -> off s -> off (snd (td_extras c used last PartialOff es out errors s)).
Proof.
  intros H1. revert out errors s. induction es as [|en es IH]; intros out errors s O; [go|].
  cbn [td_extras]. destruct en as [k kl v|e]; [|go].
  destruct (fc_extras c) as [v1|]; [specialize (H1 _ eq_refl)|]; repeat first [apply IH; go | go | brk].
Qed.
Lemma typed_dict_off c vm : Forall (fun f => ckeeps (f_cv f)) (fc_fields c) -> opt_keeps (fc_extras c) -> keeps (typed_dict_validate c vm).
Proof.
  intros H H1 i s O. unfold typed_dict_validate, rebind.
  match goal with |- context [vm ?a i] => destruct (vm a i) as [md|e] eqn:V end; [|go]. rewrite O.
  match goal with |- context [td_loop ?a ?b ?c ?d PartialOff ?e ?f ?g ?h ?k] => pose proof (td_off a b c d e f g h k H ltac:(go)) as N; destruct (td_loop a b c d PartialOff e f g h k) as [[a'|e'] s'] end; cbn [snd] in N; [|go].
  destruct (extra_behavior_eqb _ _ || _); [repeat first [go | brk]|].
  destruct (md_iter md) as [es|e] eqn:IT; [|go].
  match goal with |- context [td_extras ?a ?b ?c PartialOff ?e ?f ?g ?h] => pose proof (td_extras_off a b c e f g h H1 ltac:(go)) as N2; destruct (td_extras a b c PartialOff e f g h) as [[[out errs]|e'] s''] end; cbn [snd] in N2; repeat first [go | brk].
Qed.
Lemma params_off c ai i ba bn ix ps a s : Forall (fun f => ckeeps (pa_cv f)) ps -> off s -> off (snd (params_loop c ai i ba bn ix ps a s)).
Proof.
  intros H. revert ix a s. induction H as [|f fs [Hf Hd] H IH]; intros ix a s O; cbn [params_loop]; [go|].
  unfold rebind. repeat first [apply IH; go | go | brk].
Qed.
Lemma var_args_off v ix xs a s : opt_keeps v -> off s -> off (snd (var_args_loop v ix xs a s)).
Proof. intros H. revert ix a s. induction xs as [|x xs IH]; intros ix a s O; cbn [var_args_loop]; [go|]. destruct v as [v|]; [specialize (H _ eq_refl)|]; repeat first [apply IH; go | go | brk]. Qed.
Lemma var_kwargs_off c es r a s : opt_keeps (ac_var_kwargs c) -> off s -> off (snd (var_kwargs_loop c es r a s)).
Proof.
  intros H1. revert r a s. induction es as [|en es IH]; intros r a s O; [go|].
  cbn [var_kwargs_loop]. destruct en as [k kl v|e]; [|go].
  destruct (ac_var_kwargs c) as [v1|]; [specialize (H1 _ eq_refl)|]; repeat first [apply IH; go | go | brk].
Qed.
Lemma finish_off a s : off s -> off (snd (args_finish a s)). Proof. intros O. unfold args_finish. repeat first [go | brk]. Qed.
Lemma unpacked_off c rem a s : opt_keeps (ac_var_kwargs c) -> off s -> off (snd (unpacked_stage c rem a s)).
Proof. intros H O. unfold unpacked_stage. destruct (ac_var_kwargs c) as [v1|]; [specialize (H _ eq_refl)|]; repeat first [apply finish_off; go | go | brk]. Qed.
Lemma va_off c ai a s : opt_keeps (ac_var_args c) -> off s -> off (snd (var_args_stage c ai a s)).
Proof. intros H O. unfold var_args_stage. repeat first [apply var_args_off; [exact H|go] | go | brk]. Qed.
Lemma vk_off c ai a s : opt_keeps (ac_var_kwargs c) -> off s -> off (snd (var_kwargs_stage c ai a s)).
Proof. intros H O. unfold var_kwargs_stage. repeat first [apply var_kwargs_off; [exact H|go] | go | brk]. Qed.
Lemma arguments_off c va : Forall (fun f => ckeeps (pa_cv f)) (ac_params c) -> opt_keeps (ac_var_args c) -> opt_keeps (ac_var_kwargs c) -> keeps (arguments_validate c va).
Proof.
  intros H H1 H2 i s O. unfold arguments_validate. destruct (va i) as [ai|e] eqn:V; [|go].
  match goal with |- context [params_loop ?a ?b ?c ?d ?e ?f ?g ?h ?k] => pose proof (params_off a b c d e f g h k H ltac:(go)) as N; destruct (params_loop a b c d e f g h k) as [[a'|e'] s'] end; cbn [snd] in N; [|go].
  pose proof (va_off c ai a' s' H1 N) as N1. destruct (var_args_stage c ai a' s') as [[a1|e1] s1]; cbn [snd] in N1; [|go].
  pose proof (vk_off c ai a1 s1 H2 N1) as N2. destruct (var_kwargs_stage c ai a1 s1) as [[[a2 rem]|e2] s2]; cbn [snd] in N2; [|go].
  now apply unpacked_off.
Qed.
Lemma dc_off c ai i ba bn ix fs a s : Forall (fun f => ckeeps (df_cv f)) fs -> off s -> off (snd (dc_loop c ai i ba bn ix fs a s)).
Proof.
  intros H. revert ix a s. induction H as [|f fs [Hf Hd] H IH]; intros ix a s O; cbn [dc_loop]; [go|].
  unfold rebind. repeat first [apply IH; go | go | brk].
Qed.
Lemma dcx_off c es a s : opt_keeps (dc_extras c) -> off s -> off (snd (dc_extras_loop c es a s)).
Proof.
  intros H1. revert a s. induction es as [|en es IH]; intros a s O; [go|].
  cbn [dc_extras_loop]. destruct en as [k kl v|e]; [|go].
  destruct (dc_extras c) as [v1|]; [specialize (H1 _ eq_refl)|]; repeat first [apply IH; go | go | brk].
Qed.
Lemma dataclass_args_off c va : Forall (fun f => ckeeps (df_cv f)) (dc_fields c) -> opt_keeps (dc_extras c) -> keeps (dataclass_args_validate c va).
Proof.
  intros H H1 i s O. unfold dataclass_args_validate, rebind. destruct (va i) as [ai|e] eqn:V; [|go].
  match goal with |- context [dc_loop ?a ?b ?c ?d ?e ?f ?g ?h ?k] => pose proof (dc_off a b c d e f g h k H ltac:(go)) as N; destruct (dc_loop a b c d e f g h k) as [[a'|e'] s'] end; cbn [snd] in N; [|go].
  assert (N2 : off (snd (dc_kwargs_stage c ai (dc_args_stage c ai a') s'))).
  { unfold dc_kwargs_stage. repeat first [apply dcx_off; [exact H1|go] | go | brk]. }
  destruct (dc_kwargs_stage _ _ _ _) as [[a2|e2] s2]; cbn [snd] in N2; [|go]. unfold dc_finish. repeat first [go | brk].
Qed.

(** Scalars. *)
Lemma accept_off A (m : matched A) s k : off s -> (forall a s, off s -> off (snd (k a s))) -> off (snd (accept m s k)).
Proof. intros O K. unfold accept. destruct m as [[a e]|e]; [apply K; go|go]. Qed.
Ltac scal := intros i s O; apply accept_off; [exact O|]; intros; cbv beta zeta; repeat first [go | brk].
Lemma bool_off st : keeps (bool_validate st). Proof. scal. Qed.
Lemma int_off md st c : keeps (int_validate md st c). Proof. scal. Qed.
Lemma float_off pf st c : keeps (float_validate pf st c). Proof. scal. Qed.
Lemma str_off ps fs tl tu c : keeps (str_validate ps fs tl tu c). Proof. scal. Qed.
Lemma bytes_off c : keeps (bytes_validate c). Proof. scal. Qed.
Lemma literal_off ps fs md l : keeps (literal_validate ps fs md l). Proof. intros i s O. unfold literal_validate. repeat first [go | brk]. Qed.
Lemma any_off : keeps any_validate. Proof. intros i s O. unfold any_validate. go. Qed.
Lemma none_off : keeps none_validate. Proof. intros i s O. unfold none_validate. repeat first [go | brk]. Qed.
Lemma nullable_off v : keeps v -> keeps (nullable v). Proof. intros K i s O. unfold nullable. destruct (is_none_input i); [go|now apply K]. Qed.
Lemma jop_off j p : keeps j -> keeps p -> keeps (json_or_python j p). Proof. intros K L i s O. unfold json_or_python. destruct (x_input_type _); auto. Qed.
Lemma is_instance_off sub c : keeps (is_instance_validate sub c). Proof. intros i s O. unfold is_instance_validate. repeat first [go | brk]. Qed.
Lemma los_off b l t : keeps l -> keeps t -> keeps (lax_or_strict b l t).
Proof. intros K L i s O. unfold lax_or_strict. destruct (strict_or s b); [now apply L|]. destruct (st_exactness s); [|now apply K]. destruct (t i s) as [[v|[]] s'] eqn:E; try (apply K; go); go. Qed.
Lemma custom_off t v : keeps v -> keeps (custom_error t v). Proof. intros K i s O. unfold custom_error. repeat first [go | brk]. Qed.
Lemma before_off f own v : keeps v -> keeps (function_before f own v). Proof. intros K i s O. unfold function_before. destruct (call_fun _ _ _ _ _); [now apply K|go]. Qed.
Lemma after_off f own v : keeps v -> keeps (function_after f own v). Proof. intros K i s O. unfold function_after. repeat first [go | brk]. Qed.
Lemma plain_off f own : keeps (function_plain f own). Proof. intros i s O. unfold function_plain. go. Qed.
Lemma wrap_off f own v : keeps (function_wrap f own v). Proof. intros i s O. unfold function_wrap. repeat first [go | brk]. Qed.
Lemma chain_off l : Forall keeps l -> keeps (chain_validate l).
Proof.
  intros H. assert (R : forall steps, Forall keeps steps -> forall v s, off s -> off (snd (chain_rest steps v s))).
  { clear. induction 1 as [|x l Hx H IH]; intros v s O; cbn [chain_rest]; [go|]. repeat first [apply IH; go | go | brk]. }
  intros i s O. destruct H as [|x l Hx H]; cbn; [go|]. repeat first [apply R; [exact H|go] | go | brk].
Qed.
Lemma wd_off n w : keeps (wd_inner w) ->
  (forall i s r s', off s -> wd_validate n w i s = Some (r, s') -> off s') /\
  (forall l s r s', off s -> default_value (wd_validate n w) w l s = Some (r, s') -> off s').
Proof.
  intros H. assert (K : forall m, (forall i s r s', off s -> wd_validate m w i s = Some (r, s') -> off s') -> forall l s r s', off s -> default_value (wd_validate m w) w l s = Some (r, s') -> off s').
  { intros m V l s r s' O D. unfold default_value in D. destruct (stored_default _ _) as [[d|]|e] eqn:S.
    - destruct (wd_validate_default w); [|injection D as <- <-; exact O].
      destruct (wd_validate m w (IPy d) s) as [[[v|e] s1]|] eqn:E; [| |discriminate]; injection D as <- <-; exact (V _ _ _ _ O E).
    - injection D as <- <-. exact O.
    - injection D as <- <-. exact O. }
  assert (V : forall i s r s', off s -> wd_validate n w i s = Some (r, s') -> off s'); [|split; [exact V|exact (K n V)]].
  induction n as [|n IH]; [discriminate|]. intros i s r s' O E. cbn [wd_validate] in E.
  assert (U : forall e s1, off s1 -> match default_value (wd_validate n w) w None s1 with
       | None => None | Some (VErr e', s') => Some (VErr e', s') | Some (VOk (Some v), s') => Some (VOk v, s') | Some (VOk None, s') => Some (VErr e, s') end = Some (r, s') -> off s').
  { clear E. intros e s1 O1 X. destruct (default_value (wd_validate n w) w None s1) as [[[[v|]|e'] s2]|] eqn:D; [| | |discriminate]; injection X as <- <-; exact (K n IH _ _ _ _ O1 D). }
  destruct (is_undefined i); [exact (U Panic s O E)|].
  pose proof (H i s O) as N. destruct (wd_inner w i s) as [[v|[es| | | |]] s1]; cbn [snd] in N.
  - injection E as <- <-. exact N.
  - destruct (wd_on_error w); [injection E as <- <-; exact N|injection E as <- <-; exact N|exact (U _ _ N E)].
  - destruct (wd_on_error w); [injection E as <- <-; exact N|injection E as <- <-; exact N|exact (U _ _ N E)].
  - destruct (wd_on_error w); [injection E as <- <-; exact N|injection E as <- <-; exact N|exact (U _ _ N E)].
  - exact (U _ _ N E).
  - injection E as <- <-. exact N.
Qed.
Lemma wd_cv_off n w : keeps (wd_inner w) -> ckeeps (wd_cv n w).
Proof.
  intros H. destruct (wd_off n w H) as [A B]. split.
  - intros i s O. cbn. destruct (wd_validate n w i s) as [[r s']|] eqn:E; [exact (A _ _ _ _ O E)|exact O].
  - intros l s O. cbn. destruct (default_value _ w l s) as [[r s']|] eqn:E; [exact (B _ _ _ _ O E)|exact O].
Qed.
Lemma nd_off v : keeps v -> ckeeps (no_default v). Proof. intros H; split; [exact H|]. intros l s O. exact O. Qed.

(** Unions. *)
Lemma smart_off custom cs : Forall (fun c => keeps (ch_validator c)) cs -> keeps (validate_smart custom cs).
Proof.
  intros H i s O. unfold validate_smart.
  assert (L : forall oe on cs, Forall (fun c => keeps (ch_validator c)) cs -> forall best errs s, off s ->
     match smart_loop custom oe on cs i best errs s with Returned _ t => off t | Tried _ _ t => off t end).
  { clear. intros oe on. induction 1 as [|c cs Hc H IH]; intros best errs s O; cbn [smart_loop]; [exact O|].
    destruct (ch_validator c i _) as [[v|[lines| | | |]] s1] eqn:E; assert (O1 : off s1) by go; try exact O1; try (apply IH; exact O1).
    destruct (st_exactness s1) as [[]|], (st_fields_set s1); try exact O1; apply IH; exact O1. }
  specialize (L (st_exactness s) (st_fields_set s) cs H None [] s O).
  destruct (smart_loop _ _ _ _ _ _ _ _) as [[[[v e] n]|] errs s1|r s1]; [|go|go]. destruct n; go.
Qed.
Lemma ltr_off custom cs : Forall (fun c => keeps (ch_validator c)) cs -> keeps (validate_left_to_right custom cs).
Proof.
  intros H i s O. unfold validate_left_to_right.
  assert (L : forall cs, Forall (fun c => keeps (ch_validator c)) cs -> forall errs s, off s -> off (snd (ltr_loop custom cs i errs s))).
  { clear. induction 1 as [|c cs Hc H IH]; intros errs s O; cbn [ltr_loop]; [go|].
    destruct (ch_validator c i s) as [[v|[lines| | | |]] s1] eqn:E; assert (O1 : off s1) by go; try exact O1. apply IH, O1. }
  now apply L.
Qed.
Lemma find_call_off repr ps fs md custom choices tag : Forall (fun c => keeps (snd c)) choices -> keeps (find_call_validator repr ps fs md custom choices tag).
Proof.
  intros H i s O. unfold find_call_validator. destruct (lk_validate _ _ _ _ _) as [[id|]|]; [|repeat first [go | brk]|repeat first [go | brk]].
  destruct (nth_error choices id) as [[t v]|] eqn:E; [|go]. apply nth_error_In in E. rewrite Forall_forall in H. specialize (H _ E). cbn in H.
  repeat first [go | brk].
Qed.
Lemma tagged_off repr ga ps fs md d fa custom choices : Forall (fun c => keeps (snd c)) choices -> keeps (tagged_union_validate repr ga ps fs md d fa custom choices).
Proof.
  intros H i s O. unfold tagged_union_validate, tag_not_found.
  repeat first [go | apply (find_call_off repr ps fs md custom choices _ H); go | brk].
Qed.

(** Classes. *)
Lemma model_off sub c inner : keeps inner -> keeps (model_validate sub c inner).
Proof.
  intros H. assert (K : forall i ex s, off s -> off (snd (model_construct c inner i ex s))).
  { intros i ex s O. unfold model_construct, rebind.
    destruct (match mo_custom_init c with Some _ => _ | None => _ end) as [[v|e]|] eqn:CI; [go|go|]. destruct (mo_root c); repeat first [go | brk]. }
  intros i s O. unfold model_validate. repeat first [apply K; go | go | brk].
Qed.
Lemma dataclass_off sub c inner : keeps inner -> keeps (dataclass_validate sub c inner).
Proof. intros H i s O. unfold dataclass_validate. repeat first [go | brk]. Qed.

Lemma opt_keeps_map (f : schema -> cv) o : (forall c, In c (opt_list o) -> ckeeps (f c)) -> opt_keeps (option_map (fun sc => cv_validate (f sc)) o).
Proof. intros H v E. destruct o as [x|]; [|discriminate]. injection E as <-. apply H. now left. Qed.
Lemma eval_off E ref : (forall k, ckeeps (ref k)) -> forall sc, ckeeps (eval E ref sc).
Proof.
  intros R. apply (schema_children_ind (fun sc => ckeeps (eval E ref sc))).
  intros sc C. destruct sc; cbn [eval children] in *; try apply nd_off.
  - apply any_off.
  - apply none_off.
  - apply bool_off.
  - apply int_off.
  - apply float_off.
  - apply str_off.
  - apply bytes_off.
  - apply literal_off.
  - apply is_instance_off.
  - apply list_off. exact (opt_keeps_map _ _ C).
  - apply set_off. apply C; now left.
  - apply tuple_off. apply Forall_map_in, C.
  - apply dict_off; [apply C; now left|apply C; right; now left].
  - apply nullable_off, C. now left.
  - apply wd_cv_off. apply C; now left.
  - apply chain_off. apply Forall_map_in. intros x X. now apply C.
  - apply jop_off; apply C; [now left|right; now left].
  - apply los_off; apply C; [now left|right; now left].
  - apply custom_off, C. now left.
  - apply before_off, C; now left.
  - apply after_off, C; now left.
  - apply plain_off.
  - apply wrap_off.
  - assert (F : Forall (fun c => keeps (ch_validator c)) (map (fun cl => {| ch_validator := cv_validate (eval E ref (fst cl)); ch_label := snd cl |}) choices)).
    { apply Forall_map_in. intros x X. cbn. apply C. now apply in_map. }
    destruct mode; [apply smart_off|apply ltr_off]; exact F.
  - apply tagged_off. apply Forall_map_in. intros x X. cbn. apply C. now apply in_map.
  - apply model_fields_off; cbn.
    + apply Forall_map_in. intros x X. cbn. apply C, in_or_app. left. now apply in_map.
    + apply opt_keeps_map. intros x X. apply C, in_or_app. right. apply in_or_app. now left.
    + apply opt_keeps_map. intros x X. apply C, in_or_app. right. apply in_or_app. now right.
  - apply typed_dict_off; cbn.
    + apply Forall_map_in. intros x X. cbn. apply C, in_or_app. left. now apply in_map.
    + apply opt_keeps_map. intros x X. apply C, in_or_app. now right.
  - apply arguments_off; cbn.
    + apply Forall_map_in. intros x X. cbn. apply C, in_or_app. left. now apply in_map.
    + apply opt_keeps_map. intros x X. apply C, in_or_app. right. apply in_or_app. now left.
    + apply opt_keeps_map. intros x X. apply C, in_or_app. right. apply in_or_app. now right.
  - apply dataclass_args_off; cbn.
    + apply Forall_map_in. intros x X. cbn. apply C, in_or_app. left. now apply in_map.
    + apply opt_keeps_map. intros x X. apply C, in_or_app. now right.
  - apply model_off, C; now left.
  - apply dataclass_off, C; now left.
  - apply R.
Qed.
Lemma refs_off E defs : forall fuel depth k, ckeeps (refs E defs fuel depth k).
Proof.
  induction fuel as [|fuel IH]; intros depth k; cbn [refs]; [split; intros ? ? O; exact O|].
  destruct (defs k) as [sc|] eqn:K; [|split; intros ? ? O; exact O].
  assert (V : forall d, ckeeps (eval E (refs E defs fuel d) sc)) by (intros d; apply eval_off; apply IH).
  split; [|apply V]. intros i s O. cbn [cv_validate]. destruct i; try (destruct (_ <=? _); [go|]); apply V; go.
Qed.

(** C25 for collections and field sets: what they do to the books of the caller. *)
From Coq Require Import List NArith ZArith Bool Lia.
From Verif Require Import Base Float64 IntParse Numbers BytesCodec Values VState LookupKey Collections Child Inputs Scalars Literal Wrappers Union TaggedUnion Tuple ModelFields TypedDict Assign Arguments Classes Interp InterpSpec InterpProofs StrictSpec LooseSpec LooseQuiet UnionSpec UnionProofs BooksSpec.
From Verif Require SolidProofs.
Import ListNotations.
Open Scope nat_scope.

(** ** The books of the caller *)
(** What a validator that returns a value or errors does to the caller's books. *)
Definition books (a s : state) : Prop := exactness_le (st_exactness s) (st_exactness a) /\ count_le (st_fields_set a) (st_fields_set s).
Definition fine {A} (z : state) (p : vres A * state) : Prop :=
  match fst p with VOk _ => books z (snd p) | VErr (LineErrors _) => books z (snd p) | VErr _ => True end.
Definition keeps (v : validator) : Prop := forall i s, fine s (v i s).
Definition dkeeps (f : option loc_item -> state -> vres (option pyval) * state) : Prop := forall l s, fine s (f l s).
Definition nkeeps (v : validator) : Prop := keeps v /\ vne v.
Definition ndkeeps f : Prop := dkeeps f /\ dne f.
Definition ckeeps (v : cv) : Prop := nkeeps (cv_validate v) /\ ndkeeps (cv_default v).
Definition rkeeps (v : cv) : Prop := keeps (cv_validate v) /\ dkeeps (cv_default v).
Lemma books_refl s : books s s.
Proof. split; [destruct (st_exactness s) as [[]|]; cbn; auto|destruct (st_fields_set s); cbn; auto]. Qed.
Lemma books_trans a b c : books a b -> books b c -> books a c.
Proof.
  intros [A B] [C D]. split.
  - destruct (st_exactness a) as [[]|], (st_exactness b) as [[]|], (st_exactness c) as [[]|]; cbn in *; intuition (try discriminate).
  - destruct (st_fields_set a), (st_fields_set b), (st_fields_set c); cbn in *; try lia; auto.
Qed.
Lemma books_floor e s : books s (floor_exactness e s).
Proof. destruct s as [x n p z]. unfold floor_exactness, books. cbn [st_exactness]. destruct x as [[]|], e; cbn; (split; [auto|destruct n; cbn; auto]). Qed.
Lemma books_add k s : books s (add_fields_set k s).
Proof. destruct s as [x n p z]. unfold add_fields_set, books. cbn. split; [destruct x as [[]|]; cbn; auto|destruct n; cbn; [lia|auto]]. Qed.
Ltac strip := repeat match goal with
  | |- context [books ?a (set_partial ?p ?s)] => change (books a (set_partial p s)) with (books a s)
  | |- context [books ?a (set_extra ?p ?s)] => change (books a (set_extra p s)) with (books a s)
  | H : books ?a (set_partial ?p ?s) |- _ => change (books a s) in H
  | H : books ?a (set_extra ?p ?s) |- _ => change (books a s) in H
  | H : books (set_partial ?p ?a) ?s |- _ => change (books a s) in H
  | H : books (set_extra ?p ?a) ?s |- _ => change (books a s) in H
  end.
Ltac learn := repeat match goal with
  | H : nkeeps ?v, E : ?v ?i ?s = (_, ?t) |- _ => let N := fresh "N" in let M := fresh "M" in pose proof (proj1 H i s) as N; pose proof (proj2 H i s) as M; rewrite E in N, M; cbn [fine fst snd ne okv] in N, M; clear E
  | H : ndkeeps ?v, E : ?v ?i ?s = (_, ?t) |- _ => let N := fresh "N" in let M := fresh "M" in pose proof (proj1 H i s) as N; pose proof (proj2 H i s) as M; rewrite E in N, M; cbn [fine fst snd ne okv] in N, M; clear E
  end.
Ltac bk := strip; solve [assumption | apply books_refl
  | match goal with
    | |- books ?z (floor_exactness ?e ?s) => apply (books_trans z s); [bk|apply books_floor]
    | |- books ?z (add_fields_set ?k ?s) => apply (books_trans z s); [bk|apply books_add]
    | H : books ?s ?t |- books ?z ?t => apply (books_trans z s t); [clear H; bk|exact H]
    end].
Ltac go := solve [learn; unfold val_err, next_error; cbn [fine fst snd]; first [exact I | contradiction | bk]].
Ltac ev := match goal with |- fine _ (?r, _) => match r with VErr ?e => is_var e; destruct e | _ => is_var r; destruct r end end.
Ltac vi H := solve [apply H; learn; first [contradiction|bk]].
Ltac vix H K := solve [apply H; [exact K|learn; first [contradiction|bk]]].


Lemma vec_books child ff p mc items out errs s : nkeeps child -> forall z, books z s -> fine z (vec_loop child ff p mc out errs items s).
Proof.
  intros K. revert mc out errs s. induction items as [|[[ix lp] it] items IH]; intros mc out errs s z O; cbn [vec_loop]; [destruct errs; go|].
  repeat first [vi IH | go | ev | brk].
Qed.
Lemma list_books c child vl : (forall v, child = Some v -> nkeeps v) -> keeps (list_validate c child vl).
Proof.
  intros K i s. unfold list_validate, validate_iter_to_vec. destruct (vl _ i) as [sq|e]; [|destruct e; go]. destruct child as [v|].
  - match goal with |- context [vec_loop ?a ?b ?p ?d ?e ?f ?g ?h] => pose proof (vec_books a b p d g e f h (K _ eq_refl) s ltac:(bk)) as N; destruct (vec_loop a b p d e f g h) as [[out|er] s'] end; [|exact N].
    unfold fine in N; cbn [fst snd] in N. repeat first [go | ev | brk].
  - repeat first [go | ev | brk].
Qed.
Lemma set_loop_books child ff c i0 mx p items set errs s : nkeeps child -> forall z, books z s -> fine z (set_loop child ff c i0 mx p set errs items s).
Proof.
  intros K. revert set errs s. induction items as [|[[ix lp] it] items IH]; intros set errs s z O; cbn [set_loop]; [destruct errs; go|].
  unfold validate_add. repeat first [vi IH | go | ev | brk].
Qed.
Lemma set_books fz c child vl : nkeeps child -> keeps (set_validate fz c child vl).
Proof.
  intros K i s. unfold set_validate, validate_iter_to_set. destruct (vl _ i) as [sq|e]; [|destruct e; go].
  match goal with |- context [set_loop ?a ?b ?c ?d ?e ?p ?g ?h ?i ?j] => pose proof (set_loop_books a b c d e p i g h j K s ltac:(bk)) as N; destruct (set_loop a b c d e p g h i j) as [[out|er] s'] end; [|exact N].
  unfold fine in N; cbn [fst snd] in N. repeat first [go | ev | brk].
Qed.
Lemma dict_loop_books kv vv p items out errs s : nkeeps kv -> nkeeps vv -> forall z, books z s -> match dict_loop kv vv p out errs items s with (r, _, t) => fine z (r, t) end.
Proof.
  intros K V. revert out errs s. induction items as [|[[ix lp] en] items IH]; intros out errs s z O; cbn [dict_loop]; [go|].
  destruct en as [key kl value|e]; [|destruct e; go]. unfold set_item. repeat first [vi IH | go | ev | brk].
Qed.
Lemma dict_books c kv vv vd : nkeeps kv -> nkeeps vv -> keeps (dict_validate c kv vv vd).
Proof.
  intros K V i s. unfold dict_validate. destruct (vd _ i) as [es|e]; [|destruct e; go].
  match goal with |- context [dict_loop ?a ?b ?p ?d ?e ?f ?g] => pose proof (dict_loop_books a b p f d e g K V s ltac:(bk)) as N; destruct (dict_loop a b p d e f g) as [[[out|er] errs] s'] end; [|exact N].
  unfold fine in N; cbn [fst snd] in N. repeat first [go | ev | brk].
Qed.

Lemma fields_books c md i ba bn fs a s : Forall (fun f => ckeeps (f_cv f)) fs -> forall z, books z s -> fine z (fields_loop c md i ba bn fs a s).
Proof.
  intros H. revert a s. induction H as [|f fs [Hf Hd] H IH]; intros a s z O; cbn [fields_loop]; [go|].
  unfold rebind. repeat first [vi IH | go | ev | brk].
Qed.
Definition opt_keeps (o : option validator) : Prop := forall v, o = Some v -> nkeeps v.
Lemma extras_books c used es out errors fset s : opt_keeps (fc_extras c) -> opt_keeps (fc_extras_keys c) -> forall z, books z s -> fine z (extras_loop c used es out errors fset s).
Proof.
  intros H1 H2. revert out errors fset s. induction es as [|en es IH]; intros out errors fset s z O; [exact O|].
  cbn [extras_loop]. destruct en as [k kl v|e]; [|destruct e; go].
  destruct (fc_extras c) as [v1|]; [specialize (H1 _ eq_refl)|]; (destruct (fc_extras_keys c) as [v2|]; [specialize (H2 _ eq_refl)|]); repeat first [vi IH | go | ev | brk].
Qed.
Lemma model_fields_books c vm : Forall (fun f => ckeeps (f_cv f)) (fc_fields c) -> opt_keeps (fc_extras c) -> opt_keeps (fc_extras_keys c) -> keeps (model_fields_validate c vm).
Proof.
  intros H H1 H2 i s. unfold model_fields_validate, rebind.
  match goal with |- context [vm ?a ?b i] => destruct (vm a b i) as [md|e] eqn:V end; [|destruct e; go].
  match goal with |- context [fields_loop ?a ?b ?c ?d ?e ?f ?g ?h] => pose proof (fields_books a b c d e f g h H s ltac:(bk)) as N; destruct (fields_loop a b c d e f g h) as [[a'|e'] s'] end; [|destruct e'; go].
  unfold fine in N; cbn [fst snd] in N.
  destruct (extra_behavior_eqb _ _ || _); [repeat first [go | ev | brk]|].
  destruct (md_iter md) as [es|e] eqn:IT; [|destruct e; go].
  match goal with |- context [extras_loop ?a ?b ?c ?d ?e ?f ?g] => pose proof (extras_books a b c d e f g H1 H2 s ltac:(bk)) as N2; destruct (extras_loop a b c d e f g) as [[[[out errs] fset]|e'] s''] end; [|destruct e'; go].
  unfold fine in N2; cbn [fst snd] in N2. repeat first [go | ev | brk].
Qed.
Lemma td_books c md i last p ba bn fs a s : Forall (fun f => ckeeps (f_cv f)) fs -> forall z, books z s -> fine z (td_loop c md i last p ba bn fs a s).
Proof.
  intros H. revert a s. induction H as [|f fs [Hf Hd] H IH]; intros a s z O; cbn [td_loop]; [go|].
  unfold rebind. repeat first [vi IH | go | ev | brk].
Qed.
Lemma td_extras_books c used last p es out errors s : opt_keeps (fc_extras c) -> forall z, books z s -> fine z (td_extras c used last p es out errors s).
Proof.
  intros H1. revert out errors s. induction es as [|en es IH]; intros out errors s z O; [exact O|].
  cbn [td_extras]. destruct en as [k kl v|e]; [|destruct e; go].
  destruct (fc_extras c) as [v1|]; [specialize (H1 _ eq_refl)|]; repeat first [vi IH | go | ev | brk].
Qed.
Lemma typed_dict_books c vm : Forall (fun f => ckeeps (f_cv f)) (fc_fields c) -> opt_keeps (fc_extras c) -> keeps (typed_dict_validate c vm).
Proof.
  intros H H1 i s. unfold typed_dict_validate, rebind.
  match goal with |- context [vm ?a i] => destruct (vm a i) as [md|e] eqn:V end; [|destruct e; go].
  match goal with |- context [td_loop ?a ?b ?c ?d ?p ?e ?f ?g ?h ?k] => pose proof (td_books a b c d p e f g h k H s ltac:(bk)) as N; destruct (td_loop a b c d p e f g h k) as [[a'|e'] s'] end; [|destruct e'; go].
  unfold fine in N; cbn [fst snd] in N.
  destruct (extra_behavior_eqb _ _ || _); [repeat first [go | ev | brk]|].
  destruct (md_iter md) as [es|e] eqn:IT; [|destruct e; go].
  match goal with |- context [td_extras ?a ?b ?c ?p ?e ?f ?g ?h] => pose proof (td_extras_books a b c p e f g h H1 s ltac:(bk)) as N2; destruct (td_extras a b c p e f g h) as [[[out errs]|e'] s''] end; [|destruct e'; go].
  unfold fine in N2; cbn [fst snd] in N2. repeat first [go | ev | brk].
Qed.

(** Scalars and wrappers. *)
Lemma accept_books A (m : matched A) s k : (forall a t z, books z t -> fine z (k a t)) -> fine s (accept m s k).
Proof. intros K. unfold accept. destruct m as [[a e]|e]; [apply K; bk|destruct e; go]. Qed.
Ltac scal := intros i s; apply accept_books; intros ? ? ? O; cbv beta zeta; repeat first [go | ev | brk].
Lemma bool_books st : keeps (bool_validate st). Proof. scal. Qed.
Lemma int_books md st c : keeps (int_validate md st c). Proof. scal. Qed.
Lemma float_books pf st c : keeps (float_validate pf st c). Proof. scal. Qed.
Lemma str_books ps fs tl tu c : keeps (str_validate ps fs tl tu c). Proof. scal. Qed.
Lemma bytes_books c : keeps (bytes_validate c). Proof. scal. Qed.
Lemma literal_books ps fs md l : keeps (literal_validate ps fs md l). Proof. intros i s. unfold literal_validate. repeat first [go | ev | brk]. Qed.
Lemma any_books : keeps any_validate. Proof. intros i s. unfold any_validate. go. Qed.
Lemma none_books : keeps none_validate. Proof. intros i s. unfold none_validate. repeat first [go | ev | brk]. Qed.
Lemma nullable_books v : nkeeps v -> keeps (nullable v). Proof. intros K i s. unfold nullable. destruct (is_none_input i); [go|apply K]. Qed.
Lemma jop_books j p : nkeeps j -> nkeeps p -> keeps (json_or_python j p). Proof. intros K L i s. unfold json_or_python. destruct (x_input_type _); first [apply K|apply L]. Qed.
Lemma is_instance_books sub c : keeps (is_instance_validate sub c). Proof. intros i s. unfold is_instance_validate. repeat first [go | ev | brk]. Qed.
Lemma before_books f own v : nkeeps v -> keeps (function_before f own v). Proof. intros K i s. unfold function_before. destruct (call_fun _ _ _ _ _) as [w|e]; [apply K|destruct e; go]. Qed.
Lemma after_books f own v : nkeeps v -> keeps (function_after f own v). Proof. intros K i s. unfold function_after, call_fun. repeat first [go | ev | brk]. destruct (convert_err _ _); go. Qed.
Lemma plain_books f own : keeps (function_plain f own). Proof. intros i s. unfold function_plain. destruct (call_fun _ _ _ _ _) as [w|e]; [go|destruct e; go]. Qed.
Lemma chain_books l : Forall nkeeps l -> keeps (chain_validate l).
Proof.
  intros H. assert (R : forall steps, Forall nkeeps steps -> forall v s z, books z s -> fine z (chain_rest steps v s)).
  { clear. induction 1 as [|x l Hx H IH]; intros v s z O; cbn [chain_rest]; [go|]. repeat first [vi IH | go | ev | brk]. }
  intros i s. destruct H as [|x l Hx H]; cbn; [go|]. repeat first [vix R H | go | ev | brk].
Qed.
Lemma params_books c ai i ba bn ix ps a s : Forall (fun f => ckeeps (pa_cv f)) ps -> forall z, books z s -> fine z (params_loop c ai i ba bn ix ps a s).
Proof.
  intros H. revert ix a s. induction H as [|f fs [Hf Hd] H IH]; intros ix a s z O; cbn [params_loop]; [go|].
  unfold rebind. repeat first [vi IH | go | ev | brk].
Qed.
Lemma var_args_books v ix xs a s : opt_keeps v -> forall z, books z s -> fine z (var_args_loop v ix xs a s).
Proof. intros H. revert ix a s. induction xs as [|x xs IH]; intros ix a s z O; cbn [var_args_loop]; [go|]. destruct v as [v|]; [specialize (H _ eq_refl)|]; repeat first [vi IH | go | ev | brk]. Qed.
Lemma var_kwargs_books c es r a s : opt_keeps (ac_var_kwargs c) -> forall z, books z s -> fine z (var_kwargs_loop c es r a s).
Proof.
  intros H1. revert r a s. induction es as [|en es IH]; intros r a s z O; [exact O|].
  cbn [var_kwargs_loop]. destruct en as [k kl v|e]; [|destruct e; go].
  destruct (ac_var_kwargs c) as [v1|]; [specialize (H1 _ eq_refl)|]; repeat first [vi IH | go | ev | brk].
Qed.
Lemma finish_books a s z : books z s -> fine z (args_finish a s). Proof. intros O. unfold args_finish. repeat first [go | ev | brk]. Qed.
Lemma unpacked_books c rem a s z : opt_keeps (ac_var_kwargs c) -> books z s -> fine z (unpacked_stage c rem a s).
Proof. intros H O. unfold unpacked_stage. destruct (ac_var_kwargs c) as [v1|]; [specialize (H _ eq_refl)|]; repeat first [vi finish_books | go | ev | brk]. Qed.
Lemma va_books c ai a s z : opt_keeps (ac_var_args c) -> books z s -> fine z (var_args_stage c ai a s).
Proof. intros H O. unfold var_args_stage. repeat first [vix var_args_books H | go | ev | brk]. Qed.
Lemma vk_books c ai a s z : opt_keeps (ac_var_kwargs c) -> books z s -> fine z (var_kwargs_stage c ai a s).
Proof. intros H O. unfold var_kwargs_stage. repeat first [vix var_kwargs_books H | go | ev | brk]. Qed.
Lemma arguments_books c va : Forall (fun f => ckeeps (pa_cv f)) (ac_params c) -> opt_keeps (ac_var_args c) -> opt_keeps (ac_var_kwargs c) -> keeps (arguments_validate c va).
Proof.
  intros H H1 H2 i s. unfold arguments_validate. destruct (va i) as [ai|e] eqn:V; [|destruct e; go].
  match goal with |- context [params_loop ?a ?b ?c ?d ?e ?f ?g ?h ?k] => pose proof (params_books a b c d e f g h k H s ltac:(bk)) as N; destruct (params_loop a b c d e f g h k) as [[a'|e'] s'] end; [|destruct e'; go].
  unfold fine in N; cbn [fst snd] in N.
  pose proof (va_books c ai a' s' s H1 N) as N1. destruct (var_args_stage c ai a' s') as [[a1|e1] s1]; [|destruct e1; go]. unfold fine in N1; cbn [fst snd] in N1.
  pose proof (vk_books c ai a1 s1 s H2 N1) as N2. destruct (var_kwargs_stage c ai a1 s1) as [[[a2 rem]|e2] s2]; [|destruct e2; go]. unfold fine in N2; cbn [fst snd] in N2.
  now apply unpacked_books.
Qed.
Lemma dc_books c ai i ba bn ix fs a s : Forall (fun f => ckeeps (df_cv f)) fs -> forall z, books z s -> fine z (dc_loop c ai i ba bn ix fs a s).
Proof.
  intros H. revert ix a s. induction H as [|f fs [Hf Hd] H IH]; intros ix a s z O; cbn [dc_loop]; [go|].
  unfold rebind. repeat first [vi IH | go | ev | brk].
Qed.
Lemma dcx_books c es a s : opt_keeps (dc_extras c) -> forall z, books z s -> fine z (dc_extras_loop c es a s).
Proof.
  intros H1. revert a s. induction es as [|en es IH]; intros a s z O; [exact O|].
  cbn [dc_extras_loop]. destruct en as [k kl v|e]; [|destruct e; go].
  destruct (dc_extras c) as [v1|]; [specialize (H1 _ eq_refl)|]; repeat first [vi IH | go | ev | brk].
Qed.
Lemma dataclass_args_books c va : Forall (fun f => ckeeps (df_cv f)) (dc_fields c) -> opt_keeps (dc_extras c) -> keeps (dataclass_args_validate c va).
Proof.
  intros H H1 i s. unfold dataclass_args_validate, rebind. destruct (va i) as [ai|e] eqn:V; [|destruct e; go].
  match goal with |- context [dc_loop ?a ?b ?c ?d ?e ?f ?g ?h ?k] => pose proof (dc_books a b c d e f g h k H s ltac:(bk)) as N; destruct (dc_loop a b c d e f g h k) as [[a'|e'] s'] end; [|destruct e'; go].
  unfold fine in N; cbn [fst snd] in N.
  assert (N2 : fine s (dc_kwargs_stage c ai (dc_args_stage c ai a') s')).
  { unfold dc_kwargs_stage. repeat first [vix dcx_books H1 | go | ev | brk]. }
  destruct (dc_kwargs_stage _ _ _ _) as [[a2|e2] s2]; [|destruct e2; go]. unfold fine in N2; cbn [fst snd] in N2. unfold dc_finish. repeat first [go | ev | brk].
Qed.
(** Unions. *)
Lemma smart_books custom cs : keeps (validate_smart custom cs).
Proof.
  intros i s. pose proof (smart_keeps custom cs i s) as K. destruct (validate_smart custom cs i s) as [r t]. unfold fine. cbn [fst snd]. unfold books.
  destruct r as [v|[es| | | |]]; try exact I; (apply (K _ _ eq_refl); unfold finished; eauto).
Qed.
Lemma ltr_books custom cs : Forall (fun c => nkeeps (ch_validator c)) cs -> keeps (validate_left_to_right custom cs).
Proof.
  intros H i s. unfold validate_left_to_right.
  assert (L : forall cs, Forall (fun c => nkeeps (ch_validator c)) cs -> forall errs s z, books z s -> fine z (ltr_loop custom cs i errs s)).
  { clear. induction 1 as [|c cs Hc H IH]; intros errs s z O; cbn [ltr_loop]; [destruct (into_val_error _ _ _); go|]. repeat first [vi IH | go | ev | brk]. }
  apply L; [exact H|bk].
Qed.
Lemma find_call_books repr ps fs md custom choices tag : Forall (fun c => nkeeps (snd c)) choices -> keeps (find_call_validator repr ps fs md custom choices tag).
Proof.
  intros H i s. unfold find_call_validator. destruct (lk_validate _ _ _ _ _) as [[id|]|e]; [|destruct custom; go|destruct custom; go].
  destruct (nth_error choices id) as [[t v]|] eqn:E; [|go]. apply nth_error_In in E. rewrite Forall_forall in H. specialize (H _ E). cbn in H.
  destruct (v i s) as [[x|[]] s'] eqn:V; unfold with_outer_err; go.
Qed.
Lemma tagged_books repr ga ps fs md d fa custom choices : Forall (fun c => nkeeps (snd c)) choices -> keeps (tagged_union_validate repr ga ps fs md d fa custom choices).
Proof.
  intros H i s. unfold tagged_union_validate, tag_not_found.
  repeat first [go | apply (find_call_books repr ps fs md custom choices _ H) | ev | brk].
Qed.
Definition tbooks (z : state) (r : tres) : Prop := match r with TFail e s => fine z (@VErr pyval e, s) | TDone a => books z (ta_state a) end.
Section TupleBooks.
Variables (z : state) (c : tuple_cfg) (i : input) (actual : option nat).
Lemma use_books ix v x a : nkeeps v -> books z (ta_state a) -> forall b, ta_state b = ta_state a -> tbooks z (use_item c i actual ix (v x (ta_state a)) b).
Proof.
  intros H O b _. unfold use_item, push_output_item. destruct (v x (ta_state a)) as [[y|[]] s'] eqn:E; learn; try contradiction; try exact I; assert (B : books z s') by bk; [|exact B].
  destruct (tu_max c) as [m|]; [destruct (Nat.ltb _ _)|]; exact B.
Qed.
Lemma titems_books vs a : Forall ckeeps vs -> books z (ta_state a) -> tbooks z (tuple_items c i actual vs a).
Proof.
  intros H. revert a. induction H as [|v vs [Hv Hd] H IH]; intros a O; cbn [tuple_items]; [exact O|].
  match goal with |- tbooks z (match ?st with _ => _ end) => assert (S : tbooks z st); [|destruct st as [a'|]; [destruct (stop_now c a'); [exact S|now apply IH]|exact S]] end.
  destruct (ti_next (ta_iter a)) as [[x|] it'].
  - apply use_books; [exact Hv|exact O|reflexivity].
  - destruct (cv_default v _ (ta_state a)) as [[[x|]|[]] s'] eqn:E; learn; try contradiction; try exact I; assert (B : books z s') by bk; exact B.
Qed.
Lemma trest_books v rest a : ckeeps v -> books z (ta_state a) -> tbooks z (tuple_rest c i actual v rest a).
Proof.
  intros [H _]. revert a. induction rest as [|it rest IH]; intros a O; cbn [tuple_rest]; [exact O|]. destruct it as [x|]; [|exact O].
  pose proof (use_books (ta_count a) (cv_validate v) x a H O (ta_move (snd (ti_next (ta_iter a))) a) eq_refl) as U. destruct (use_item _ _ _ _ _ _) as [a'|]; [|exact U].
  destruct (stop_now _ _); [exact U|now apply IH].
Qed.
Lemma tbuf_books v rest buf ix a : ckeeps v -> books z (ta_state a) -> match tuple_buffered c i actual v rest buf ix a with BEnd a' _ _ => books z (ta_state a') | BReturn r => tbooks z r end.
Proof.
  intros [H _]. revert buf ix a. induction rest as [|it rest IH]; intros buf ix a O; cbn [tuple_buffered]; [exact O|]. destruct it as [x|]; [|exact O].
  destruct (buf ++ [x]) as [|y buf']; [exact I|].
  pose proof (use_books (ta_count a) (cv_validate v) y a H O (ta_move (snd (ti_next (ta_iter a))) a) eq_refl) as U. destruct (use_item _ _ _ _ _ _) as [a'|]; [|exact U].
  destruct (stop_now _ _); [exact U|now apply IH].
Qed.
Lemma tvar_books a : Forall ckeeps (tu_validators c) -> books z (ta_state a) -> tbooks z (tuple_variable c i actual a).
Proof.
  intros H O. assert (D : forall vs, incl vs (tu_validators c) -> forall a, books z (ta_state a) -> tbooks z (tuple_items c i actual vs a)).
  { intros vs I a0. apply titems_books. rewrite Forall_forall in *. intros x X. apply H, I, X. }
  unfold tuple_variable. destruct (tu_variadic c) as [k|].
  - destruct (skipn k (tu_validators c)) as [|v tail] eqn:S; [exact I|].
    assert (I1 : incl (firstn k (tu_validators c)) (tu_validators c)). { intros x X. rewrite <- (firstn_skipn k (tu_validators c)). apply in_or_app. now left. }
    assert (I2 : incl (v :: tail) (tu_validators c)). { intros x X. rewrite <- (firstn_skipn k (tu_validators c)), S. apply in_or_app. now right. }
    assert (I3 : incl tail (tu_validators c)). { intros x X. apply I2. now right. }
    assert (Hv : ckeeps v). { rewrite Forall_forall in H. apply H, I2. now left. }
    pose proof (D _ I1 a O) as T. destruct (tuple_items _ _ _ _ _) as [a1|]; [|exact T].
    destruct (stop_now c a1); [exact T|]. destruct tail as [|w tail'] eqn:ET; [exact (trest_books _ _ _ Hv T)|].
    destruct (ti_take _ _) as [buf it]. match goal with |- context [tuple_buffered ?a ?b ?c ?d ?e ?f ?g ?h] => pose proof (tbuf_books d e f g h Hv T) as B; destruct (tuple_buffered a b c d e f g h) as [a3 buf' ix|r] end; [|exact B].
    match goal with |- context [tuple_items ?a ?b ?c ?d ?e] => pose proof (D _ I3 e B) as T2; destruct (tuple_items a b c d e) end; exact T2.
  - pose proof (D _ (incl_refl _) a O) as T. destruct (tuple_items _ _ _ _ _) as [a1|]; [|exact T]. destruct (stop_now c a1); [exact T|].
    destruct (ti_next _) as [[x|] it']; exact T.
Qed.
End TupleBooks.
Lemma tuple_books c vt : Forall ckeeps (tu_validators c) -> keeps (tuple_validate c vt).
Proof.
  intros H i s. unfold tuple_validate. match goal with |- context [vt ?b i] => destruct (vt b i) as [sq|e] end; [|destruct e; go].
  match goal with |- context [tuple_variable ?a ?b ?c ?d] => pose proof (tvar_books s a b c d H ltac:(cbn [ta_state]; bk)) as N; destruct (tuple_variable a b c d) as [a'|e s'] end; [|exact N].
  cbn [tbooks] in N. repeat first [go | ev | brk].
Qed.

(** Classes. *)
Lemma fine_any A z (r : vres A) s : books z s -> fine z (r, s). Proof. intros O. destruct r as [|[]]; first [exact I|exact O]. Qed.
Ltac fa := solve [apply fine_any; learn; first [contradiction|bk]].
Lemma model_books sub c inner : nkeeps inner -> keeps (model_validate sub c inner).
Proof.
  intros H. assert (K : forall i ex s z, books z s -> fine z (model_construct c inner i ex s)).
  { intros i ex s z O. unfold model_construct, rebind.
    destruct (match mo_custom_init c with Some _ => _ | None => _ end) as [[v|e]|] eqn:CI; [go|fa|]. destruct (mo_root c); repeat first [go | fa | ev | brk]. }
  intros i s. unfold model_validate. repeat first [vi K | go | fa | ev | brk].
Qed.
Lemma dataclass_books sub c inner : nkeeps inner -> keeps (dataclass_validate sub c inner).
Proof. intros H i s. unfold dataclass_validate. repeat first [go | fa | ev | brk]. Qed.
Lemma wd_books n w : nkeeps (wd_inner w) -> wd_on_error w = OnRaise ->
  (forall i s r s', wd_validate n w i s = Some (r, s') -> fine s (r, s')) /\
  (forall l s r s', default_value (wd_validate n w) w l s = Some (r, s') -> fine s (r, s')).
Proof.
  intros [H HN] OE. assert (K : forall m, (forall i s r s', wd_validate m w i s = Some (r, s') -> fine s (r, s')) -> forall l s r s', default_value (wd_validate m w) w l s = Some (r, s') -> fine s (r, s')).
  { intros m V l s r s' D. unfold default_value in D. destruct (stored_default _ _) as [[d|]|e] eqn:S.
    - destruct (wd_validate_default w); [|injection D as <- <-; apply fine_any, books_refl].
      destruct (wd_validate m w (IPy d) s) as [[[v|e] s1]|] eqn:E; [| |discriminate]; injection D as <- <-; pose proof (V _ _ _ _ E) as F; [exact F|].
      destruct e, l; exact F.
    - injection D as <- <-. apply fine_any, books_refl.
    - injection D as <- <-. apply fine_any, books_refl. }
  assert (V : forall i s r s', wd_validate n w i s = Some (r, s') -> fine s (r, s')); [|split; [exact V|exact (K n V)]].
  induction n as [|n IH]; [discriminate|]. intros i s r s' E. cbn [wd_validate] in E.
  destruct (is_undefined i).
  - destruct (default_value (wd_validate n w) w None s) as [[[[v|]|e'] s2]|] eqn:D; [| | |discriminate]; injection E as <- <-; pose proof (K n IH _ _ _ _ D) as F; [exact F|exact I|destruct e'; exact F].
  - pose proof (H i s) as N. pose proof (HN i s) as M. rewrite OE in E. destruct (wd_inner w i s) as [[v|[es| | | |]] s1]; try contradiction; injection E as <- <-; exact N.
Qed.
Lemma wd_cv_books n w : nkeeps (wd_inner w) -> wd_on_error w = OnRaise -> rkeeps (wd_cv n w).
Proof.
  intros H OE. destruct (wd_books n w H OE) as [A B]. split.
  - intros i s. cbn. destruct (wd_validate n w i s) as [[r s']|] eqn:E; [exact (A _ _ _ _ E)|exact I].
  - intros l s. cbn. destruct (default_value _ w l s) as [[r s']|] eqn:E; [exact (B _ _ _ _ E)|exact I].
Qed.
Lemma nd_books v : keeps v -> rkeeps (no_default v). Proof. intros H; split; [exact H|]. intros l s. apply fine_any, books_refl. Qed.

(** ** Every schema *)
Lemma opt_keeps_map (f : schema -> cv) o : (forall c, In c (opt_list o) -> ckeeps (f c)) -> opt_keeps (option_map (fun sc => cv_validate (f sc)) o).
Proof. intros H v E. destruct o as [x|]; [|discriminate]. injection E as <-. apply H. now left. Qed.
Lemma both v : rkeeps v -> cvne v -> ckeeps v. Proof. intros [A B] [C D]. repeat split; assumption. Qed.
Lemma bookish_orderly sc : everywhere bookish sc -> everywhere orderly sc.
Proof. intros W. induction W as [sc [P _] _ IH]. now constructor. Qed.
Lemma solid_books v : SolidProofs.ckeeps v -> rkeeps v.
Proof.
  intros [A B]. split; intros x s; [specialize (A x s)|specialize (B x s)]; [destruct (cv_validate v x s)|destruct (cv_default v x s)]; apply fine_any; assumption.
Qed.
Lemma los_books b l t : nkeeps l -> nkeeps t -> SolidProofs.keeps t -> keeps (lax_or_strict b l t).
Proof.
  intros K L T i s. unfold lax_or_strict. destruct (strict_or s b); [apply L|]. destruct (st_exactness s); [|apply K].
  specialize (T i s). destruct (t i s) as [[v|[]] s'] eqn:E; cbn [snd] in T; change (books s s') in T; try exact I; try exact T;
    (pose proof (proj1 K i (floor_exactness Lax s')) as F; unfold fine in *; destruct (fst (l i _)) as [|[]]; try exact I; (apply (books_trans s (floor_exactness Lax s')); [bk|exact F])).
Qed.
Lemma eval_books E ref : (forall k, ckeeps (ref k)) -> forall sc, everywhere bookish sc -> ckeeps (eval E ref sc).
Proof.
  intros R. assert (NE : forall sc, everywhere bookish sc -> cvne (eval E ref sc)).
  { intros sc W. apply eval_ne; [|now apply bookish_orderly]. intros k. destruct (R k) as [[A B] [C D]]. now split. }
  apply (schema_children_ind (fun sc => everywhere bookish sc -> ckeeps (eval E ref sc))).
  intros sc IH W. apply both; [|now apply NE]. destruct W as [sc [_ P] W].
  assert (C : forall c, In c (children sc) -> ckeeps (eval E ref c)) by auto. clear IH W NE.
  assert (Q : forall x, sc = x -> no_smart x -> (forall c, In c (children x) -> everywhere no_smart c) -> rkeeps (eval E ref sc)).
  { intros x <- N D. apply solid_books, SolidProofs.eval_solid. now constructor. }
  destruct sc; try (apply (Q _ eq_refl I); cbn; intros ? [<- |[]]; exact P); cbn [eval children] in *; try contradiction; try apply nd_books.
  - apply any_books.
  - apply none_books.
  - apply bool_books.
  - apply int_books.
  - apply float_books.
  - apply str_books.
  - apply bytes_books.
  - apply literal_books.
  - apply is_instance_books.
  - apply list_books. exact (opt_keeps_map _ _ C).
  - apply set_books. apply C; now left.
  - apply tuple_books. apply Forall_map_in, C.
  - apply dict_books; [apply C; now left|apply C; right; now left].
  - apply nullable_books, C. now left.
  - destruct P as [P|P]; [apply wd_cv_books; [apply C; now left|exact P]|]. apply (Q _ eq_refl I). cbn. intros ? [<- |[]]. exact P.
  - apply chain_books. apply Forall_map_in. intros x X. now apply C.
  - apply jop_books; apply C; [now left|right; now left].
  - apply los_books; [apply C; now left|apply C; right; now left|]. now apply SolidProofs.eval_solid.
  - apply before_books, C; now left.
  - apply after_books, C; now left.
  - apply plain_books.
  - assert (F : Forall (fun c => nkeeps (ch_validator c)) (map (fun cl => {| ch_validator := cv_validate (eval E ref (fst cl)); ch_label := snd cl |}) choices)).
    { apply Forall_map_in. intros x X. cbn. apply C. now apply in_map. }
    destruct mode; [apply smart_books|apply ltr_books; exact F].
  - apply tagged_books. apply Forall_map_in. intros x X. cbn. apply C. now apply in_map.
  - apply model_fields_books; cbn.
    + apply Forall_map_in. intros x X. cbn. apply C, in_or_app. left. now apply in_map.
    + apply opt_keeps_map. intros x X. apply C, in_or_app. right. apply in_or_app. now left.
    + apply opt_keeps_map. intros x X. apply C, in_or_app. right. apply in_or_app. now right.
  - apply typed_dict_books; cbn.
    + apply Forall_map_in. intros x X. cbn. apply C, in_or_app. left. now apply in_map.
    + apply opt_keeps_map. intros x X. apply C, in_or_app. now right.
  - apply arguments_books; cbn.
    + apply Forall_map_in. intros x X. cbn. apply C, in_or_app. left. now apply in_map.
    + apply opt_keeps_map. intros x X. apply C, in_or_app. right. apply in_or_app. now left.
    + apply opt_keeps_map. intros x X. apply C, in_or_app. right. apply in_or_app. now right.
  - apply dataclass_args_books; cbn.
    + apply Forall_map_in. intros x X. cbn. apply C, in_or_app. left. now apply in_map.
    + apply opt_keeps_map. intros x X. apply C, in_or_app. now right.
  - apply model_books, C; now left.
  - apply dataclass_books, C; now left.
  - destruct (R k) as [[A _] [B _]]. now split.
Qed.
Lemma refs_books E defs : (forall k d, defs k = Some d -> everywhere bookish d) -> forall fuel depth k, ckeeps (refs E defs fuel depth k).
Proof.
  intros D. assert (NE : forall fuel depth k, cvne (refs E defs fuel depth k)) by (apply refs_ne; intros k d K; exact (bookish_orderly _ (D _ _ K))).
  induction fuel as [|fuel IH]; intros depth k; (apply both; [|apply NE]); cbn [refs]; [split; intros ? ?; exact I|].
  destruct (defs k) as [sc|] eqn:K; [|split; intros ? ?; exact I].
  assert (V : forall d, ckeeps (eval E (refs E defs fuel d) sc)) by (intros d; apply eval_books; [apply IH|exact (D _ _ K)]).
  split; [|exact (proj1 (proj2 (V _)))]. intros i s. cbn [cv_validate]. destruct i; try (destruct (_ <=? _); [go|]); exact (proj1 (proj1 (V _)) _ _).
Qed.
Lemma run_books E defs fuel sc : holds_of bookish defs sc -> keeps (run E defs fuel sc).
Proof. intros [A B]. apply eval_books; [|exact A]. apply refs_books, B. Qed.
Lemma keeps_spec v : keeps v -> keeps_books v.
Proof. intros K i s r s' E F. specialize (K i s). rewrite E in K. unfold fine in K. cbn [fst snd] in K. destruct F as [[x ->]|[es ->]]; exact K. Qed.

From Coq Require Import List NArith ZArith Bool Lia.
From Verif Require Import Base Float64 IntParse IntParseProofs Numbers NumbersSpec NumbersProofs BytesCodec Values VState LookupKey Collections Child Inputs Scalars Literal Wrappers Union TaggedUnion Tuple ModelFields TypedDict Assign Arguments Classes Interp InterpSpec InterpProofs ConformSpec ConformProofs ConformProofs2.
Import ListNotations.
Open Scope nat_scope.

(** ** Scalars *)
Ltac nob := repeat first [exact I | match goal with H : no ?r, E : ?r = VErr _ |- _ => rewrite E in H; exact H end | brk].
Lemma lax_no A (r : vres A) : no r -> no (lax r). Proof. destruct r as [|[]]; auto. Qed.
Lemma strictly_no A (r : vres A) : no r -> no (strictly r). Proof. destruct r as [|[]]; auto. Qed.
Lemma maybe_no v t : no (maybe_as_string v t). Proof. unfold maybe_as_string. nob. Qed.
Lemma sb_no i t : no (in_str_as_bool i t). Proof. unfold in_str_as_bool. nob. Qed.
Lemma ib_no i z : no (in_int_as_bool i z). Proof. unfold in_int_as_bool. nob. Qed.
Lemma si_no md i t : no (in_str_as_int md i t). Proof. unfold in_str_as_int. nob. Qed.
Lemma fi_no i f : no (in_float_as_int i f). Proof. unfold in_float_as_int. nob. Qed.
Lemma sf_no pf i t : no (in_str_as_float pf i t). Proof. unfold in_str_as_float. nob. Qed.
Lemma des_no m i t : no (in_deserialize m i t). Proof. unfold in_deserialize. nob. Qed.
Lemma maybe_no_err v t e : maybe_as_string v t = VErr e -> forall A, no (@VErr A e).
Proof. intros E A. pose proof (maybe_no v t) as H. rewrite E in H. destruct e; exact H. Qed.
Ltac noscalar := repeat first [exact I | eapply maybe_no_err; eassumption | apply lax_no | apply strictly_no | apply sb_no | apply ib_no | apply si_no | apply fi_no | apply sf_no | apply des_no | brk].
Lemma vbool_no b i : no (validate_bool b i). Proof. unfold validate_bool. noscalar. Qed.
Lemma vint_no md b i : no (validate_int md b i). Proof. unfold validate_int. noscalar. Qed.
Lemma vfloat_no pf b i : no (validate_float pf b i). Proof. unfold validate_float. noscalar. Qed.
Lemma vstr_no ps fs b c i : no (validate_str ps fs b c i). Proof. unfold validate_str. noscalar. Qed.
Lemma vbytes_no b m i : no (validate_bytes b m i). Proof. unfold validate_bytes. noscalar. Qed.
Lemma accept_ok A (m : matched A) s k P O : no m -> (forall a e s, m = VOk (a, e) -> vk P O (fst (k a s))) -> vk P O (fst (accept m s k)).
Proof. intros N H. unfold accept. destruct m as [[a e]|e]; [now apply (H a e)|]. destruct e; try exact I. destruct N. Qed.

Lemma constrained_int_ok c e e' : validate_constrained_int c e = NOk e' -> e' = e /\ int_constraints_hold c (either_int_value e).
Proof.
  intros H. assert (M : forall m, ic_multiple_of c = Some m -> NumbersSpec.int_value m <> 0%Z /\ ~ (as_int e = I64 (- 2 ^ 63) /\ m = I64 (-1))).
  { intros m Em. unfold validate_constrained_int in H. rewrite Em in H. destruct (int_rem (as_int e) m) as [r|] eqn:R; [|discriminate]. split.
    - unfold int_rem in R. destruct (as_int e), m; cbn; match type of R with context [Z.eqb ?x 0] => destruct (Z.eqb_spec x 0); [discriminate|assumption] end.
    - intros [A ->]. rewrite A in R. discriminate. }
  destruct (constrained_int_iff c e M) as (A & B & C). pose proof (C _ H) as ->. split; [reflexivity|]. now apply A.
Qed.
Lemma int_values e : Scalars.int_value e = either_int_value e. Proof. now destruct e. Qed.
Lemma int_ok strings md st c O : vok strings (fun v => exists z, v = PInt z /\ forall k, c = Some k -> int_constraints_hold k z) O (int_validate md st c).
Proof.
  intros i s _. apply accept_ok; [apply vint_no|]. intros a e s' _. destruct c as [c|]; [|cbn; eexists; split; [reflexivity|discriminate]].
  destruct (validate_constrained_int c a) as [n| |] eqn:V; try exact I. apply constrained_int_ok in V. destruct V as [-> V].
  cbn. eexists. split; [reflexivity|]. intros k [= <-]. now rewrite int_values.
Qed.
Lemma float_ok strings pf st c O : vok strings (fun v => exists f, v = PFloat f /\ (floats_valid c f -> float_bounds_hold c f)) O (float_validate pf st c).
Proof.
  intros i s _. apply accept_ok; [apply vfloat_no|]. intros f e s' _. destruct (validate_constrained_float c f) eqn:V; [exact I|].
  cbn. eexists. split; [reflexivity|]. intros [A B]. now apply (constrained_float_iff c f A B).
Qed.
Lemma bool_ok strings st O : vok strings (fun v => exists b, v = PBool b) O (bool_validate st).
Proof. intros i s _. apply accept_ok; [apply vbool_no|]. intros b e s' _. cbn. eauto. Qed.

Lemma trim_trim t : trim (trim t) = trim t.
Proof.
  destruct (trim t) as [|c r] eqn:E; [reflexivity|].
  assert (C : is_space c = false).
  { destruct (trim_start_spec t) as (w & _ & _ & N). destruct (trim_start_spec (rev (trim_start t))) as (w2 & Q & _ & _).
    unfold trim, trim_end in E. apply (f_equal (@rev _)) in Q. rewrite rev_involutive, rev_app_distr, E in Q. exact (N _ _ Q). }
  assert (D : forall d r', c :: r = r' ++ [d] -> is_space d = false).
  { intros d r' Q. rewrite Q in E. destruct (trim_start_spec (rev (trim_start t))) as (w2 & _ & _ & N).
    unfold trim, trim_end in E. apply (f_equal (@rev _)) in E. rewrite rev_involutive, rev_app_distr in E. exact (N _ _ E). }
  destruct (exists_last (l := c :: r)) as (r' & d & Q); [discriminate|].
  pose proof (trim_exact [] (c :: r) [] c r d r') as T. cbn [app] in T. rewrite app_nil_r in T. apply T; auto; try (now constructor); exact (D _ _ Q).
Qed.
Lemma within_checks mn mx n : too_short mn n = None -> too_long mx n = None -> within mn mx n.
Proof.
  unfold too_short, too_long. intros A B. split; intros m ->.
  - destruct (Nat.ltb_spec n m); [discriminate|lia].
  - destruct (Nat.ltb_spec m n); [discriminate|lia].
Qed.
Lemma str_ok strings ps fs tl tu c O : 
  vok strings (fun v => exists u, v = PStr (if sc_to_lower c then tl u else if sc_to_upper c then tu u else u) /\ str_meets c u) O (str_validate ps fs tl tu c).
Proof.
  intros i s _. apply accept_ok; [apply vstr_no|]. intros t e s' _. cbv zeta. set (u := if sc_strip c then trim t else t).
  destruct (too_short (sc_min c) (length u)) eqn:A; [exact I|]. destruct (too_long (sc_max c) (length u)) eqn:B; [exact I|].
  destruct (match sc_pattern c with Some p => p u | None => inl true end) as [[]|] eqn:PT; try exact I.
  cbn. exists u. split; [reflexivity|]. split; [|split; [now apply within_checks|]].
  - intros ST. unfold u. rewrite ST. apply trim_trim.
  - intros p Ep. now rewrite Ep in PT.
Qed.
Lemma vbytes_bytes b m i v e : validate_bytes b m i = VOk (v, e) -> exists l, strip v = PBytes l.
Proof.
  unfold validate_bytes, in_deserialize, lax, strictly. intros H.
  repeat (match type of H with context [match ?x with _ => _ end] => destruct x eqn:? end; try discriminate); injection H as <- <-; eauto;
    repeat (match goal with E : context [match ?x with _ => _ end] |- _ => destruct x; try discriminate end); repeat match goal with E : VOk _ = VOk _ |- _ => injection E as <- end; cbn; eauto.
Qed.
Lemma bytes_ok strings c O : vok strings (fun v => exists b, strip v = PBytes b /\ within (bc_min c) (bc_max c) (length b)) O (bytes_validate c).
Proof.
  intros i s _. apply accept_ok; [apply vbytes_no|]. intros v e s' V. destruct (vbytes_bytes _ _ _ _ _ V) as [l L]. unfold bytes_len. rewrite L.
  destruct (too_short _ _) eqn:A; [exact I|]. destruct (too_long _ _) eqn:B; [exact I|]. cbn. exists l. split; [exact L|]. now apply within_checks.
Qed.
Lemma lk_no ps fs md lk i e : lk_validate ps fs md lk i = VErr e -> e <> Omit.
Proof.
  unfold lk_validate. destruct (bool_slot _ _); [discriminate|]. destruct (int_slot _ _ _) as [[]|e'] eqn:IS; try discriminate.
  - destruct (str_slot _ _ _ _); [discriminate|]. destruct (pd_lookup _ _); [discriminate|]. destruct (values_slot _ _); discriminate.
  - intros [= ->]. unfold int_slot in IS. destruct (lk_int _); [discriminate|]. destruct (exact_int _ _) as [n|]; [|discriminate]. unfold into_i64 in IS. destruct (fits_i64 _); [discriminate|]. injection IS as <-. discriminate.
Qed.
Lemma literal_ok strings ps fs md l O : vok strings (fun v => In v l) O (literal_validate ps fs md l).
Proof.
  intros i s _. unfold literal_validate. destruct (lk_validate _ _ _ _ _) as [[id|]|e] eqn:L; [|exact I|].
  - destruct (nth_error l id) eqn:N; [exact (nth_error_In _ _ N)|exact I].
  - apply lk_no in L. destruct e; try exact I. easy.
Qed.
Lemma is_instance_ok strings sub cls O : vok strings (fun v => exists c, class_of v = Some c /\ sub c cls = true) O (is_instance_validate sub cls).
Proof.
  intros i s _. unfold is_instance_validate. destruct i; try exact I. destruct (is_instance sub v cls) eqn:S; [|exact I]. cbn.
  unfold is_instance in S. destruct (class_of v); [eauto|discriminate].
Qed.

(** ** Wrappers *)
Section WrapOk.
Variable strings : bool.
Lemma wd_ok n w (P : pyval -> Prop) (O : Prop) :
  vok strings P (wd_on_error w <> OnOmit -> O) (wd_inner w) -> (wd_on_error w = OnOmit -> O) ->
  (wd_validate_default w = false -> forall v, is_default (wd_default_kind w) v -> P v) ->
  vok strings P O (cv_validate (wd_cv n w)) /\ dok P O (wd_default_kind w <> DNone) (cv_default (wd_cv n w)).
Proof.
  intros H HO HD.
  assert (SD : forall d v, stored_default (wd_default_kind w) d = VOk (Some v) -> is_default (wd_default_kind w) v /\ wd_default_kind w <> DNone).
  { intros d v. unfold stored_default. destruct (wd_default_kind w) as [|x|f td]; [discriminate| |]; cbn.
    - intros [= ->]. split; [reflexivity|discriminate].
    - destruct (f _) eqn:F; [|discriminate]. intros [= <-]. split; [eauto|discriminate]. }
  assert (SE : forall d e, stored_default (wd_default_kind w) d = VErr e -> e <> Omit).
  { intros d e. unfold stored_default. destruct (wd_default_kind w) as [|x|f td]; try discriminate. destruct (f _); [discriminate|]. intros [= <-]. discriminate. }
  assert (K : forall m, (forall i s r s', allowed strings i -> wd_validate m w i s = Some (r, s') -> vk P O r) -> forall l s r s', default_value (wd_validate m w) w l s = Some (r, s') ->
      vk (fun o => match o with Some v => P v /\ wd_default_kind w <> DNone | None => True end) O r).
  { intros m V l s r s' D. unfold default_value in D. destruct (stored_default _ _) as [[d|]|e] eqn:S.
    - destruct (SD _ _ S) as [S1 S2]. destruct (wd_validate_default w) eqn:VD; [|injection D as <- <-; cbn; auto].
      destruct (wd_validate m w (IPy d) s) as [[[v|e] s1]|] eqn:E; [| |discriminate]; injection D as <- <-; specialize (V (IPy d) _ _ _ I E); [cbn; auto|].
      destruct e; try (destruct l; exact I). destruct l; exact V.
    - injection D as <- <-. exact I.
    - injection D as <- <-. apply SE in S. destruct e; try exact I. easy. }
  assert (V : forall n i s r s', allowed strings i -> wd_validate n w i s = Some (r, s') -> vk P O r).
  { clear n. induction n as [|n IH]; [discriminate|]. intros i s r s' A E. cbn [wd_validate] in E.
    assert (U : forall e s1, (e = Omit -> O) -> match default_value (wd_validate n w) w None s1 with
         | None => None | Some (VErr e', s') => Some (VErr e', s') | Some (VOk (Some v), s') => Some (VOk v, s') | Some (VOk None, s') => Some (VErr e, s') end = Some (r, s') -> vk P O r).
    { clear E. intros e s1 NE X. destruct (default_value (wd_validate n w) w None s1) as [[[[v|]|e'] s2]|] eqn:D; [| | |discriminate]; injection X as <- <-; pose proof (K n IH _ _ _ _ D) as Q; [apply Q| |exact Q].
      destruct e; try exact I. now apply NE. }
    destruct (is_undefined i); [apply (U Panic s); [discriminate|exact E]|].
    pose proof (H i s A) as N. destruct (wd_inner w i s) as [[v|[es| | | |]] s1].
    - injection E as <- <-. exact N.
    - destruct (wd_on_error w); [injection E as <- <-; exact I|injection E as <- <-; now apply HO|]. apply (U _ _) in E; [exact E|discriminate].
    - destruct (wd_on_error w); [injection E as <- <-; exact I|injection E as <- <-; now apply HO|]. apply (U _ _) in E; [exact E|discriminate].
    - cbn in N. destruct (wd_on_error w); [injection E as <- <-; apply N; discriminate|injection E as <- <-; now apply HO|]. apply (U _ _) in E; [exact E|]. intros _. apply N. discriminate.
    - apply (U UseDefault s1); [discriminate|exact E].
    - injection E as <- <-. exact I. }
  split.
  - intros i s A. cbn. destruct (wd_validate n w i s) as [[r s']|] eqn:E; [exact (V _ _ _ _ _ A E)|exact I].
  - intros l s. cbn. destruct (default_value _ w l s) as [[r s']|] eqn:E; [exact (K n (V n) _ _ _ _ E)|exact I].
Qed.

Lemma chain_rest_ok (l : list (validator * (pyval -> Prop))) v P O : (forall w, In w l -> vok strings (snd w) O (fst w)) -> vok strings P O v ->
  forall x s, vk P O (fst (chain_rest (map fst l ++ [v]) x s)).
Proof.
  intros H HV. induction l as [|w l IH]; intros x s; cbn [map app chain_rest].
  - pose proof (HV (IPy x) s I) as V. destruct (v (IPy x) s) as [[y|e] s']; exact V.
  - pose proof (H w (or_introl eq_refl) (IPy x) s I) as V. destruct (fst w (IPy x) s) as [[y|e] s']; [|destruct e; exact V]. apply IH. intros u Uu. apply H. now right.
Qed.
Lemma chain_ok (l : list (validator * (pyval -> Prop))) v P O : (forall w, In w l -> vok strings (snd w) O (fst w)) -> vok strings P O v ->
  vok strings P O (chain_validate (map fst l ++ [v])).
Proof.
  intros H HV i s A. destruct l as [|w l]; cbn [map app chain_validate].
  - pose proof (HV i s A) as V. destruct (v i s) as [[y|e] s']; exact V.
  - pose proof (H w (or_introl eq_refl) i s A) as V. destruct (fst w i s) as [[y|e] s']; [|destruct e; exact V]. apply (chain_rest_ok l v P O); [|exact HV]. intros u Uu. apply H. now right.
Qed.
Lemma any_ok O : vok strings (fun _ => True) O any_validate. Proof. intros i s A. exact I. Qed.
Lemma none_ok O : vok strings (fun v => v = PNone) O none_validate. Proof. intros i s A. unfold none_validate. destruct (is_none_input i); [reflexivity|exact I]. Qed.
Lemma nullable_ok P O v : vok strings P O v -> vok strings (fun x => x = PNone \/ P x) O (nullable v).
Proof. intros H i s A. unfold nullable. destruct (is_none_input i); [now left|]. specialize (H i s A). destruct (fst (v i s)) as [|[]]; cbn in *; auto. Qed.
Lemma jop_ok P O j p : vok strings P O j -> vok strings P O p -> vok strings P O (json_or_python j p).
Proof. intros H K i s A. unfold json_or_python. destruct (x_input_type _); auto. Qed.
Lemma los_ok P O b l t : vok strings P O l -> vok strings P O t -> vok strings P O (lax_or_strict b l t).
Proof.
  intros L T i s A. unfold lax_or_strict. destruct (strict_or s b); [now apply T|]. destruct (st_exactness s); [|now apply L]. pose proof (T i s A) as V.
  destruct (t i s) as [[v|[]] s']; first [exact V | exact I | now apply L].
Qed.
Lemma custom_error_ok P O O' t v : vok strings P O v -> vok strings P O' (custom_error t v).
Proof. intros H i s A. unfold custom_error. specialize (H i s A). destruct (v i s) as [[w|[]] s']; try exact I. exact H. Qed.
Lemma convert_omit e i : convert_err e i = Omit -> e = XOmit. Proof. destruct e; try discriminate. reflexivity. Qed.
Lemma call_fun_ok (f : pyfun) own v i s : vk (fun w => exists inf, f v inf = inl w) (exists v inf, f v inf = inr XOmit) (call_fun f own v i s).
Proof. unfold call_fun. destruct (f v _) as [w|e] eqn:F; [cbn; eauto|]. destruct e; try exact I. cbn. eauto. Qed.
Lemma before_ok P O (f : pyfun) own v : vok strings P O v -> vok strings P (O \/ exists v inf, f v inf = inr XOmit) (function_before f own v).
Proof.
  intros H i s A. unfold function_before. pose proof (call_fun_ok f own (input_object i) i s) as F. destruct (call_fun _ _ _ _ _) as [w|e].
  - specialize (H (IPy w) s I). destruct (fst (v _ s)) as [|[]]; cbn in *; auto.
  - destruct e; try exact I. right. exact F.
Qed.
Lemma after_ok P O (f : pyfun) own v : vok strings P O v -> vok strings (fun x => exists w inf, P w /\ f w inf = inl x) (O \/ exists v inf, f v inf = inr XOmit) (function_after f own v).
Proof.
  intros H i s A. unfold function_after. specialize (H i s A). destruct (v i s) as [[w|e] s'].
  - cbn in H. pose proof (call_fun_ok f own w i s') as F. cbn [fst]. destruct (call_fun _ _ _ _ _) as [x|e]; [destruct F as [inf F]; cbn; eauto|]. destruct e; try exact I. right. exact F.
  - destruct e; try exact I. left. exact H.
Qed.
Lemma plain_ok (f : pyfun) own : vok strings (fun x => exists w inf, f w inf = inl x) (exists v inf, f v inf = inr XOmit) (function_plain f own).
Proof. intros i s A. unfold function_plain. pose proof (call_fun_ok f own (input_object i) i s) as F. cbn [fst]. destruct (call_fun _ _ _ _ _) as [x|e]; [destruct F as [inf F]; cbn; eauto|]. destruct e; try exact I. exact F. Qed.
Lemma run_wrap_ok P O inner s p : vok strings P O inner -> forall e,
  match fst (run_wrap inner s p e) with Some (inl v) => wrap_returns P p v | Some (inr XOmit) => wrap_omits p | _ => True end.
Proof.
  intros H. induction p as [v|x|v l k IH]; intros e; cbn [run_wrap].
  - cbn. constructor.
  - cbn. destruct x; try exact I. constructor.
  - pose proof (H (IPy v) (handler_state s e) I) as V. destruct (inner _ _) as [[w|err] s'].
    + specialize (IH (inl w) (st_exactness s')). destruct (run_wrap inner s (k (inl w)) _) as [[[r|x]|] e']; cbn [fst] in *; [|destruct x; try exact I|exact I].
      * apply (WRCallOk _ _ _ _ w); [exact V|exact IH].
      * exact (WOCall _ _ _ _ IH).
    + destruct (to_exception l err) as [x|]; [|exact I].
      specialize (IH (inr x) (st_exactness s')). destruct (run_wrap inner s (k (inr x)) _) as [[[r|y]|] e']; cbn [fst] in *; [|destruct y; try exact I|exact I].
      * exact (WRCallErr _ _ _ _ _ _ IH).
      * exact (WOCall _ _ _ _ IH).
Qed.
Lemma wrap_ok P O f own v : vok strings P O v -> vok strings (fun x => exists w inf, wrap_returns P (f w inf) x) (exists w inf, wrap_omits (f w inf)) (function_wrap f own v).
Proof.
  intros H i s A. unfold function_wrap. pose proof (run_wrap_ok P O v s (f (input_object i) (info_of own s)) H (st_exactness s)) as R.
  destruct (run_wrap _ _ _ _) as [[[x|x]|] e]; cbn [fst] in *; [cbn; eauto| |exact I]. destruct x; try exact I. cbn. eauto.
Qed.

(** ** Unions *)
Lemma smart_ok P O custom cs : Forall (fun c => vok strings P O (ch_validator c)) cs -> vok strings P O (validate_smart custom cs).
Proof.
  intros H i s A. unfold validate_smart.
  assert (L : forall oe on best errs s, (forall v e n, best = Some (v, e, n) -> P v) ->
     match smart_loop custom oe on cs i best errs s with Returned r _ => vk P O r | Tried b _ _ => forall v e n, b = Some (v, e, n) -> P v end).
  { induction H as [|c cs Hc H IH]; intros oe on best errs s0 B; cbn [smart_loop]; [exact B|].
    match goal with |- context [ch_validator c i ?s1] => pose proof (Hc i s1 A) as V; destruct (ch_validator c i s1) as [[v|e] s2] end; cbn in V.
    - assert (K : forall e n s, match smart_loop custom oe on cs i (if replaces best e n then Some (v, e, n) else best) errs s with Returned r _ => vk P O r | Tried b _ _ => forall v e n, b = Some (v, e, n) -> P v end).
      { intros e n s3. apply IH. intros v' e' n'. destruct (replaces best e n); [intros [= <- <- <-]; exact V|apply B]. }
      destruct (st_exactness s2) as [[]|], (st_fields_set s2); try apply K. exact V.
    - destruct e; try exact I; [apply IH, B|exact V]. }
  specialize (L (st_exactness s) (st_fields_set s) None [] s (fun v e n Q => ltac:(discriminate))).
  destruct (smart_loop _ _ _ _ _ _ _ _) as [[[[v e] n]|] errs s1|r s1].
  - cbn. exact (L _ _ _ eq_refl).
  - unfold into_val_error. destruct custom; exact I.
  - exact L.
Qed.
Lemma ltr_ok P O custom cs : Forall (fun c => vok strings P O (ch_validator c)) cs -> vok strings P O (validate_left_to_right custom cs).
Proof.
  intros H i s A. unfold validate_left_to_right. generalize (@nil (str * list line_error)). revert s. induction H as [|c cs Hc H IH]; intros s errs; cbn [ltr_loop].
  - unfold into_val_error. destruct custom; exact I.
  - pose proof (Hc i s A) as V. destruct (ch_validator c i s) as [[v|e] s2]; [exact V|]. destruct e; try exact I; [apply IH|exact V].
Qed.
Lemma find_call_ok P O repr ps fs md custom choices tag : Forall (fun c => vok strings P O (snd c)) choices -> vok strings P O (find_call_validator repr ps fs md custom choices tag).
Proof.
  intros H i s A. unfold find_call_validator. destruct (lk_validate _ _ _ _ _) as [[id|]|]; [|destruct custom; exact I|destruct custom; exact I].
  destruct (nth_error choices id) as [[t v]|] eqn:E; [|exact I]. apply nth_error_In in E. rewrite Forall_forall in H. specialize (H _ E). cbn in H. specialize (H i s A).
  destruct (v i s) as [[x|e] s']; [exact H|]. destruct e; try exact I. exact H.
Qed.
Lemma tagged_ok P O repr ga ps fs md d fa custom choices : Forall (fun c => vok strings P O (snd c)) choices -> vok strings P O (tagged_union_validate repr ga ps fs md d fa custom choices).
Proof.
  intros H i s A. unfold tagged_union_validate, tag_not_found. destruct d as [k|f].
  - match goal with |- context [validate_model_fields ?a ?b ?c ?d ?e] => pose proof (validate_mf_no a b c d e) as N; pose proof (fun m => validate_mf_ok strings a b c d e m A) as M; destruct (validate_model_fields a b c d e) as [m|e'] end; [|destruct e'; try exact I; destruct N].
    pose proof (mo_get _ _ (M _ eq_refl) k) as G. destruct (md_get m k) as [[[p tag]|]|e]; [now apply find_call_ok|destruct custom; exact I|destruct e; try exact I; destruct G].
  - destruct (f (input_object i)) as [t|e]; [|exact I]. destruct t; try now apply find_call_ok. destruct custom; exact I.
Qed.

(** ** Classes *)
Lemma post_init_ok f inst i : vk (after_init f inst) (exists g v, f = Some g /\ g v = inr XOmit) (call_post_init f inst i).
Proof. unfold call_post_init, after_init. destruct f as [g|]; [|reflexivity]. destruct (g inst) as [v|e] eqn:G; [exact eq_refl|]. destruct e; try exact I. cbn. eauto. Qed.
Lemma inst_attr_no v n : no (inst_attr v n). Proof. unfold inst_attr. destruct v; try exact I. destruct (assoc _ _); exact I. Qed.
Lemma inst_to_dict_no names v d : no (inst_to_dict names v d).
Proof. revert d. induction names as [|n names IH]; intros d; cbn; [exact I|]. pose proof (inst_attr_no v n) as N. destruct (inst_attr v n) as [|e]; [apply IH|destruct e; exact N]. Qed.
Lemma model_data_no r v : no (model_data r v).
Proof.
  unfold model_data. destruct r; [apply inst_attr_no|]. pose proof (inst_attr_no v dunder_dict) as N1. pose proof (inst_attr_no v dunder_extra) as N2.
  destruct (inst_attr v dunder_dict) as [d|e]; [|destruct e; exact N1]. destruct (inst_attr v dunder_extra) as [x|e]; [|destruct e; exact N2].
  destruct x; try exact I; destruct (as_dict d); try exact I; destruct (as_dict _); exact I.
Qed.
Definition model_value (sub : N -> N -> bool) (c : model_cfg) (P : pyval -> Prop) (v : pyval) : Prop :=
  (exists k, class_of v = Some k /\ sub k (mo_cls c) = true /\ should_revalidate (mo_revalidate c) v (mo_cls c) = false) \/
  (exists f kw, mo_custom_init c = Some f /\ f kw = inl v) \/
  (mo_root c = false /\ exists d x fs fs', P (PTuple [d; x; fs]) /\ after_init (mo_post_init c) (model_inst (mo_cls c) d x fs') v) \/
  (mo_root c = true /\ exists out fs, P out /\ after_init (mo_post_init c) (root_inst (mo_cls c) out fs) v).
Definition model_omit (c : model_cfg) : Prop :=
  (exists f kw, mo_custom_init c = Some f /\ f kw = inr XOmit) \/ (exists f v, mo_post_init c = Some f /\ f v = inr XOmit).
Lemma model_ok sub c P O v : vok strings P O v -> vok strings (model_value sub c P) (O \/ model_omit c) (model_validate sub c v).
Proof.
  intros H. assert (K : forall i ex s, allowed strings i -> vk (model_value sub c P) (O \/ model_omit c) (fst (model_construct c v i ex s))).
  { intros i ex s A. unfold model_construct, rebind.
    destruct (match mo_custom_init c with Some _ => _ | None => _ end) as [[w|e]|] eqn:CI.
    - destruct (mo_custom_init c) as [f|] eqn:CC; [|discriminate]. destruct (as_kwargs i) as [kw|]; [|discriminate]. injection CI as CI. right. left. eauto.
    - destruct (mo_custom_init c) as [f|] eqn:CC; [|discriminate]. destruct (as_kwargs i) as [kw|]; [|discriminate]. injection CI as CI. destruct e; try exact I. right. left. eauto.
    - destruct (mo_root c) eqn:RT.
      + set (s1 := set_extra _ s). specialize (H i s1 A). destruct (v i s1) as [[w|e] s2]; [|destruct e; try exact I; now left]. cbn in H.
        match goal with |- context [call_post_init ?f ?inst i] => pose proof (post_init_ok f inst i) as Q; cbn [fst]; destruct (call_post_init f inst i) as [r|e] end; cbn in Q.
        * right. right. right. split; [exact RT|]. eauto.
        * destruct e; try exact I. right. right. exact Q.
      + specialize (H i s A). destruct (v i s) as [[w|e] s2]; [|destruct e; try exact I; now left]. cbn in H. cbn [fst].
        destruct (build_model c ex w) as [inst|e] eqn:B.
        * unfold build_model in B. destruct w as [| | | | | | |[|d [|x [|fs [|]]]]| | | | |]; try discriminate. injection B as <-.
          match goal with |- context [call_post_init ?f ?inst i] => pose proof (post_init_ok f inst i) as Q; destruct (call_post_init f inst i) as [r|e] end; cbn in Q.
          -- right. right. left. split; [exact RT|]. eauto 8.
          -- destruct e; try exact I. right. right. exact Q.
        * unfold build_model in B. destruct w as [| | | | | | |[|d [|x [|fs [|]]]]| | | | |]; try (injection B as <-; exact I). discriminate. }
  intros i s A. unfold model_validate. destruct (instance_input _ _ _ _) as [[w force]|] eqn:II; [|now apply K].
  destruct (should_revalidate _ _ _ || force) eqn:SR.
  - pose proof (inst_attr_no w dunder_fields_set) as N1. destruct (inst_attr w _) as [fs|e]; [|destruct e; try exact I; destruct N1].
    pose proof (model_data_no (mo_root c) w) as N2. destruct (model_data _ w) as [d|e]; [|destruct e; try exact I; destruct N2]. now apply K.
  - apply orb_false_elim in SR. destruct SR as [SR ->]. left. unfold instance_input in II. destruct i as [x| | |]; try discriminate.
    destruct (is_instance sub x (mo_cls c)) eqn:IS.
    + injection II as ->. unfold is_instance in IS. destruct (class_of w) as [k|]; [|discriminate]. eauto.
    + destruct (mo_origin c) as [g|]; [|discriminate]. destruct (is_instance sub x g); discriminate.
Qed.
Definition dataclass_value (sub : N -> N -> bool) (c : dataclass_cfg) (P : pyval -> Prop) (v : pyval) : Prop :=
  (exists k, class_of v = Some k /\ sub k (da_cls c) = true /\ should_revalidate (da_revalidate c) v (da_cls c) = false) \/
  (exists dv x d, P (PTuple [dv; x]) /\ as_dict dv = Some d /\
    match da_post_init c with
    | None => v = PObj (da_cls c) (attrs_of d)
    | Some f => exists l : list pyval, (x = PNone /\ l = [] \/ x = PTuple l) /\ f (PObj (da_cls c) (attrs_of d)) l = inl v
    end).
Lemma dataclass_ok sub c P O v : vok strings P O v -> vok strings (dataclass_value sub c P) (O \/ exists f v l, da_post_init c = Some f /\ f v l = inr XOmit) (dataclass_validate sub c v).
Proof.
  intros H. assert (K : forall out i, P out -> vk (dataclass_value sub c P) (O \/ exists f v l, da_post_init c = Some f /\ f v l = inr XOmit) (set_dict_call c out i)).
  { intros out i PO. unfold set_dict_call. destruct out as [| | | | | | |[|dv [|x [|]]]| | | | |]; try exact I. destruct (as_dict dv) as [d|] eqn:AD; [|exact I].
    destruct (da_post_init c) as [f|] eqn:DP.
    - assert (G : forall l, (x = PNone /\ l = [] \/ x = PTuple l) -> vk (dataclass_value sub c P) (O \/ exists f0 v l, Some f = Some f0 /\ f0 v l = inr XOmit) (match f (PObj (da_cls c) (attrs_of d)) l with inl v => VOk v | inr e => VErr (convert_err e i) end)).
      { intros l Q. destruct (f _ l) as [w|e] eqn:F.
        - right. exists dv, x, d. split; [exact PO|]. split; [exact AD|]. rewrite DP. eauto.
        - destruct e; try exact I. right. eauto. }
      destruct x; try exact I; apply G; auto.
    - right. exists dv, x, d. split; [exact PO|]. split; [exact AD|]. now rewrite DP. }
  intros i s A. unfold dataclass_validate. destruct (instance_input _ _ _ _) as [[w force]|] eqn:II.
  - destruct (should_revalidate _ _ _ || force) eqn:SR.
    + pose proof (inst_to_dict_no (da_names c) w []) as N1. destruct (inst_to_dict _ w _) as [d|e]; [|destruct e; try exact I; destruct N1].
      specialize (H (IPy (PDict d)) s I). destruct (v _ s) as [[out|e] s']; [now apply K|]. destruct e; try exact I. now left.
    + apply orb_false_elim in SR. destruct SR as [SR ->]. left. unfold instance_input in II. destruct i as [x| | |]; try discriminate.
      destruct (is_instance sub x (da_cls c)) eqn:IS.
      * injection II as ->. unfold is_instance in IS. destruct (class_of w) as [k|]; [|discriminate]. eauto.
      * destruct (da_origin c) as [g|]; [|discriminate]. destruct (is_instance sub x g); discriminate.
  - destruct (_ && _); [exact I|]. specialize (H i s A). destruct (v i s) as [[out|e] s']; [now apply K|]. destruct e; try exact I. now left.
Qed.
End WrapOk.

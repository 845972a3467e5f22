From Coq Require Import List NArith ZArith Bool Lia.
From Verif Require Import Base Float64 IntParse Numbers BytesCodec Values VState LookupKey Collections Child Inputs Scalars Literal Wrappers Union TaggedUnion Tuple ModelFields TypedDict Assign Arguments Classes Interp InterpSpec InterpProofs StrictSpec StrictProofs StrictProofs2 StrictProofs3.
Import ListNotations.
Open Scope nat_scope.

Definition good_args (ai : arg_input) : Prop := match ai_kwargs ai with Some (md, _) => good_md md | None => True end.
Ltac arm := match goal with HM : good_md ?md |- context [md_get ?md ?k] => destruct (md_get md k) as [[[?path ?value]|]|?e] eqn:?MG end.

(** ** Function arguments *)
Section Args.
Variable c : args_cfg.
Variable ai : arg_input.
Hypothesis HA : good_args ai.
Variable i : input.
Notation D := (fun a => aa_errors a <> []).
Ltac front p ix :=
  cbv zeta; destruct (by_keyword (pa_mode p)); [destruct (collection_select _ _ _) as [key|]|]; try solve [fin];
  destruct (ai_kwargs ai) as [[md n]|]; try arm; cbn [good_args] in *;
  (destruct (ai_args ai) as [l|]; [destruct (positional (pa_mode p)); [destruct (nth_error l ix)|]|]).
Lemma params_doom ba bn ps : Forall (fun p => csub (pa_cv p)) ps -> forall ix a s r2, aa_errors a <> [] -> R s s -> Sub D (params_loop c ai i ba bn ix ps a s) r2.
Proof.
  unfold good_args in HA. induction 1 as [|p ps V F IH]; intros ix a s r2 NE H; cbn [params_loop]; [dead|]. front p ix; doom IH.
Qed.
Lemma params_sub ba bn ps : Forall (fun p => csub (pa_cv p)) ps -> forall ix a s1 s2, R s1 s2 -> Sub D (params_loop c ai i ba bn ix ps a s1) (params_loop c ai i ba bn ix ps a s2).
Proof.
  pose proof (params_doom ba bn) as DM0. unfold good_args in HA. induction 1 as [|p ps V F IH]; intros ix a s1 s2 H; cbn [params_loop]; [fin|].
  pose proof (DM0 ps F) as DM. clear DM0. front p ix; both IH DM.
Qed.
Lemma var_args_doom v xs : (forall w, v = Some w -> sub w) -> forall ix a s r2, aa_errors a <> [] -> R s s -> Sub D (var_args_loop v ix xs a s) r2.
Proof.
  intros V. induction xs as [|x xs IH]; intros ix a s r2 NE H; cbn [var_args_loop]; [dead|]. destruct v as [w|]; [pose proof (V w eq_refl)|]; clear V; doom IH.
Qed.
Lemma var_args_sub v xs : (forall w, v = Some w -> sub w) -> forall ix a s1 s2, R s1 s2 -> Sub D (var_args_loop v ix xs a s1) (var_args_loop v ix xs a s2).
Proof.
  intros V. pose proof (var_args_doom v) as DM0. induction xs as [|x xs IH]; intros ix a s1 s2 H; cbn [var_args_loop]; [fin|].
  pose proof (DM0 xs V) as DM. clear DM0. destruct v as [w|]; [pose proof (V w eq_refl)|]; clear V; both IH DM.
Qed.
Hypothesis HV : forall v, ac_var_kwargs c = Some v -> sub v.
Notation D2 := (fun x : aacc * pydict => aa_errors (fst x) <> []).
Lemma var_kwargs_doom es : Forall good_entry es -> forall rem a s r2, aa_errors a <> [] -> R s s -> Sub D2 (var_kwargs_loop c es rem a s) r2.
Proof.
  induction 1 as [|[key kloc value|e] es G F IH]; intros rem a s r2 NE H; cbn [var_kwargs_loop]; [dead| |dead]. destruct (ac_var_kwargs c) as [w|]; [pose proof (HV w eq_refl)|]; clear HV; doom IH.
Qed.
Lemma var_kwargs_sub es : Forall good_entry es -> forall rem a s1 s2, R s1 s2 -> Sub D2 (var_kwargs_loop c es rem a s1) (var_kwargs_loop c es rem a s2).
Proof.
  induction 1 as [|[key kloc value|e] es G F IH]; intros rem a s1 s2 H; cbn [var_kwargs_loop]; [fin| |fin]. pose proof (var_kwargs_doom es F) as DM.
  destruct (ac_var_kwargs c) as [w|]; [pose proof (HV w eq_refl)|]; clear HV; both IH DM.
Qed.
Hypothesis HW : forall v, ac_var_args c = Some v -> sub v.
Lemma finish_doom a s r2 : aa_errors a <> [] -> R s s -> Sub never (args_finish a s) r2.
Proof. intros NE H. unfold args_finish. destruct (aa_errors a); [easy|]. bad. Qed.
Lemma finish_sub a s1 s2 : R s1 s2 -> Sub never (args_finish a s1) (args_finish a s2).
Proof. intros H. unfold args_finish. destruct (aa_errors a); bad. Qed.
Lemma unpacked_doom rem a s r2 : aa_errors a <> [] -> R s s -> Sub never (unpacked_stage c rem a s) r2.
Proof.
  intros NE H. unfold unpacked_stage. destruct (ac_unpacked c); [|now apply finish_doom]. destruct (ac_var_kwargs c) as [w|]; [pose proof (HV w eq_refl)|bad].
  kid1; try bad.
  - apply finish_doom; [ne|rs].
  - destruct (as_dict v); [apply finish_doom; [ne|rs]|bad].
Qed.
Lemma unpacked_sub rem a s1 s2 : R s1 s2 -> Sub never (unpacked_stage c rem a s1) (unpacked_stage c rem a s2).
Proof.
  intros H. unfold unpacked_stage. destruct (ac_unpacked c); [|now apply finish_sub]. destruct (ac_var_kwargs c) as [w|]; [pose proof (HV w eq_refl)|bad].
  kid; try bad.
  - apply finish_doom; [ne|rs].
  - destruct (as_dict v); [apply finish_sub; rs|bad].
Qed.
Lemma va_stage_doom a s r2 : aa_errors a <> [] -> R s s -> Sub D (var_args_stage c ai a s) r2.
Proof. intros NE H. unfold var_args_stage. destruct (ai_args ai); [|dead]. destruct (_ <? _); [|dead]. now apply var_args_doom. Qed.
Lemma va_stage_sub a s1 s2 : R s1 s2 -> Sub D (var_args_stage c ai a s1) (var_args_stage c ai a s2).
Proof. intros H. unfold var_args_stage. destruct (ai_args ai); [|fin]. destruct (_ <? _); [|fin]. now apply var_args_sub. Qed.
Lemma vk_stage_doom a s r2 : aa_errors a <> [] -> R s s -> Sub D2 (var_kwargs_stage c ai a s) r2.
Proof.
  intros NE H. unfold var_kwargs_stage, good_args in *. destruct (ai_kwargs ai) as [[md n]|]; [|dead]. destruct (_ <? _); [|dead]. destruct (md_iter md) eqn:MI.
  - apply var_kwargs_doom; [now apply (proj2 (proj2 HA))|exact NE|exact H].
  - apply (proj1 (proj2 HA)) in MI. dead.
Qed.
Lemma vk_stage_sub a s1 s2 : R s1 s2 -> Sub D2 (var_kwargs_stage c ai a s1) (var_kwargs_stage c ai a s2).
Proof.
  intros H. unfold var_kwargs_stage, good_args in *. destruct (ai_kwargs ai) as [[md n]|]; [|fin]. destruct (_ <? _); [|fin]. destruct (md_iter md) eqn:MI.
  - apply var_kwargs_sub; [now apply (proj2 (proj2 HA))|exact H].
  - apply (proj1 (proj2 HA)) in MI. fin.
Qed.
End Args.
(** A doomed stage: the strict result alone. *)
Lemma doomed A (D : A -> Prop) (x : vres A * state) : (forall r2, Sub D x r2) -> (exists e t, x = (VErr e, t) /\ quiet e /\ R t t) \/ (exists a t, x = (VOk a, t) /\ D a /\ R t t).
Proof. intros K. destruct x as [r s]. specialize (K (VErr Panic, s)). inversion K; subst; [left|right]; eauto 10. Qed.
Ltac gone L := let K := fresh in pose proof L as K; apply doomed in K; let e := fresh "e" in let t := fresh "t" in let Q := fresh "Q" in let T := fresh "T" in let NE := fresh "NE" in let a := fresh "a" in
  destruct K as [(e & t & -> & Q & T)|(a & t & -> & NE & T)]; [apply SubBad; [exact Q|exact T]|].
Lemma arguments_sub c va : Forall (fun p => csub (pa_cv p)) (ac_params c) -> (forall v, ac_var_args c = Some v -> sub v) -> (forall v, ac_var_kwargs c = Some v -> sub v) ->
  (forall i ai, va i = VOk ai -> good_args ai) -> (forall i e, va i = VErr e -> quiet e) -> sub (arguments_validate c va).
Proof.
  intros HP HW HV HA HE i s1 s2 H. unfold arguments_validate. cbv zeta. apply R_partial in H. destruct (va i) as [ai|e] eqn:VA; [apply HA in VA; rename VA into GA|apply HE in VA; bad].
  rewrite (by_alias_same _ _ _ H), (by_name_same _ _ _ H).
  destruct (params_sub c ai GA i (validate_by_alias_or (set_partial PartialOff s2) (ac_by_alias c)) (validate_by_name_or (set_partial PartialOff s2) (ac_by_name c)) _ HP 0 aa_init _ _ H) as [e t r Q T|a t r NE T|a t1 t2 T]; [bad| |].
  - gone (fun r2 => va_stage_doom c ai HW a t r2 NE T). gone (fun r2 => vk_stage_doom c ai GA HV a0 t0 r2 NE0 T0). destruct a1 as [a1 rem]. now apply unpacked_doom.
  - destruct (va_stage_sub c ai HW a t1 t2 T) as [e t r Q T'|a' t r NE T'|a' u1 u2 T']; [bad| |].
    + gone (fun r2 => vk_stage_doom c ai GA HV a' t r2 NE T'). destruct a0 as [a1 rem]. now apply unpacked_doom.
    + destruct (vk_stage_sub c ai GA HV a' u1 u2 T') as [e t r Q T''|[a'' rem] t r NE T''|[a'' rem] w1 w2 T'']; [bad| |].
      * now apply unpacked_doom.
      * now apply unpacked_sub.
Qed.

(** ** Dataclass arguments *)
Section Dc.
Variable c : dc_cfg.
Variable ai : arg_input.
Hypothesis HA : good_args ai.
Variable i : input.
Notation D := (fun a => da_errors a <> []).
Ltac front f ix :=
  cbv zeta; unfold da_set; destruct (df_init_only f); (destruct (df_init f); cbn [negb]; [destruct (collection_select _ _ _) as [key|]; [|solve [fin]];
  destruct (ai_kwargs ai) as [[md n]|]; try arm; cbn [good_args] in *;
  (destruct (ai_args ai) as [l|]; [destruct (df_kw_only f); cbn [negb]; [|destruct (nth_error l ix)]|])|]).
Lemma dc_doom ba bn fs : Forall (fun f => csub (df_cv f)) fs -> forall ix a s r2, da_errors a <> [] -> R s s -> Sub D (dc_loop c ai i ba bn ix fs a s) r2.
Proof.
  unfold good_args in HA. induction 1 as [|f fs V F IH]; intros ix a s r2 NE H; cbn [dc_loop]; [dead|]. front f ix; doom IH.
Qed.
Lemma dc_sub ba bn fs : Forall (fun f => csub (df_cv f)) fs -> forall ix a s1 s2, R s1 s2 -> Sub D (dc_loop c ai i ba bn ix fs a s1) (dc_loop c ai i ba bn ix fs a s2).
Proof.
  pose proof (dc_doom ba bn) as DM0. unfold good_args in HA. induction 1 as [|f fs V F IH]; intros ix a s1 s2 H; cbn [dc_loop]; [fin|].
  pose proof (DM0 fs F) as DM. clear DM0. front f ix; both IH DM.
Qed.
Hypothesis HX : forall v, dc_extras c = Some v -> sub v.
Lemma dcx_doom es : Forall good_entry es -> forall a s r2, da_errors a <> [] -> R s s -> Sub D (dc_extras_loop c es a s) r2.
Proof.
  induction 1 as [|[key kloc value|e] es G F IH]; intros a s r2 NE H; cbn [dc_extras_loop]; [dead| |dead]. destruct (dc_extras c) as [w|]; [pose proof (HX w eq_refl)|]; clear HX; cbv zeta; doom IH.
Qed.
Lemma dcx_sub es : Forall good_entry es -> forall a s1 s2, R s1 s2 -> Sub D (dc_extras_loop c es a s1) (dc_extras_loop c es a s2).
Proof.
  induction 1 as [|[key kloc value|e] es G F IH]; intros a s1 s2 H; cbn [dc_extras_loop]; [fin| |fin]. pose proof (dcx_doom es F) as DM.
  destruct (dc_extras c) as [w|]; [pose proof (HX w eq_refl)|]; clear HX; cbv zeta; both IH DM.
Qed.
Lemma dck_doom a s r2 : da_errors a <> [] -> R s s -> Sub D (dc_kwargs_stage c ai a s) r2.
Proof.
  intros NE H. unfold dc_kwargs_stage, good_args in *. destruct (ai_kwargs ai) as [[md n]|]; [|dead]. destruct (negb _); [|dead]. destruct (md_iter md) eqn:MI.
  - apply dcx_doom; [now apply (proj2 (proj2 HA))|exact NE|exact H].
  - apply (proj1 (proj2 HA)) in MI. dead.
Qed.
Lemma dck_sub a s1 s2 : R s1 s2 -> Sub D (dc_kwargs_stage c ai a s1) (dc_kwargs_stage c ai a s2).
Proof.
  intros H. unfold dc_kwargs_stage, good_args in *. destruct (ai_kwargs ai) as [[md n]|]; [|fin]. destruct (negb _); [|fin]. destruct (md_iter md) eqn:MI.
  - apply dcx_sub; [now apply (proj2 (proj2 HA))|exact H].
  - apply (proj1 (proj2 HA)) in MI. fin.
Qed.
Lemma dcf_doom a s r2 : da_errors a <> [] -> R s s -> Sub never (dc_finish c a s) r2.
Proof. intros NE H. unfold dc_finish. cbv zeta. destruct (da_errors a); [easy|]. bad. Qed.
Lemma dcf_sub a s1 s2 : R s1 s2 -> Sub never (dc_finish c a s1) (dc_finish c a s2).
Proof. intros H. unfold dc_finish. cbv zeta. destruct (da_errors a); bad. Qed.
Lemma dca_ne a : da_errors a <> [] -> da_errors (dc_args_stage c ai a) <> [].
Proof. intros NE. unfold dc_args_stage. destruct (ai_args ai); [|exact NE]. now apply app_ne. Qed.
End Dc.
Lemma dataclass_args_sub c va : Forall (fun f => csub (df_cv f)) (dc_fields c) -> (forall v, dc_extras c = Some v -> sub v) ->
  (forall i ai, va i = VOk ai -> good_args ai) -> (forall i e, va i = VErr e -> quiet e) -> sub (dataclass_args_validate c va).
Proof.
  intros HP HX HA HE i s1 s2 H. unfold dataclass_args_validate. cbv zeta. apply R_partial in H. destruct (va i) as [ai|e] eqn:VA; [apply HA in VA; rename VA into GA|apply HE in VA; bad].
  apply rebind_sub; [exact H|intros; rs|]. clear s1 s2 H. intros s1 s2 H. rewrite (by_alias_same _ _ _ H), (by_name_same _ _ _ H).
  destruct (dc_sub c ai GA i (validate_by_alias_or s2 (dc_by_alias c)) (validate_by_name_or s2 (dc_by_name c)) _ HP 0 da_init0 _ _ H) as [e t r Q T|a t r NE T|a t1 t2 T]; [bad| |].
  - gone (fun r2 => dck_doom c ai GA HX _ t r2 (dca_ne c ai a NE) T). now apply dcf_doom.
  - destruct (dck_sub c ai GA HX (dc_args_stage c ai a) t1 t2 T) as [e t r Q T'|a' t r NE T'|a' u1 u2 T']; [bad|now apply dcf_doom|now apply dcf_sub].
Qed.

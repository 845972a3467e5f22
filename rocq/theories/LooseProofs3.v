From Coq Require Import List NArith ZArith Bool Lia.
From Verif Require Import Base Float64 IntParse Numbers BytesCodec Values VState LookupKey Collections Child Inputs Scalars Literal Wrappers Union TaggedUnion Tuple ModelFields TypedDict Assign Arguments Classes Interp InterpSpec InterpProofs StrictSpec StrictProofs StrictProofs3 StrictProofs5 LooseSpec LooseQuiet LooseOff LooseProofs LooseProofs2.
Import ListNotations.
Open Scope nat_scope.

(** ** Arguments *)
Definition pkid (p p' : param) : Prop := pa_name p' = pa_name p /\ pa_mode p' = pa_mode p /\ pa_keys p' = pa_keys p /\ ckid true (pa_cv p) (pa_cv p').
Lemma params_mono c ai i ba bn ps : forall ix a s b t, params_loop c ai i ba bn ix ps a s = (VOk b, t) -> aa_errors b = [] -> aa_errors a = [].
Proof.
  induction ps as [|p ps IH]; intros ix a s b t; cbn [params_loop]; [now intros [= <- _]|]. cbv zeta. unfold rebind.
  intros H. repeat adv H; intros Z; specialize (IH _ _ _ _ _ H Z); try exact IH; cbn in IH; now apply app_eq_nil in IH.
Qed.
Lemma params_ease c c' ai i ba bn ps ps' : Forall2 pkid ps ps' -> forall ix a s b t, off s -> params_loop c ai i ba bn ix ps a s = (VOk b, t) -> aa_errors b = [] ->
  params_loop c' ai i ba bn ix ps' a s = (VOk b, t).
Proof.
  induction 1 as [|p p' ps ps' (EN & EM & EK & [K DN DO DE]) F IH]; intros ix a s b t O; cbn [params_loop]; [easy|]. cbv zeta. unfold rebind.
  rewrite EN, EM, EK. clear EN EM EK. pose proof (k_ne _ _ K) as KN. pose proof (k_off _ _ K) as KO.
  intros H Z. pose proof (params_mono c ai i ba bn ps) as MO. repeat adv H; try (apply IH; [go|exact H|exact Z]).
  all: try (specialize (MO _ _ _ _ _ H Z); cbn in MO; bad).
  all: try bad.
  all: first [known|dknown]; now apply IH; [go| |].
Qed.
Lemma var_args_mono v xs : forall ix a s b t, var_args_loop v ix xs a s = (VOk b, t) -> aa_errors b = [] -> aa_errors a = [].
Proof.
  induction xs as [|p ps IH]; intros ix a s b t; cbn [var_args_loop]; [now intros [= <- _]|].
  intros H. repeat adv H; intros Z; specialize (IH _ _ _ _ _ H Z); try exact IH; cbn in IH; now apply app_eq_nil in IH.
Qed.
Lemma var_args_ease v v' xs : opt_rel kid v v' \/ v = None -> forall ix a s b t, off s -> var_args_loop v ix xs a s = (VOk b, t) -> aa_errors b = [] -> var_args_loop v' ix xs a s = (VOk b, t).
Proof.
  intros OV. induction xs as [|p ps IH]; intros ix a s b t O; cbn [var_args_loop]; [easy|].
  intros H Z. pose proof (var_args_mono v ps) as MO.
  destruct OV as [OV|OV]; [inversion OV as [A1 A2|x x' K A1 A2]; subst v v'|subst v].
  - specialize (MO _ _ _ _ _ H Z). cbn in MO. bad.
  - pose proof (k_ne _ _ K) as KN. pose proof (k_off _ _ K) as KO. repeat adv H.
    + known. now apply IH; [go| |].
    + specialize (MO _ _ _ _ _ H Z). cbn in MO. bad.
  - specialize (MO _ _ _ _ _ H Z). cbn in MO. bad.
Qed.
Lemma var_kwargs_mono c es : forall r a s b r' t, var_kwargs_loop c es r a s = (VOk (b, r'), t) -> aa_errors b = [] -> aa_errors a = [].
Proof.
  induction es as [|[k kl v|e] es IH]; intros r a s b r' t; cbn [var_kwargs_loop]; [now intros [= <- _ _]| |discriminate].
  intros H. repeat adv H; intros Z; specialize (IH _ _ _ _ _ _ H Z); try exact IH; cbn in IH; now apply app_eq_nil in IH.
Qed.
Lemma var_kwargs_ease c c' es : ac_unpacked c' = ac_unpacked c -> extra_looser true (ac_extra c) (ac_extra c') ->
  opt_rel kid (ac_var_kwargs c) (ac_var_kwargs c') \/ (ac_var_kwargs c = None /\ ac_unpacked c = false /\ ac_extra c = ExtraForbid) ->
  forall r a s b r' t, off s -> var_kwargs_loop c es r a s = (VOk (b, r'), t) -> aa_errors b = [] -> var_kwargs_loop c' es r a s = (VOk (b, r'), t).
Proof.
  intros EU EX OV. induction es as [|[k kl v|e] es IH]; intros r a s b r' t O; cbn [var_kwargs_loop]; [easy| |discriminate]. rewrite EU.
  intros H Z. pose proof (var_kwargs_mono c es) as MO.
  destruct OV as [OV|(E1 & E2 & E3)].
  - inversion OV as [A1 A2|x x' K A1 A2]; rewrite <- A1 in H.
    + assert (EX' : ac_extra c = ExtraForbid \/ ac_extra c' = ac_extra c) by (destruct EX as [X|[X _]]; auto). clear EX.
      destruct EX' as [EX|EX]; [rewrite EX in H|rewrite EX]; clear EX; repeat adv H; try (apply IH; [go|exact H|exact Z]); specialize (MO _ _ _ _ _ _ H Z); cbn in MO; bad.
    + pose proof (k_ne _ _ K) as KN. pose proof (k_off _ _ K) as KO. repeat adv H; try (apply IH; [go|exact H|exact Z]); try (specialize (MO _ _ _ _ _ _ H Z); cbn in MO; bad).
      known. now apply IH; [go| |].
  - rewrite E1, E2, E3 in H. rewrite E2. repeat adv H; try (apply IH; [go|exact H|exact Z]). specialize (MO _ _ _ _ _ _ H Z); cbn in MO; bad.
Qed.
Lemma pcount_same ps ps' : Forall2 pkid ps ps' -> forall ix, positional_count_from ix ps' = positional_count_from ix ps.
Proof. induction 1 as [|p p' ps ps' (_ & EM & _) F IH]; intros ix; cbn; [reflexivity|]. now rewrite EM, IH. Qed.
Lemma finish_mono a s b t : args_finish a s = (VOk b, t) -> aa_errors a = [].
Proof. unfold args_finish. destruct (is_nil _) eqn:N; [|discriminate]. intros _. now apply is_nil_true. Qed.
Lemma arguments_ease c c' va : Forall2 pkid (ac_params c) (ac_params c') -> ac_unpacked c' = ac_unpacked c -> extra_looser true (ac_extra c) (ac_extra c') ->
  ac_by_alias c' = ac_by_alias c -> ac_by_name c' = ac_by_name c -> opt_rel kid (ac_var_args c) (ac_var_args c') \/ ac_var_args c = None ->
  opt_rel kid (ac_var_kwargs c) (ac_var_kwargs c') \/ (ac_var_kwargs c = None /\ ac_unpacked c = false /\ ac_extra c = ExtraForbid) ->
  eases (arguments_validate c va) (arguments_validate c' va).
Proof.
  intros F EU EX EA EN OA OK i s a t O. unfold arguments_validate. rewrite EA, EN. cbv zeta. set (s0 := set_partial PartialOff s).
  destruct (va i) as [ai|e]; [|discriminate]. set (ba := validate_by_alias_or _ _). set (bn := validate_by_name_or _ _).
  assert (FC : Forall (fun f => ckeeps (pa_cv f)) (ac_params c)).
  { clear -F. induction F as [|f f' l l' (_ & _ & _ & [K D1 D2 D3]) F IH]; constructor; auto. split; [apply (k_off _ _ K)|exact D2]. }
  assert (OA' : opt_keeps (ac_var_args c)). { intros v E. destruct OA as [OA|X]; [|congruence]. rewrite E in OA. inversion OA as [|x x' K]. subst. apply (k_off _ _ K). }
  assert (OK' : opt_keeps (ac_var_kwargs c)). { intros v E. destruct OK as [OK|[X _]]; [|congruence]. rewrite E in OK. inversion OK as [|x x' K]. subst. apply (k_off _ _ K). }
  assert (O0 : off s0) by exact (proj1 (off_part true s)).
  pose proof (params_off c ai i ba bn 0 _ aa_init s0 FC O0) as N1. destruct (params_loop c ai i ba bn 0 (ac_params c) aa_init s0) as [[a1|] s1] eqn:P; [|discriminate]. cbn [snd] in N1.
  pose proof (va_off c ai a1 s1 OA' N1) as N2. destruct (var_args_stage c ai a1 s1) as [[a2|] s2] eqn:VA; [|discriminate]. cbn [snd] in N2.
  pose proof (vk_off c ai a2 s2 OK' N2) as N3. destruct (var_kwargs_stage c ai a2 s2) as [[[a3 rem]|] s3] eqn:VK; [|discriminate]. cbn [snd] in N3.
  intros U.
  assert (U' : aa_errors a3 = [] /\ unpacked_stage c' rem a3 s3 = (VOk a, t)).
  { unfold unpacked_stage in *. rewrite EU. destruct (ac_unpacked c); [|split; [exact (finish_mono _ _ _ _ U)|exact U]].
    destruct OK as [OK|(_ & X & _)]; [|discriminate X]. inversion OK as [A1 A2|x x' K A1 A2]; rewrite <- A1 in U; [discriminate|].
    pose proof (k_ne _ _ K) as KN. pose proof (k_off _ _ K) as KO.
    destruct (x _ s3) as [[w|[es| | | |]] s4] eqn:C; try discriminate.
    - known. destruct (as_dict w); [|discriminate]. pose proof (finish_mono _ _ _ _ U) as M. cbn in M. auto.
    - apply finish_mono in U. cbn in U. apply app_eq_nil in U. now destruct (vne_err _ _ _ _ _ KN C). }
  destruct U' as [Z3 U'].
  assert (M2 : aa_errors a2 = [] /\ var_kwargs_stage c' ai a2 s2 = (VOk (a3, rem), s3)).
  { unfold var_kwargs_stage in *. destruct (ai_kwargs ai) as [[md len]|]; [|injection VK as <- <- <-; auto]. destruct (_ <? _); [|injection VK as <- <- <-; auto].
    destruct (md_iter md) as [es|]; [|discriminate]. split; [exact (var_kwargs_mono _ _ _ _ _ _ _ _ VK Z3)|]. now apply (var_kwargs_ease c c' es EU EX OK). }
  destruct M2 as [Z2 VK'].
  assert (PC : positional_count c' = positional_count c) by apply (pcount_same _ _ F).
  assert (M1 : aa_errors a1 = [] /\ var_args_stage c' ai a1 s1 = (VOk a2, s2)).
  { unfold var_args_stage in *. rewrite PC. destruct (ai_args ai) as [l|]; [|injection VA as <- <-; auto]. destruct (_ <? _); [|injection VA as <- <-; auto].
    split; [exact (var_args_mono _ _ _ _ _ _ _ VA Z2)|]. now apply (var_args_ease _ _ _ OA). }
  destruct M1 as [Z1 VA'].
  now rewrite (params_ease c c' ai i ba bn _ _ F _ _ _ _ _ O0 P Z1), VA', VK'.
Qed.

(** ** Dataclass arguments *)
Definition dkid (p p' : dc_field) : Prop := df_name p' = df_name p /\ df_keys p' = df_keys p /\ df_kw_only p' = df_kw_only p /\ df_init p' = df_init p /\ df_init_only p' = df_init_only p /\
  ckid (df_init p) (df_cv p) (df_cv p').
Lemma da_set_errors c f v a : da_errors (da_set c f v a) = da_errors a. Proof. unfold da_set. now destruct (df_init_only f). Qed.
Lemma dc_mono c ai i ba bn ps : forall ix a s b t, dc_loop c ai i ba bn ix ps a s = (VOk b, t) -> da_errors b = [] -> da_errors a = [].
Proof.
  induction ps as [|p ps IH]; intros ix a s b t; cbn [dc_loop]; [now intros [= <- _]|]. cbv zeta. unfold rebind.
  intros H. repeat adv H; intros Z; specialize (IH _ _ _ _ _ H Z); try exact IH; try (cbn in IH; rewrite ?da_set_errors in IH; first [exact IH|now apply app_eq_nil in IH]); try (rewrite da_set_errors in IH; exact IH).
Qed.
Lemma dc_ease c c' ai i ba bn ps ps' : dc_collect_init_only c' = dc_collect_init_only c -> Forall2 dkid ps ps' -> forall ix a s b t, off s -> dc_loop c ai i ba bn ix ps a s = (VOk b, t) -> da_errors b = [] ->
  dc_loop c' ai i ba bn ix ps' a s = (VOk b, t).
Proof.
  intros EC. induction 1 as [|p p' ps ps' (EN & EK & EW & EI & EO & [K DN DO DE]) F IH]; intros ix a s b t O; cbn [dc_loop]; [easy|]. cbv zeta. unfold rebind.
  assert (DS : forall v b, da_set c' p' v b = da_set c p v b). { intros. unfold da_set. now rewrite EO, EC, EN. }
  rewrite EN, EK, EW, EI. clear EN EK EW EI EO. pose proof (k_ne _ _ K) as KN. pose proof (k_off _ _ K) as KO.
  intros H Z. pose proof (dc_mono c ai i ba bn ps) as MO. destruct (df_init p); cbn [negb] in *. all: repeat adv H; try (apply IH; [go|exact H|exact Z]).
  all: try (specialize (MO _ _ _ _ _ H Z); cbn in MO; bad).
  all: try bad.
  all: first [known|dknown]; rewrite ?DS; now apply IH; [go| |].
Qed.
Lemma dcx_mono c es : forall a s b t, dc_extras_loop c es a s = (VOk b, t) -> da_errors b = [] -> da_errors a = [].
Proof.
  induction es as [|[k kl v|e] es IH]; intros a s b t; cbn [dc_extras_loop]; [now intros [= <- _]| |discriminate]. cbv zeta.
  intros H. repeat adv H; intros Z; specialize (IH _ _ _ _ H Z); try exact IH; cbn in IH; now apply app_eq_nil in IH.
Qed.
Lemma dcx_ease c c' es : extra_looser true (dc_extra c) (dc_extra c') -> opt_rel kid (dc_extras c) (dc_extras c') \/ dc_extra c = ExtraForbid ->
  forall a s b t, off s -> dc_extras_loop c es a s = (VOk b, t) -> da_errors b = [] -> dc_extras_loop c' es a s = (VOk b, t).
Proof.
  intros EX OV. assert (Q : dc_extra c = ExtraForbid \/ (dc_extra c' = dc_extra c /\ opt_rel kid (dc_extras c) (dc_extras c'))).
  { destruct EX as [EX|[EX _]]; [|auto]. destruct OV; auto. }
  clear EX OV. induction es as [|[k kl v|e] es IH]; intros a s b t O; cbn [dc_extras_loop]; [easy| |discriminate]. cbv zeta.
  intros H Z. pose proof (dcx_mono c es) as MO. destruct Q as [Q|[EX OV]].
  - rewrite Q in H. clear Q. repeat adv H; try (apply IH; [go|exact H|exact Z]). specialize (MO _ _ _ _ H Z); cbn in MO; bad.
  - rewrite EX. clear EX. inversion OV as [A1 A2|x x' K A1 A2]; rewrite <- A1 in H.
    + repeat adv H; try (apply IH; [go|exact H|exact Z]).
    + pose proof (k_ne _ _ K) as KN. pose proof (k_off _ _ K) as KO. repeat adv H; try (apply IH; [go|exact H|exact Z]); try (specialize (MO _ _ _ _ H Z); cbn in MO; bad).
      known. now apply IH; [go| |].
Qed.
Lemma dpc_same ps ps' : Forall2 dkid ps ps' -> length (filter (fun f => negb (df_kw_only f)) ps') = length (filter (fun f => negb (df_kw_only f)) ps).
Proof. induction 1 as [|p p' ps ps' (_ & _ & EW & _) F IH]; cbn; [reflexivity|]. rewrite EW. destruct (df_kw_only p); cbn; now rewrite IH. Qed.
Lemma dataclass_args_ease c c' va : Forall2 dkid (dc_fields c) (dc_fields c') -> dc_collect_init_only c' = dc_collect_init_only c -> extra_looser true (dc_extra c) (dc_extra c') ->
  dc_by_alias c' = dc_by_alias c -> dc_by_name c' = dc_by_name c -> opt_rel kid (dc_extras c) (dc_extras c') \/ dc_extra c = ExtraForbid ->
  eases (dataclass_args_validate c va) (dataclass_args_validate c' va).
Proof.
  intros F EC EX EA EN OX i s a t O. unfold dataclass_args_validate. rewrite EA, EN. cbv zeta. set (s0 := set_partial PartialOff s).
  destruct (va i) as [ai|e]; [|discriminate]. unfold rebind. set (s00 := set_extra _ s0). set (ba := validate_by_alias_or _ _). set (bn := validate_by_name_or _ _).
  assert (FC : Forall (fun f => ckeeps (df_cv f)) (dc_fields c)).
  { clear -F. induction F as [|f f' l l' (_ & _ & _ & _ & _ & [K D1 D2 D3]) F IH]; constructor; auto. split; [apply (k_off _ _ K)|exact D2]. }
  assert (O0 : off s00) by exact (proj1 (off_part true s)).
  pose proof (dc_off c ai i ba bn 0 _ da_init0 s00 FC O0) as N1. destruct (dc_loop c ai i ba bn 0 (dc_fields c) da_init0 s00) as [[a1|] s1] eqn:P; [|discriminate]. cbn [snd] in N1.
  assert (SA : dc_args_stage c' ai a1 = dc_args_stage c ai a1). { unfold dc_args_stage, dc_positional_count. now rewrite (dpc_same _ _ F). }
  destruct (dc_kwargs_stage c ai (dc_args_stage c ai a1) s1) as [[a2|] s2] eqn:VK; [|discriminate].
  assert (SF : dc_finish c' a2 s2 = dc_finish c a2 s2). { unfold dc_finish. now rewrite EC. }
  destruct (dc_finish c a2 s2) as [r s3] eqn:FI. intros [= -> <-].
  assert (Z2 : da_errors a2 = []). { unfold dc_finish in FI. destruct (is_nil (da_errors a2)) eqn:N; [now apply is_nil_true|discriminate]. }
  assert (M2 : da_errors (dc_args_stage c ai a1) = [] /\ dc_kwargs_stage c' ai (dc_args_stage c ai a1) s1 = (VOk a2, s2)).
  { unfold dc_kwargs_stage in *. destruct (ai_kwargs ai) as [[md len]|]; [|injection VK as <- <-; auto]. destruct (negb _); [|injection VK as <- <-; auto].
    destruct (md_iter md) as [es|]; [|discriminate]. split; [exact (dcx_mono _ _ _ _ _ _ VK Z2)|]. now apply (dcx_ease c c' es EX OX). }
  destruct M2 as [Z1' VK'].
  assert (Z1 : da_errors a1 = []). { unfold dc_args_stage in Z1'. destruct (ai_args ai); [|exact Z1']. cbn in Z1'. now apply app_eq_nil in Z1'. }
  now rewrite (dc_ease c c' ai i ba bn _ _ EC F _ _ _ _ _ O0 P Z1), SA, VK', SF.
Qed.

From Coq Require Import List NArith ZArith Bool Lia.
From Verif Require Import Base Float64 IntParse IntParseProofs Numbers NumbersSpec NumbersProofs BytesCodec Values VState LookupKey Collections Child Inputs Scalars Literal Wrappers Union TaggedUnion Tuple ModelFields TypedDict Assign Arguments Classes Interp InterpSpec InterpProofs ConformSpec ConformProofs ConformProofs2 ConformProofs4.
Import ListNotations.
Open Scope nat_scope.

Lemma dict_update_entries e : forall d a b, In (a, b) (dict_update e d) -> In (a, b) d \/ exists k, In (k, b) e /\ (a = k \/ py_eq a k = true).
Proof.
  unfold dict_update. induction e as [|[k v] e IH]; intros d a b J; cbn [fold_left fst snd] in J; [now left|].
  destruct (IH _ _ _ J) as [K|(k' & K & Q)]; [|right; exists k'; split; [now right|exact Q]].
  apply dict_set_in in K. destruct K as [K|[-> [->|[Q _]]]]; [now left| |]; right; exists k; (split; [now left|auto]).
Qed.
Lemma dict_update_keeps e : forall d k, In k (map fst d) -> In k (map fst (dict_update e d)).
Proof. unfold dict_update. induction e as [|[a b] e IH]; intros d k K; cbn [fold_left fst snd]; [exact K|]. apply IH. now apply dict_set_keeps. Qed.
Lemma dict_update_distinct e : forall d, distinct fst d -> distinct fst (dict_update e d).
Proof. unfold dict_update. induction e as [|[a b] e IH]; intros d D; cbn [fold_left fst snd]; [exact D|]. apply IH. now apply dict_set_distinct. Qed.
Lemma nth_allowed strings l n i : Forall (allowed strings) l -> nth_error l n = Some i -> allowed strings i.
Proof. intros F N. rewrite Forall_forall in F. apply F. exact (nth_error_In _ _ N). Qed.

(** ** Function calls *)
Section ArgumentsOk.
Variable strings : bool.
Variable X : Type.
Variable prm : X -> param.
Variable P : X -> pyval -> Prop.
Variable O : X -> Prop.
Variable c : args_cfg.
Variables Pa Pv : pyval -> Prop.
Variables Oa Ov : Prop.
Hypothesis Ha : forall v, ac_var_args c = Some v -> vok strings Pa Oa v.
Hypothesis Hv : forall v, ac_var_kwargs c = Some v -> vok strings Pv Ov v.

Notation bind := (X * (bool * pyval))%type.
Definition positionals (bs : list bind) : list pyval := flat_map (fun b : bind => if fst (snd b) then [snd (snd b)] else []) bs.
Record shape (l : list X) (bs : list bind) (rest : list pyval) (a : aacc) : Prop := {
  sh_map : map fst bs = l;
  sh_binds : forall x b v, In (x, (b, v)) bs -> P x v /\ (if b : bool then pa_mode (prm x) <> KwOnly else pa_mode (prm x) <> PosOnly);
  sh_rest : forall x, In x rest -> ac_var_args c <> None /\ Pa x;
  sh_args : aa_args a = positionals bs ++ rest;
  sh_distinct : distinct fst (aa_kwargs a);
  sh_kwargs : forall k v, In (k, v) (aa_kwargs a) -> (exists x, In (x, (false, v)) bs /\ k = PStr (pa_name (prm x))) \/ (ac_unpacked c = false /\ (exists n, k = PStr n) /\ ac_var_kwargs c <> None /\ Pv v);
  sh_present : forall x v, In (x, (false, v)) bs -> In (PStr (pa_name (prm x))) (map fst (aa_kwargs a)) }.
Definition clean (Q : Prop) (a : aacc) : Prop := aa_errors a = [] -> Q.

Lemma sh_strs l bs rest a : shape l bs rest a -> forall k, In k (map fst (aa_kwargs a)) -> exists n, k = PStr n.
Proof. intros F k K. apply in_map_iff in K. destruct K as ([k' v] & <- & K). destruct (sh_kwargs _ _ _ _ F _ _ K) as [(x & _ & Q)|(_ & Q & _)]; [eauto|exact Q]. Qed.
Lemma positionals_app a b : positionals (a ++ b) = positionals a ++ positionals b. Proof. unfold positionals. now rewrite flat_map_app. Qed.
Lemma shape_use l bs rest k a : shape l bs rest a -> shape l bs rest (aa_use k a).
Proof. intros [A B C D E F G]. now constructor. Qed.
Lemma shape_push l bs x v a : shape l bs [] a -> P x v -> pa_mode (prm x) <> KwOnly -> shape (l ++ [x]) (bs ++ [(x, (true, v))]) [] (aa_push v a).
Proof.
  intros [A B C D E F G] PV M. constructor; auto.
  - rewrite map_app, A. reflexivity.
  - intros y b w J. apply in_app_or in J. destruct J as [J|[[= <- <- <-]|[]]]; [auto|now split].
  - cbn [aa_push aa_args]. rewrite D, positionals_app, !app_nil_r. reflexivity.
  - intros k w J. destruct (F _ _ J) as [(y & Y & Q)|Q]; [left; exists y; split; [apply in_or_app; now left|exact Q]|now right].
  - intros y w J. apply in_app_or in J. destruct J as [J|[[= ]|[]]]. exact (G _ _ J).
Qed.
Lemma shape_put l bs x v a : shape l bs [] a -> P x v -> pa_mode (prm x) <> PosOnly -> shape (l ++ [x]) (bs ++ [(x, (false, v))]) [] (aa_put (pa_name (prm x)) v a).
Proof.
  intros S PV M. pose proof (sh_strs _ _ _ _ S) as ST. destruct S as [A B C D E F G]. constructor; auto; cbn [aa_put aa_args aa_kwargs].
  - rewrite map_app, A. reflexivity.
  - intros y b w J. apply in_app_or in J. destruct J as [J|[[= <- <- <-]|[]]]; [auto|now split].
  - rewrite D, positionals_app. cbn. now rewrite !app_nil_r.
  - now apply dict_set_distinct.
  - intros k w J. apply dict_set_str_entries in J; [|exact ST]. destruct J as [J|[-> ->]]; [|left; exists x; split; [apply in_or_app; right; now left|reflexivity]].
    destruct (F _ _ J) as [(y & Y & Q)|Q]; [left; exists y; split; [apply in_or_app; now left|exact Q]|now right].
  - intros y w J. apply in_app_or in J. destruct J as [J|[[= <- <-]|[]]]; [apply dict_set_keeps; exact (G _ _ J)|now apply dict_set_str_in].
Qed.
Definition params_ok (xs : list X) : Prop := forall x, In x xs -> vok strings (P x) (O x) (cv_validate (pa_cv (prm x))) /\ (exists D : Prop, dok (P x) (O x) D (cv_default (pa_cv (prm x)))) /\ cvne (pa_cv (prm x)).
Definition shaped (l : list X) (a : aacc) : Prop := clean (exists bs, shape l bs [] a) a.
Lemma shaped_use l k a : shaped l a -> shaped l (aa_use k a).
Proof. intros H E. destruct (H E) as [bs S]. exists bs. now apply shape_use. Qed.
Lemma shaped_add l es a : es <> [] -> shaped l (aa_add es a).
Proof. intros N E. cbn in E. now destruct (app_not_nil _ (aa_errors a) es N). Qed.
Lemma shaped_push l x v a : shaped l a -> P x v -> pa_mode (prm x) <> KwOnly -> shaped (l ++ [x]) (aa_push v a).
Proof. intros H PV M E. destruct (H E) as [bs S]. eexists. apply shape_push; eauto. Qed.
Lemma shaped_put l x v a : shaped l a -> P x v -> pa_mode (prm x) <> PosOnly -> shaped (l ++ [x]) (aa_put (pa_name (prm x)) v a).
Proof. intros H PV M E. destruct (H E) as [bs S]. eexists. apply shape_put; eauto. Qed.

Lemma params_loop_ok ai i ba bn xs : ai_ok strings ai -> params_ok xs -> forall ix l a s, shaped l a ->
  vk (shaped (l ++ xs)) (exists x, In x xs /\ O x) (fst (params_loop c ai i ba bn ix (map prm xs) a s)).
Proof.
  intros [AO AK]. induction xs as [|x xs IH]; intros H ix l a s S; cbn [params_loop map]; [rewrite app_nil_r; exact S|].
  specialize (IH (fun y Y => H y (or_intror Y))).
  assert (K : forall ix a s, shaped (l ++ [x]) a -> vk (shaped (l ++ x :: xs)) (exists y, In y (x :: xs) /\ O y) (fst (params_loop c ai i ba bn ix (map prm xs) a s))).
  { intros ix0 a0 s0 F0. specialize (IH ix0 (l ++ [x]) a0 s0 F0). rewrite <- app_assoc in IH. destruct (fst _) as [?|[]]; cbn in *; auto. destruct IH as (y & Y & Z). exists y. split; [now right|exact Z]. }
  destruct (H x (or_introl eq_refl)) as (HV & (D & HD) & HN & HDN). 
  assert (OO : O x -> exists y, In y (x :: xs) /\ O y) by (intros Z; exists x; split; [now left|exact Z]).
  cbv zeta.
  set (pos := match ai_args ai with Some l => _ | None => None end).
  assert (POS : forall v, pos = Some v -> allowed strings v /\ pa_mode (prm x) <> KwOnly).
  { intros v. unfold pos. unfold args_list in AO. destruct (ai_args ai); [|discriminate]. cbn in AO. destruct (pa_mode (prm x)); cbn [positional]; try discriminate; intros Q; split; try discriminate; exact (nth_allowed _ _ _ _ AO Q). }
  set (key := if by_keyword (pa_mode (prm x)) then _ else None).
  assert (KEY : forall k, key = Some (BOk k) -> pa_mode (prm x) <> PosOnly). { intros k. unfold key. destruct (pa_mode (prm x)); cbn [by_keyword]; [discriminate| |]; intros; discriminate. }
  clearbody pos. 
  assert (KW : forall (kx : build_res lookup_key) , key = Some kx -> by_keyword (pa_mode (prm x)) = true). { intros kx. unfold key. destruct (by_keyword _); [reflexivity|discriminate]. }
  assert (KN : key = None -> by_keyword (pa_mode (prm x)) = false). { unfold key. destruct (by_keyword _); [|reflexivity]. destruct (collection_select _ _ _); discriminate. }
  destruct key as [[k|]|] eqn:KEQ; [|exact I|].
  - pose proof (KEY _ eq_refl) as M. assert (G : get_ok strings (match ai_kwargs ai with Some (md, _) => md_get md k | None => VOk None end)).
    { destruct (ai_kwargs ai) as [[md n]|] eqn:EK; [apply (mo_get _ _ (AK _ _ eq_refl))|intros ? ? [=]]. }
    destruct (match ai_kwargs ai with Some (md, _) => md_get md k | None => VOk None end) as [kw|e]; [|destruct e; try exact I; destruct G]. cbn in G.
    destruct kw as [[path value]|].
    + specialize (G _ _ eq_refl). pose proof (shaped_use l (lp_first path) a S) as S1. destruct pos as [pv|].
      * apply K. apply shaped_add. discriminate.
      * unfold rebind. set (s1 := set_extra _ s). pose proof (HV value s1 G) as V. pose proof (HN value s1) as VN.
        destruct (cv_validate _ value s1) as [[v|[es|e| | |]] s2]; cbn in V, VN; try exact I; [apply K; now apply shaped_put|apply K; apply shaped_add; now apply map_not_nil|now apply OO].
    + destruct pos as [pv|].
      * destruct (POS _ eq_refl) as [PA PM]. unfold rebind. set (s1 := set_extra _ s). pose proof (HV pv s1 PA) as V. pose proof (HN pv s1) as VN.
        destruct (cv_validate _ pv s1) as [[v|[es|e| | |]] s2]; cbn in V, VN; try exact I; [apply K; now apply shaped_push|apply K; apply shaped_add; now apply map_not_nil|now apply OO].
      * unfold rebind. set (s1 := set_extra _ s). pose proof (HD (Some (LStr (pa_name (prm x)))) s1) as V.
        destruct (cv_default _ _ s1) as [[[v|]|[es|e| | |]] s2]; cbn in V; try exact I; [|destruct (key_error _ _ _ _ _); [apply K; apply shaped_add; discriminate|exact I]|now apply OO].
        apply K. rewrite (KW _ eq_refl). apply shaped_put; [exact S|apply V|exact M].
  - assert (G : match ai_kwargs ai with Some (_, _) => VOk None | None => VOk None end = (VOk None : vres (option (lookup_path * input)))) by (destruct (ai_kwargs ai) as [[]|]; reflexivity).
    rewrite G. destruct pos as [pv|].
    + destruct (POS _ eq_refl) as [PA PM]. unfold rebind. set (s1 := set_extra _ s). pose proof (HV pv s1 PA) as V. pose proof (HN pv s1) as VN.
      destruct (cv_validate _ pv s1) as [[v|[es|e| | |]] s2]; cbn in V, VN; try exact I; [apply K; now apply shaped_push|apply K; apply shaped_add; now apply map_not_nil|now apply OO].
    + unfold rebind. set (s1 := set_extra _ s). pose proof (HD (Some (LStr (pa_name (prm x)))) s1) as V.
      destruct (cv_default _ _ s1) as [[[v|]|[es|e| | |]] s2]; cbn in V; try exact I; [|apply K; apply shaped_add; discriminate|now apply OO].
      apply K. rewrite (KN eq_refl). apply shaped_push; [exact S|apply V|]. intros Q. rewrite Q in KN. now specialize (KN eq_refl).
Qed.

Definition shaped2 (l : list X) (a : aacc) : Prop := clean (exists bs rest, shape l bs rest a) a.
Lemma shaped2_add l es a : shaped2 l a -> shaped2 l (aa_add es a).
Proof. intros H E. cbn in E. apply app_eq_nil in E. destruct (H (proj1 E)) as (bs & rest & S). exists bs, rest. destruct S as [? ? ? ? ? ? ?]. now constructor. Qed.
Lemma var_args_ok ix xs l a s : Forall (allowed strings) xs -> shaped2 l a -> vk (shaped2 l) (ac_var_args c <> None /\ Oa) (fst (var_args_loop (ac_var_args c) ix xs a s)).
Proof.
  intros F. revert ix a s. induction F as [|x xs A F IH]; intros ix a s S; cbn [var_args_loop]; [exact S|].
  destruct (ac_var_args c) as [v|] eqn:VA; [|apply IH, shaped2_add, S].
  pose proof (Ha v eq_refl x s A) as V. destruct (v x s) as [[w|[es|e| | |]] s2]; try exact I; cbn in V.
  - apply IH. intros E. destruct (S E) as (bs & rest & [? ? R ? ? ? ?]). exists bs, (rest ++ [w]). constructor; auto.
    + intros y Y. apply in_app_or in Y. destruct Y as [Y|[<-|[]]]; [auto|split; [rewrite VA; discriminate|exact V]].
    + cbn [aa_push aa_args]. now rewrite app_assoc, <- sh_args0.
  - apply IH, shaped2_add, S.
  - now split.
Qed.
Lemma var_kwargs_ok es : Forall (entry_ok strings) es -> forall r l a s, shaped2 l a ->
  vk (fun p => shaped2 l (fst p)) (ac_var_kwargs c <> None /\ Ov) (fst (var_kwargs_loop c es r a s)).
Proof.
  induction 1 as [|en es A F IH]; intros r l a s S; cbn [var_kwargs_loop]; [exact S|].
  destruct en as [key kl value|e]; [|destruct e; try exact I; destruct A]. destruct A as [A1 A2].
  pose proof (key_str_no key) as KN. destruct (key_str key) as [k|[x|x| | |]]; try exact I; try destruct KN; [|apply IH, shaped2_add, S].
  destruct (mem_str k (aa_used a)); [apply IH, S|]. destruct (ac_unpacked c) eqn:UN; [apply IH, S|].
  destruct (ac_var_kwargs c) as [v|] eqn:VK; [|destruct (ac_extra c); try apply IH, S; apply IH, shaped2_add, S].
  pose proof (Hv v eq_refl value s A2) as V. destruct (v value s) as [[w|[x|x| | |]] s2]; try exact I; cbn in V.
  - apply IH. intros E. destruct (S E) as (bs & rest & SH). pose proof (sh_strs _ _ _ _ SH) as ST. destruct SH as [? ? ? ? ? KW PR]. exists bs, rest. constructor; auto; cbn [aa_put aa_kwargs].
    + now apply dict_set_distinct.
    + intros k' v' J. apply dict_set_str_entries in J; [|exact ST]. destruct J as [J|[-> ->]]; [auto|]. right. split; [exact UN|]. split; [eauto|]. split; [rewrite VK; discriminate|exact V].
    + intros x v' J. apply dict_set_keeps. eauto.
  - apply IH, shaped2_add, S.
  - split; [discriminate|exact V].
Qed.

Definition arguments_value (xs : list X) (v : pyval) : Prop :=
  exists bs rest kw, v = PTuple [PTuple (positionals bs ++ rest); PDict kw] /\ map fst bs = xs /\
    (forall x b v, In (x, (b, v)) bs -> P x v /\ (if b : bool then pa_mode (prm x) <> KwOnly else pa_mode (prm x) <> PosOnly)) /\
    (forall x, In x rest -> ac_var_args c <> None /\ Pa x) /\ distinct fst kw /\
    (forall k v, In (k, v) kw -> (exists x, In (x, (false, v)) bs /\ k = PStr (pa_name (prm x))) \/
       (ac_unpacked c = false /\ (exists n, k = PStr n) /\ ac_var_kwargs c <> None /\ Pv v) \/
       (ac_unpacked c = true /\ ac_var_kwargs c <> None /\ exists w d k', Pv w /\ as_dict w = Some d /\ In (k', v) d /\ (k = k' \/ py_eq k k' = true))) /\
    (forall x v, In (x, (false, v)) bs -> In (PStr (pa_name (prm x))) (map fst kw)).

Lemma finish_ok l a s : shaped2 l a -> vk (arguments_value l) False (fst (args_finish a s)).
Proof.
  intros S. unfold args_finish. destruct (aa_errors a) eqn:E; [|exact I]. destruct (S E) as (bs & rest & [A B C D F G H]). cbn. exists bs, rest, (aa_kwargs a). rewrite D. repeat (split; [auto; try reflexivity|]); [|exact H].
  intros k v J. destruct (G _ _ J); auto.
Qed.
Lemma arguments_ok xs va : params_ok xs -> ac_params c = map prm xs -> (forall i a, allowed strings i -> va i = VOk a -> ai_ok strings a) -> (forall i, no (va i)) ->
  vok strings (arguments_value xs) ((exists x, In x xs /\ O x) \/ (ac_var_args c <> None /\ Oa) \/ (ac_var_kwargs c <> None /\ Ov)) (arguments_validate c va).
Proof.
  intros HP EP VA VN i s A. unfold arguments_validate. cbv zeta. specialize (VA i). specialize (VN i). destruct (va i) as [ai|e]; [|destruct e; try exact I; destruct VN].
  pose proof (VA _ A eq_refl) as AI. rewrite EP. set (s0 := set_partial PartialOff s).
  assert (S0 : shaped [] aa_init). { intros _. exists []. constructor; cbn; try easy. constructor. }
  pose proof (params_loop_ok ai i (validate_by_alias_or s0 (ac_by_alias c)) (validate_by_name_or s0 (ac_by_name c)) xs AI HP 0 [] aa_init s0 S0) as L.
  destruct (params_loop _ _ _ _ _ _ _ _ _) as [[a|e] s1]; [|destruct e; try exact I; left; exact L]. cbn in L.
  assert (S1 : shaped2 xs a). { intros E. destruct (L E) as [bs SH]. exists bs, []. exact SH. } clear L.
  unfold var_args_stage. 
  assert (L : vk (shaped2 xs) (ac_var_args c <> None /\ Oa) (fst (match ai_args ai with Some l => if Nat.ltb (positional_count c) (length l) then var_args_loop (ac_var_args c) (positional_count c) (skipn (positional_count c) l) a s1 else (VOk a, s1) | None => (VOk a, s1) end))).
  { pose proof (ao_args _ _ AI) as AO. unfold args_list in AO. destruct (ai_args ai) as [l|]; [|exact S1]. destruct (Nat.ltb _ _); [|exact S1]. apply var_args_ok; [|exact S1].
    cbn in AO. rewrite <- (firstn_skipn (positional_count c) l) in AO. apply Forall_app in AO. apply AO. }
  destruct (match ai_args ai with Some l => _ | None => _ end) as [[a2|e] s2]; [|destruct e; try exact I; right; left; exact L]. cbn in L.
  unfold var_kwargs_stage.
  assert (L2 : vk (fun p => shaped2 xs (fst p)) (ac_var_kwargs c <> None /\ Ov) (fst (match ai_kwargs ai with Some (md, len) => if Nat.ltb (length (aa_used a2)) len then match md_iter md with VErr e => (VErr e, s2) | VOk es => var_kwargs_loop c es [] a2 s2 end else (VOk (a2, []), s2) | None => (VOk (a2, []), s2) end))).
  { destruct (ai_kwargs ai) as [[md len]|] eqn:EK; [|exact L]. destruct (Nat.ltb _ _); [|exact L]. pose proof (mo_iter _ _ (ao_kwargs _ _ AI _ _ EK)) as IT. destruct (md_iter md) as [es|e]; [|destruct e; try exact I; destruct IT].
    now apply var_kwargs_ok. }
  destruct (match ai_kwargs ai with Some _ => _ | None => _ end) as [[[a3 r]|e] s3]; [|destruct e; try exact I; right; right; exact L2]. cbn in L2.
  unfold unpacked_stage. assert (FF : forall a s, shaped2 xs a -> vk (arguments_value xs) ((exists x, In x xs /\ O x) \/ (ac_var_args c <> None /\ Oa) \/ (ac_var_kwargs c <> None /\ Ov)) (fst (args_finish a s))).
  { intros a0 s4 S4. pose proof (finish_ok xs a0 s4 S4) as Q. destruct (fst _) as [?|[]]; cbn in *; try exact I; try exact Q. destruct Q. }
  destruct (ac_unpacked c) eqn:UN; [|now apply FF].
  destruct (ac_var_kwargs c) as [v|] eqn:VK; [|exact I].
  pose proof (Hv v eq_refl (IPy (PDict r)) s3 I) as V. destruct (v (IPy (PDict r)) s3) as [[w|[x|x| | |]] s4]; try exact I; cbn in V.
  - destruct (as_dict w) as [d|] eqn:AD; [|exact I]. unfold args_finish. cbn [aa_errors]. destruct (aa_errors a3) eqn:E; [|exact I]. destruct (L2 E) as (bs & rest & [B1 B2 B3 B4 B5 B6 B7]).
    cbn. exists bs, rest, (dict_update d (aa_kwargs a3)). rewrite B4. repeat (split; [auto; try reflexivity|]).
    + now apply dict_update_distinct.
    + intros k y J. apply dict_update_entries in J. destruct J as [J|(k' & J & Q)]; [destruct (B6 _ _ J) as [Z|(Z & _)]; [auto|congruence]|]. right. right. split; [exact UN|]. split; [rewrite VK; discriminate|]. exists w, d, k'. auto.
    + intros y z J. apply dict_update_keeps. eauto.
  - apply FF, shaped2_add, L2.
  - right. right. split; [discriminate|exact V].
Qed.
End ArgumentsOk.

(** ** Dataclass arguments *)
Section DataclassArgsOk.
Variable strings : bool.
Variable X : Type.
Variable fld : X -> dc_field.
Variable P : X -> pyval -> Prop.
Variable O : X -> Prop.
Variable c : dc_cfg.
Variable Pe : pyval -> Prop.
Variable Oe : Prop.
Hypothesis He : forall v, dc_extras c = Some v -> vok strings Pe Oe v.

Record dinv (l : list X) (a : dacc) : Prop := {
  dn_distinct : distinct fst (da_dict a);
  dn_entries : forall k v, In (k, v) (da_dict a) ->
    (exists x, In x l /\ df_init_only (fld x) = false /\ k = PStr (df_name (fld x)) /\ P x v) \/
    (dc_extra c = ExtraAllow /\ (exists n, k = PStr n) /\ (dc_extras c <> None -> Pe v));
  dn_present : forall x, In x l -> df_init (fld x) = true -> df_init_only (fld x) = false -> In (PStr (df_name (fld x))) (map fst (da_dict a)) \/ O x \/ da_errors a <> [];
  dn_inits : forall v, In v (da_init a) -> exists x, In x l /\ df_init_only (fld x) = true /\ P x v }.
Lemma dn_strs l a : dinv l a -> forall k, In k (map fst (da_dict a)) -> exists n, k = PStr n.
Proof. intros F k K. apply in_map_iff in K. destruct K as ([k' v] & <- & K). destruct (dn_entries _ _ F _ _ K) as [(x & _ & _ & Q & _)|(_ & Q & _)]; [eauto|exact Q]. Qed.
Lemma in_l (l : list X) (x y : X) : In x l -> In x (l ++ [y]). Proof. intros; apply in_or_app; now left. Qed.
Lemma in_r (l : list X) (y : X) : In y (l ++ [y]). Proof. apply in_or_app; right; now left. Qed.
Lemma dinv_use l k a : dinv l a -> dinv l (da_use k a). Proof. intros [A B C D]. now constructor. Qed.
Lemma dinv_counted l a : dinv l a -> dinv l (da_counted a). Proof. intros [A B C D]. now constructor. Qed.
Lemma dinv_more l x a : dinv l a -> (df_init (fld x) = true -> df_init_only (fld x) = false -> In (PStr (df_name (fld x))) (map fst (da_dict a)) \/ O x \/ da_errors a <> []) -> dinv (l ++ [x]) a.
Proof.
  intros [A B C D] N. constructor; auto.
  - intros k v J. destruct (B _ _ J) as [(y & Y & Q)|Q]; [left; exists y; split; [now apply in_l|exact Q]|now right].
  - intros y Y. apply in_app_or in Y. destruct Y as [Y|[<-|[]]]; auto.
  - intros v V. destruct (D v V) as (y & Y & Q). exists y. split; [now apply in_l|exact Q].
Qed.
Lemma dinv_add l es a : dinv l a -> dinv l (da_add es a).
Proof. intros [A B C D]. constructor; auto. intros x J I1 I2. destruct (C x J I1 I2) as [Q|[Q|Q]]; auto. right. right. now apply add_not_nil. Qed.
Lemma dinv_err l x es a : dinv l a -> es <> [] -> dinv (l ++ [x]) (da_add es a).
Proof. intros F N. apply dinv_more; [now apply dinv_add|]. intros _ _. right. right. now apply app_not_nil. Qed.
Lemma dinv_set l x v a : dinv l a -> P x v -> dinv (l ++ [x]) (da_set c (fld x) v a).
Proof.
  intros F PV. pose proof (dn_strs _ _ F) as S. unfold da_set. destruct (df_init_only (fld x)) eqn:IO.
  - destruct (dinv_more l x a F) as [A B C D]; [congruence|]. constructor; auto. cbn [da_init]. destruct (dc_collect_init_only c); [|exact D].
    intros w W. apply in_app_or in W. destruct W as [W|[<-|[]]]; [auto|]. exists x. split; [apply in_r|auto].
  - destruct F as [A B C D]. constructor; cbn [da_dict da_errors da_init].
    + now apply dict_set_distinct.
    + intros k w J. apply dict_set_str_entries in J; [|exact S]. destruct J as [J|[-> ->]].
      * destruct (B _ _ J) as [(y & Y & Q)|Q]; [left; exists y; split; [now apply in_l|exact Q]|now right].
      * left. exists x. split; [apply in_r|auto].
    + intros y Y I1 I2. apply in_app_or in Y. destruct Y as [Y|[<-|[]]]; [|left; now apply dict_set_str_in]. destruct (C y Y I1 I2) as [Q|Q]; [left; now apply dict_set_keeps|now right].
    + intros w W. destruct (D w W) as (y & Y & Q). exists y. split; [now apply in_l|exact Q].
Qed.

Definition dchildren_ok (xs : list X) : Prop := forall x, In x xs -> vok strings (P x) (O x) (cv_validate (df_cv (fld x))) /\ (exists D : Prop, dok (P x) (O x) D (cv_default (df_cv (fld x)))) /\ cvne (df_cv (fld x)).
Lemma dc_loop_ok ai i ba bn xs : ai_ok strings ai -> dchildren_ok xs -> forall ix l a s, dinv l a ->
  vk (dinv (l ++ xs)) (exists x, In x xs /\ O x) (fst (dc_loop c ai i ba bn ix (map fld xs) a s)).
Proof.
  intros [AO AK]. induction xs as [|x xs IH]; intros H ix l a s S; cbn [dc_loop map]; [rewrite app_nil_r; exact S|].
  specialize (IH (fun y Y => H y (or_intror Y))).
  assert (K : forall ix a s, dinv (l ++ [x]) a -> vk (dinv (l ++ x :: xs)) (exists y, In y (x :: xs) /\ O y) (fst (dc_loop c ai i ba bn ix (map fld xs) a s))).
  { intros ix0 a0 s0 F0. specialize (IH ix0 (l ++ [x]) a0 s0 F0). rewrite <- app_assoc in IH. destruct (fst _) as [?|[]]; cbn in *; auto. destruct IH as (y & Y & Z). exists y. split; [now right|exact Z]. }
  destruct (H x (or_introl eq_refl)) as (HV & (D & HD) & HN & HDN).
  assert (OO : O x -> exists y, In y (x :: xs) /\ O y) by (intros Z; exists x; split; [now left|exact Z]).
  cbv zeta. set (s0 := set_extra _ s). destruct (df_init (fld x)) eqn:DI; cbn [negb].
  2: { pose proof (HD (Some (LStr (df_name (fld x)))) s0) as V. pose proof (HDN (Some (LStr (df_name (fld x)))) s0) as VN.
    destruct (cv_default _ _ s0) as [[[v|]|[es|e| | |]] s2]; cbn in V, VN; try exact I; apply K.
    + apply dinv_counted, dinv_set; [exact S|apply V].
    + apply dinv_more; [exact S|congruence].
    + now apply dinv_err.
    + apply dinv_more; [exact S|congruence]. }
  set (pos := match ai_args ai with Some l => _ | None => None end).
  assert (POS : forall v, pos = Some v -> allowed strings v).
  { intros v. unfold pos. unfold args_list in AO. destruct (ai_args ai); [|discriminate]. cbn in AO. destruct (negb _); [|discriminate]. intros Q; exact (nth_allowed _ _ _ _ AO Q). }
  clearbody pos. destruct (collection_select _ ba bn) as [key|]; [|exact I].
  assert (G : get_ok strings (match ai_kwargs ai with Some (md, _) => md_get md key | None => VOk None end)).
  { destruct (ai_kwargs ai) as [[md n]|] eqn:EK; [apply (mo_get _ _ (AK _ _ eq_refl))|intros ? ? [=]]. }
  destruct (match ai_kwargs ai with Some (md, _) => md_get md key | None => VOk None end) as [kw|e]; [|destruct e; try exact I; destruct G]. cbn in G.
  destruct kw as [[path value]|].
  - specialize (G _ _ eq_refl). pose proof (dinv_use l (lp_first path) a S) as S1. destruct pos as [pv|].
    + apply K. apply dinv_err; [exact S1|discriminate].
    + unfold rebind. set (s1 := set_extra _ s0). pose proof (HV value s1 G) as V. pose proof (HN value s1) as VN.
      destruct (cv_validate _ value s1) as [[v|[es|e| | |]] s2]; cbn in V, VN; try exact I; [apply K; now apply dinv_counted, dinv_set|apply K; apply dinv_err; [exact S1|now apply map_not_nil]|now apply OO].
  - destruct pos as [pv|].
    + pose proof (POS _ eq_refl) as PA. unfold rebind. set (s1 := set_extra _ s0). pose proof (HV pv s1 PA) as V. pose proof (HN pv s1) as VN.
      destruct (cv_validate _ pv s1) as [[v|[es|e| | |]] s2]; cbn in V, VN; try exact I; [apply K; now apply dinv_counted, dinv_set|apply K; apply dinv_err; [exact S|now apply map_not_nil]|now apply OO].
    + unfold rebind. set (s1 := set_extra _ s0). pose proof (HD (Some (LStr (df_name (fld x)))) s1) as V. pose proof (HDN (Some (LStr (df_name (fld x)))) s1) as VN.
      destruct (cv_default _ _ s1) as [[[v|]|[es|e| | |]] s2]; cbn in V, VN; try exact I.
      * apply K. apply dinv_set; [exact S|apply V].
      * destruct (key_error _ _ _ _ _); [apply K; apply dinv_err; [exact S|discriminate]|exact I].
      * apply K. now apply dinv_err.
      * apply K. apply dinv_more; [exact S|auto].
Qed.
Lemma dc_extras_ok es : Forall (entry_ok strings) es -> forall l a s, dinv l a -> vk (dinv l) (dc_extras c <> None /\ Oe) (fst (dc_extras_loop c es a s)).
Proof.
  induction 1 as [|en es A F IH]; intros l a s S; cbn [dc_extras_loop]; [exact S|].
  destruct en as [key kl value|e]; [|destruct e; try exact I; destruct A]. destruct A as [A1 A2].
  pose proof (key_str_no key) as KN. destruct (key_str key) as [k|[x|x| | |]]; try exact I; try destruct KN; [|apply IH, dinv_add, S].
  cbv zeta. destruct (mem_str k (da_used a)); [apply IH, S|]. destruct (dc_extra c) eqn:EX; [|apply IH, dinv_add, S|apply IH, S].
  assert (PUT : forall v, (dc_extras c <> None -> Pe v) -> dinv l {| da_dict := dict_set (PStr k) v (da_dict a); da_init := da_init a; da_errors := da_errors a; da_used := da_used a; da_count := da_count a |}).
  { intros v PV. pose proof (dn_strs _ _ S) as ST. destruct S as [S1 S2 S3 S4]. constructor; auto; cbn [da_dict da_errors].
    - now apply dict_set_distinct.
    - intros k' v' J. apply dict_set_str_entries in J; [|exact ST]. destruct J as [J|[-> ->]]; [auto|]. right. eauto.
    - intros x J I1 I2. destruct (S3 x J I1 I2) as [Q|Q]; [left; now apply dict_set_keeps|now right]. }
  destruct (dc_extras c) as [v|] eqn:VX; [|apply IH, PUT; congruence].
  match goal with |- context [v value ?s0] => pose proof (He v eq_refl value s0 A2) as V; destruct (v value s0) as [[w|[x|x| | |]] s2] end; try exact I; cbn in V.
  - apply IH, PUT. auto.
  - apply IH, dinv_add, S.
  - now split.
Qed.
Lemma dataclass_args_ok xs va : dchildren_ok xs -> dc_fields c = map fld xs -> (forall i a, allowed strings i -> va i = VOk a -> ai_ok strings a) -> (forall i, no (va i)) ->
  vok strings (fun v => exists d x, v = PTuple [PDict d; x] /\ distinct fst d /\
      (forall k v, In (k, v) d -> (exists x, In x xs /\ df_init_only (fld x) = false /\ k = PStr (df_name (fld x)) /\ P x v) \/ (dc_extra c = ExtraAllow /\ (exists n, k = PStr n) /\ (dc_extras c <> None -> Pe v))) /\
      (forall f, In f xs -> df_init (fld f) = true -> df_init_only (fld f) = false -> In (PStr (df_name (fld f))) (map fst d) \/ O f) /\
      (dc_collect_init_only c = false -> x = PNone) /\
      (dc_collect_init_only c = true -> exists l, x = PTuple l /\ forall v, In v l -> exists f, In f xs /\ df_init_only (fld f) = true /\ P f v))
    ((exists x, In x xs /\ O x) \/ (dc_extras c <> None /\ Oe)) (dataclass_args_validate c va).
Proof.
  intros HP EP VA VN i s A. unfold dataclass_args_validate. cbv zeta. specialize (VA i). specialize (VN i). destruct (va i) as [ai|e]; [|destruct e; try exact I; destruct VN].
  pose proof (VA _ A eq_refl) as AI. rewrite EP. unfold rebind. set (s0 := set_extra _ (set_partial PartialOff s)).
  assert (S0 : dinv [] da_init0). { constructor; cbn; try easy. constructor. }
  pose proof (dc_loop_ok ai i (validate_by_alias_or s0 (dc_by_alias c)) (validate_by_name_or s0 (dc_by_name c)) xs AI HP 0 [] da_init0 s0 S0) as L.
  destruct (dc_loop _ _ _ _ _ _ _ _ _) as [[a|e] s1]; [|destruct e; try exact I; left; exact L]. cbn [vk fst app] in L.
  assert (S1 : dinv xs (dc_args_stage c ai a)). { unfold dc_args_stage. destruct (ai_args ai); [apply dinv_add, L|exact L]. }
  set (a1 := dc_args_stage c ai a) in *. clearbody a1. unfold dc_kwargs_stage.
  assert (L2 : vk (dinv xs) (dc_extras c <> None /\ Oe) (fst (match ai_kwargs ai with Some (md, len) => if negb (Nat.eqb len (length (da_used a1))) then match md_iter md with VErr e => (VErr e, s1) | VOk es => dc_extras_loop c es a1 s1 end else (VOk a1, s1) | None => (VOk a1, s1) end))).
  { destruct (ai_kwargs ai) as [[md len]|] eqn:EK; [|exact S1]. destruct (negb _); [|exact S1]. pose proof (mo_iter _ _ (ao_kwargs _ _ AI _ _ EK)) as IT. destruct (md_iter md) as [es|e]; [|destruct e; try exact I; destruct IT].
    now apply dc_extras_ok. }
  destruct (match ai_kwargs ai with Some _ => _ | None => _ end) as [[a3|e] s3]; [|destruct e; try exact I; right; exact L2]. cbn [vk fst] in L2.
  unfold dc_finish. cbv zeta. destruct (da_errors a3) eqn:E; [|exact I]. destruct L2 as [B1 B2 B3 B4]. cbn [is_nil fst vk]. eexists _, _. split; [reflexivity|]. split; [exact B1|]. split; [exact B2|]. split.
  { intros f J I1 I2. destruct (B3 f J I1 I2) as [Q|[Q|Q]]; auto. now rewrite E in Q. }
  destruct (dc_collect_init_only c); split; try discriminate; try reflexivity. intros _. eauto.
Qed.
End DataclassArgsOk.

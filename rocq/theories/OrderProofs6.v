From Coq Require Import List NArith ZArith Bool Permutation Lia.
From Verif Require Import Base Float64 IntParse Numbers BytesCodec Values VState LookupKey Collections Child Inputs Scalars Literal Wrappers Union TaggedUnion Tuple ModelFields TypedDict Assign Arguments Classes Interp InterpSpec InterpProofs StrictSpec LooseSpec LooseQuiet LooseOff OrderSpec OrderProofs OrderProofs2 OrderProofs3 OrderProofs4 OrderProofs5.
Import ListNotations.
Open Scope nat_scope.

(** ** Arguments *)
Record Rai (a1 a2 : arg_input) : Prop := {
  ri_args : Ropt (Forall2 rin) (ai_args a1) (ai_args a2);
  ri_kwargs : Ropt (fun x y => Rmd (fst x) (fst y) /\ snd x = snd y) (ai_kwargs a1) (ai_kwargs a2) }.
Lemma map_py l l' : Forall2 reordered l l' -> Forall2 rin (map IPy l) (map IPy l').
Proof. intros F. refine (f2_map _ _ _ _ _ _ _ _ _ _ _ F). intros; now constructor. Qed.
Lemma map_json l l' : Forall2 jreordered l l' -> Forall2 rin (map IJson l) (map IJson l').
Proof. intros F. refine (f2_map _ _ _ _ _ _ _ _ _ _ _ F). intros; now constructor. Qed.
Lemma kw_py repr d d1 d' : str_keys d -> NoDup (map fst d) -> Permutation d d1 -> Forall2 (fun a b => fst a = fst b /\ reordered (snd a) (snd b)) d1 d' ->
  Rai {| ai_args := None; ai_kwargs := Some (py_kwargs repr d) |} {| ai_args := None; ai_kwargs := Some (py_kwargs repr d') |}.
Proof.
  intros K N P F. split; cbn; constructor. cbn. split; [now apply (py_mdict_rel _ _ d1)|]. rewrite (Permutation_length P). now apply f2_length in F.
Qed.
Lemma kw_json l l1 l' : NoDup (map fst l) -> Permutation l l1 -> Forall2 (fun a b => fst a = fst b /\ jreordered (snd a) (snd b)) l1 l' ->
  Rai {| ai_args := None; ai_kwargs := Some (json_mdict l, length l) |} {| ai_args := None; ai_kwargs := Some (json_mdict l', length l') |}.
Proof.
  intros N P F. split; cbn; constructor. cbn. split; [now apply (json_mdict_rel _ l1)|]. rewrite (Permutation_length P). now apply f2_length in F.
Qed.
Lemma read_args repr i i' : differ i i' -> Rr Rai (validate_args repr i) (validate_args repr i').
Proof.
  intros D. destruct D as [l l' F|l l' F|d d1 d' K N P F|l l' F|l l1 l' N P F|l l'|l l'|d d1 d' K N P F]; unfold validate_args; cbn [dict_items strip as_args_kwargs]; try apply Rr_val_err; apply ROk.
  - split; cbn; constructor. now apply map_py.
  - split; cbn; constructor. now apply map_py.
  - now apply (kw_py _ _ d1).
  - split; cbn; constructor. now apply map_json.
  - now apply (kw_json _ l1).
Qed.
Lemma read_dataclass_args repr i i' : differ i i' -> Rr Rai (validate_dataclass_args repr i) (validate_dataclass_args repr i').
Proof.
  intros D. destruct D as [l l' F|l l' F|d d1 d' K N P F|l l' F|l l1 l' N P F|l l'|l l'|d d1 d' K N P F]; unfold validate_dataclass_args; cbn [dict_items strip as_args_kwargs as_str]; try apply Rr_val_err; apply ROk.
  - now apply (kw_py _ _ d1).
  - now apply (kw_json _ l1).
  - split; cbn; constructor. cbn. split; [now apply (strings_mdict_rel _ _ d1)|]. rewrite (Permutation_length P). now apply f2_length in F.
Qed.

Record Raa (a1 a2 : aacc) : Prop := { rg_args : aa_args a1 = aa_args a2; rg_kwargs : aa_kwargs a1 = aa_kwargs a2; rg_used : aa_used a1 = aa_used a2; rg_errors : Rlines (aa_errors a1) (aa_errors a2) }.
Lemma aa_add_rel e1 e2 a1 a2 : Rlines e1 e2 -> Raa a1 a2 -> Raa (aa_add e1 a1) (aa_add e2 a2).
Proof. intros H []. split; cbn; auto. now apply Rlines_app. Qed.
Lemma aa_put_rel k v a1 a2 : Raa a1 a2 -> Raa (aa_put k v a1) (aa_put k v a2).
Proof. intros []. split; cbn; congruence. Qed.
Lemma aa_push_rel v a1 a2 : Raa a1 a2 -> Raa (aa_push v a1) (aa_push v a2).
Proof. intros []. split; cbn; congruence. Qed.
Lemma aa_use_rel k a1 a2 : Raa a1 a2 -> Raa (aa_use k a1) (aa_use k a2).
Proof. intros []. split; cbn; congruence. Qed.
Ltac raa := repeat first [ assumption | apply aa_add_rel; [solve [assumption | rlines]|] | apply aa_put_rel | apply aa_push_rel | apply aa_use_rel ].
Lemma pos_rel ai1 ai2 (p : bool) ix : Rai ai1 ai2 -> Ropt rin (match ai_args ai1 with Some l => if p then nth_error l ix else None | None => None end)
                               (match ai_args ai2 with Some l => if p then nth_error l ix else None | None => None end).
Proof. intros AI. destruct (ri_args _ _ AI); [constructor|]. destruct p; [now apply f2_nth|constructor]. Qed.

Lemma params_loop_rel c ai1 ai2 i1 i2 ba bn ps : Rai ai1 ai2 -> Forall (fun p => rcv (pa_cv p)) ps -> forall ix a1 a2 s,
  Raa a1 a2 -> off s -> RP Raa (params_loop c ai1 i1 ba bn ix ps a1 s) (params_loop c ai2 i2 ba bn ix ps a2 s).
Proof.
  intros AI. induction 1 as [|p ps [V VD] PS IH]; intros ix a1 a2 s A O; cbn [params_loop]; [rp|]. cbv zeta beta.
  pose proof (pos_rel ai1 ai2 (positional (pa_mode p)) ix AI) as POS.
  revert POS. generalize (match ai_args ai1 with Some l => if positional (pa_mode p) then nth_error l ix else None | None => None end),
      (match ai_args ai2 with Some l => if positional (pa_mode p) then nth_error l ix else None | None => None end). intros pos1 pos2 POS.
  assert (KW : forall key, Rr (Ropt (Rfound rin)) (match ai_kwargs ai1 with Some (md, _) => match key with Some (BOk k) => md_get md k | _ => VOk None end | None => VOk None end)
                 (match ai_kwargs ai2 with Some (md, _) => match key with Some (BOk k) => md_get md k | _ => VOk None end | None => VOk None end)).
  { intros key. destruct (ri_kwargs _ _ AI) as [|[md1 n1] [md2 n2] [M _]]; [constructor; constructor|]. destruct key as [[k|]|]; [apply M| |]; constructor; constructor. }
  match goal with |- context [if by_keyword ?x then ?y else ?z] => generalize (if by_keyword x then y else z) end. intros key.
  destruct key as [[key|]|]; [|rp|].
  1: specialize (KW (Some (BOk key))); cbv beta iota in KW. 2: specialize (KW None); cbv beta iota in KW.
  all: match type of KW with Rr _ ?x ?y => revert KW; generalize x, y end; intros kw1 kw2 KW; destruct KW as [k1 k2 [|[p1 x1] [p2 x2] [P X]]|]; [| |rp].
  all: cbn [fst snd] in *; try subst p2.
  all: destruct POS as [|w1 w2 W]; cbv beta iota.
  all: try (apply IH; [raa|assumption]).
  all: try (match goal with |- RP _ (match rebind ?f _ (cv_validate ?c ?x1) with _ => _ end) (match rebind _ _ (cv_validate ?c ?x2) with _ => _ end) =>
         destruct (rebind_rel _ eq f s (cv_validate c x1) (cv_validate c x2) O (fun t T => V x1 x2 t ltac:(assumption) T)) as [r1 r2 t [d1 d2 ->|e1 e2 E] T] end;
       [apply IH; [raa|assumption]|]; apply Rerr_cases in E; destruct E as [(l1 & l2 & -> & -> & E)|[-> E]]; [apply IH; [raa|assumption]|]; destruct e2; try noline; rp).
  all: match goal with |- RP _ (match rebind ?f _ (cv_default ?c ?x) with _ => _ end) _ =>
         assert (OD : off (snd (rebind f s (cv_default c x)))) by (unfold rebind; pose proof (VD x (set_extra (f (st_extra s)) s) O) as OO; destruct (cv_default c x _); exact OO);
         destruct (rebind f s (cv_default c x)) as [[[d|]|e] t]; cbn [snd] in OD end; try rp.
  all: try (apply IH; [destruct (by_keyword _); raa|assumption]).
  - match goal with |- context [key_error key ?t i1 ?l ?n] => destruct (key_error_rel key t i1 i2 l n) end; [rp|apply IH; [raa|assumption]].
  - apply IH; [raa|assumption].
Qed.
Definition orv (o : option validator) : Prop := match o with Some v => rv v | None => True end.
Lemma var_args_rel v l1 l2 : orv v -> Forall2 rin l1 l2 -> forall ix a1 a2 s, Raa a1 a2 -> off s -> RP Raa (var_args_loop v ix l1 a1 s) (var_args_loop v ix l2 a2 s).
Proof.
  intros V. induction 1 as [|x1 x2 l1 l2 X L IH]; intros ix a1 a2 s A O; cbn [var_args_loop]; [rp|].
  destruct v as [v|]; [|apply IH; [raa|assumption]]. destruct (V _ _ _ X O) as [r1 r2 t [d1 d2 ->|e1 e2 E] T]; [apply IH; [raa|assumption]|].
  apply Rerr_cases in E. destruct E as [(m1 & m2 & -> & -> & E)|[-> E]]; [apply IH; [raa|assumption]|]. destruct e2; try noline; rp.
Qed.
Lemma kwargs_scan c es : ac_unpacked c = false -> ac_var_kwargs c = None -> Forall good_key es -> forall rem a s,
  var_kwargs_loop c es rem a s = (match scan (extra_err EUnexpectedKeyword (ac_extra c) (aa_used a)) es with VOk l => VOk (aa_add l a, rem) | VErr e => VErr e end, s).
Proof.
  intros U VK. induction 1 as [|[k lo v|e] es G GS IH]; intros rem a s; cbn [var_kwargs_loop scan].
  - destruct a; unfold aa_add; cbn. now rewrite app_nil_r.
  - destruct G as [t G]. rewrite G, U, VK. destruct (mem_str t (aa_used a)) eqn:ME.
    + rewrite IH. destruct (scan _ es); [|reflexivity]. unfold extra_err. now rewrite ME.
    + destruct (ac_extra c) eqn:EX; rewrite IH; cbn [aa_used aa_add]; (destruct (scan _ es); [|reflexivity]); unfold extra_err; rewrite ME; cbn [app]; try reflexivity.
      unfold aa_add. cbn. now rewrite <- app_assoc.
  - reflexivity.
Qed.
Lemma f2_skipn A (R : A -> A -> Prop) k l l' : Forall2 R l l' -> Forall2 R (skipn k l) (skipn k l').
Proof. intros F. revert k. induction F; intros [|k]; cbn; auto. Qed.
Lemma arguments_rel c va : keeps (arguments_validate c va) -> ac_unpacked c = false -> ac_var_kwargs c = None -> Forall (fun p => rcv (pa_cv p)) (ac_params c) -> orv (ac_var_args c) ->
  (forall i i', differ i i' -> Rr Rai (va i) (va i')) -> rv (arguments_validate c va).
Proof.
  intros K U VK PS VA HV. apply rv_of; [exact K|]. intros i i' s D I O. unfold arguments_validate. cbv zeta.
  destruct (HV _ _ D) as [ai1 ai2 AI|e1 e2 E]; [|rp].
  match goal with |- context [params_loop c ai1 i ?x ?y 0 ?ps aa_init ?z] => destruct (params_loop_rel c ai1 ai2 i i' x y ps AI PS 0 aa_init aa_init z) as [r1 r2 t [a1 a2 A|e1 e2 E] T] end; [split; try reflexivity; apply Rlines_refl|go| |rp].
  assert (ST : RP Raa (var_args_stage c ai1 a1 t) (var_args_stage c ai2 a2 t)).
  { unfold var_args_stage. destruct (ri_args _ _ AI) as [|l1 l2 L]; [rp|]. rewrite (f2_length _ _ _ _ _ L). destruct (_ <? _); [|rp].
    apply var_args_rel; try assumption. now apply f2_skipn. }
  destruct ST as [q1 q2 t2 [b1 b2 B|e1 e2 E] T2]; [|rp].
  assert (ST : RP (fun x y => Raa (fst x) (fst y) /\ snd x = snd y) (var_kwargs_stage c ai1 b1 t2) (var_kwargs_stage c ai2 b2 t2)).
  { unfold var_kwargs_stage. destruct (ri_kwargs _ _ AI) as [|[md1 n1] [md2 n2] [M N]]; [apply RP_intro; [apply ROk; now split|go]|].
    cbn [fst snd] in *. subst n1. rewrite (rg_used _ _ B). destruct (_ <? _); [|apply RP_intro; [apply ROk; now split|go]].
    destruct (rd_iter _ _ M) as (es & es' & -> & -> & ES). destruct (entries_good _ _ ES) as [G1 G2]. rewrite !kwargs_scan by assumption. rewrite (rg_used _ _ B).
    destruct (scan_rel (extra_err EUnexpectedKeyword (ac_extra c) (aa_used b2)) _ _ (fun t l v v' _ => extra_err_rel _ _ _ t l v v') ES) as [l1 l2 L|e1 e2 E]; [|rp].
    apply RP_intro; [|go]. apply ROk. split; [cbn [fst]; raa|reflexivity]. }
  destruct ST as [q3 q4 t3 [[c1 m1] [c2 m2] [C _]|e1 e2 E] T3]; [|rp]. cbn [fst] in C. unfold unpacked_stage. rewrite U. unfold args_finish. destruct C as [C1 C2 C3 C4].
  rewrite (Rlines_nil _ _ C4), C1, C2. destruct (is_nil _); rp.
Qed.

(** ** Dataclass arguments *)
Record Rda (a1 a2 : dacc) : Prop := { rh_dict : da_dict a1 = da_dict a2; rh_init : da_init a1 = da_init a2; rh_used : da_used a1 = da_used a2; rh_count : da_count a1 = da_count a2; rh_errors : Rlines (da_errors a1) (da_errors a2) }.
Lemma da_add_rel e1 e2 a1 a2 : Rlines e1 e2 -> Rda a1 a2 -> Rda (da_add e1 a1) (da_add e2 a2).
Proof. intros H []. split; cbn; auto. now apply Rlines_app. Qed.
Lemma da_use_rel k a1 a2 : Rda a1 a2 -> Rda (da_use k a1) (da_use k a2).
Proof. intros []. split; cbn; congruence. Qed.
Lemma da_counted_rel a1 a2 : Rda a1 a2 -> Rda (da_counted a1) (da_counted a2).
Proof. intros []. split; cbn; congruence. Qed.
Lemma da_set_rel c f v a1 a2 : Rda a1 a2 -> Rda (da_set c f v a1) (da_set c f v a2).
Proof. intros []. unfold da_set. destruct (df_init_only f); split; cbn; try congruence. now destruct (dc_collect_init_only c); rewrite rh_init0. Qed.
Ltac rda := repeat first [ assumption | apply da_add_rel; [solve [assumption | rlines]|] | apply da_set_rel | apply da_counted_rel | apply da_use_rel ].
Lemma dc_loop_rel c ai1 ai2 i1 i2 ba bn fs : Rai ai1 ai2 -> Forall (fun f => rcv (df_cv f)) fs -> forall ix a1 a2 s,
  Rda a1 a2 -> off s -> RP Rda (dc_loop c ai1 i1 ba bn ix fs a1 s) (dc_loop c ai2 i2 ba bn ix fs a2 s).
Proof.
  intros AI. induction 1 as [|f fs [V VD] FS IH]; intros ix a1 a2 s A O; cbn [dc_loop]; [rp|]. cbv zeta beta. rewrite (rh_dict _ _ A).
  assert (O' : off (set_extra (set_data (Some (da_dict a2)) (st_extra s)) s)) by go. revert O'. generalize (set_extra (set_data (Some (da_dict a2)) (st_extra s)) s). clear s O. intros s O.
  destruct (df_init f); cbn [negb].
  2:{ pose proof (VD (Some (LStr (df_name f))) s O) as OD. destruct (cv_default _ _ _) as [[[d|]|[es| | | |]] t]; cbn [snd] in OD; try rp; apply IH; try assumption; raa; rda. }
  pose proof (pos_rel ai1 ai2 (negb (df_kw_only f)) ix AI) as POS.
  revert POS. generalize (match ai_args ai1 with Some l => if negb (df_kw_only f) then nth_error l ix else None | None => None end),
      (match ai_args ai2 with Some l => if negb (df_kw_only f) then nth_error l ix else None | None => None end). intros pos1 pos2 POS.
  destruct (collection_select _ _ _) as [key|]; [|rp].
  assert (KW : Rr (Ropt (Rfound rin)) (match ai_kwargs ai1 with Some (md, _) => md_get md key | None => VOk None end) (match ai_kwargs ai2 with Some (md, _) => md_get md key | None => VOk None end)).
  { destruct (ri_kwargs _ _ AI) as [|[md1 n1] [md2 n2] [M _]]; [constructor; constructor|apply M]. }
  match type of KW with Rr _ ?x ?y => revert KW; generalize x, y end; intros kw1 kw2 KW; destruct KW as [k1 k2 [|[p1 x1] [p2 x2] [P X]]|]; [| |rp].
  all: cbn [fst snd] in *; try subst p2.
  all: destruct POS as [|w1 w2 W]; cbv beta iota.
  all: try (apply IH; [rda|assumption]).
  all: try (match goal with |- RP _ (match rebind ?f _ (cv_validate ?c ?x1) with _ => _ end) (match rebind _ _ (cv_validate ?c ?x2) with _ => _ end) =>
         destruct (rebind_rel _ eq f s (cv_validate c x1) (cv_validate c x2) O (fun t T => V x1 x2 t ltac:(assumption) T)) as [r1 r2 t [d1 d2 ->|e1 e2 E] T] end;
       [apply IH; [rda|assumption]|]; apply Rerr_cases in E; destruct E as [(l1 & l2 & -> & -> & E)|[-> E]]; [apply IH; [rda|assumption]|]; destruct e2; try noline; rp).
  match goal with |- RP _ (match rebind ?f _ (cv_default ?c ?x) with _ => _ end) _ =>
         assert (OD : off (snd (rebind f s (cv_default c x)))) by (unfold rebind; pose proof (VD x (set_extra (f (st_extra s)) s) O) as OO; destruct (cv_default c x _); exact OO);
         destruct (rebind f s (cv_default c x)) as [[[d|]|[es| | | |]] t]; cbn [snd] in OD end; try rp; try (apply IH; [rda|assumption]).
  match goal with |- context [key_error key ?t i1 ?l ?n] => destruct (key_error_rel key t i1 i2 l n) end; [rp|apply IH; [rda|assumption]].
Qed.
Lemma dc_scan c es : dc_extra c <> ExtraAllow -> Forall good_key es -> forall a s,
  dc_extras_loop c es a s = (match scan (extra_err EUnexpectedKeyword (dc_extra c) (da_used a)) es with VOk l => VOk (da_add l a) | VErr e => VErr e end, s).
Proof.
  intros X. induction 1 as [|[k lo v|e] es G GS IH]; intros a s; cbn [dc_extras_loop scan].
  - destruct a; unfold da_add; cbn. now rewrite app_nil_r.
  - destruct G as [t G]. rewrite G. cbv zeta. destruct (mem_str t (da_used a)) eqn:ME.
    + rewrite IH. destruct (scan _ es); [|reflexivity]. unfold extra_err. now rewrite ME.
    + destruct (dc_extra c) eqn:EX; [congruence| |]; rewrite IH; cbn [da_used da_add]; (destruct (scan _ es); [|reflexivity]); unfold extra_err; rewrite ME; cbn [app]; try reflexivity.
      unfold da_add. cbn. now rewrite <- app_assoc.
  - reflexivity.
Qed.
Lemma dc_unexpected_rel n l1 l2 : Forall2 rin l1 l2 -> Rlines (dc_unexpected n l1) (dc_unexpected n l2).
Proof.
  intros F. unfold dc_unexpected. rewrite (f2_length _ _ _ _ _ F). unfold Rlines. rewrite !map_map. cbn [error_kind new_error_loc le_type le_loc].
  enough (H : forall k m, map fst (skipn n (combine (List.seq k m) l1)) = map fst (skipn n (combine (List.seq k m) l2))).
  { specialize (H 0 (length l2)). apply (f_equal (map (fun ix => error_kind (new_error_loc EUnexpectedPositional (IPy PNone) (index_loc ix))))) in H.
    match goal with |- Permutation ?x ?y => replace x with y; [apply Permutation_refl|] end.
    clear - H. revert H. rewrite !map_map. intros H. symmetry. exact H. }
  intros k m. revert n k m. induction F as [|x y l1 l2 X F IH]; intros n k m; [reflexivity|]. destruct m as [|m]; cbn [List.seq combine]; [reflexivity|].
  destruct n as [|n]; cbn [skipn map fst]; [|apply IH]. specialize (IH 0 (S k) m). cbn [skipn] in IH. now rewrite IH.
Qed.
Lemma dataclass_args_rel c va : keeps (dataclass_args_validate c va) -> dc_extra c <> ExtraAllow -> Forall (fun p => rcv (df_cv p)) (dc_fields c) ->
  (forall i i', differ i i' -> Rr Rai (va i) (va i')) -> rv (dataclass_args_validate c va).
Proof.
  intros K X FS HV. apply rv_of; [exact K|]. intros i i' s D I O. unfold dataclass_args_validate. cbv zeta.
  destruct (HV _ _ D) as [ai1 ai2 AI|e1 e2 E]; [|rp]. apply rebind_rel; [go|]. intros s0 O0.
  match goal with |- context [dc_loop c ai1 i ?x ?y 0 ?ps da_init0 ?z] => destruct (dc_loop_rel c ai1 ai2 i i' x y ps AI FS 0 da_init0 da_init0 z) as [r1 r2 t [a1 a2 A|e1 e2 E] T] end; [split; try reflexivity; apply Rlines_refl|go| |rp].
  assert (B : Rda (dc_args_stage c ai1 a1) (dc_args_stage c ai2 a2)).
  { unfold dc_args_stage. destruct (ri_args _ _ AI) as [|l1 l2 L]; [exact A|]. apply da_add_rel; [now apply dc_unexpected_rel|exact A]. }
  revert B. generalize (dc_args_stage c ai1 a1), (dc_args_stage c ai2 a2). intros b1 b2 B.
  assert (ST : RP Rda (dc_kwargs_stage c ai1 b1 t) (dc_kwargs_stage c ai2 b2 t)).
  { unfold dc_kwargs_stage. destruct (ri_kwargs _ _ AI) as [|[md1 n1] [md2 n2] [M N]]; [rp|].
    cbn [fst snd] in *. subst n1. rewrite (rh_used _ _ B). destruct (negb _); [|rp].
    destruct (rd_iter _ _ M) as (es & es' & -> & -> & ES). destruct (entries_good _ _ ES) as [G1 G2]. rewrite !dc_scan by assumption. rewrite (rh_used _ _ B).
    destruct (scan_rel (extra_err EUnexpectedKeyword (dc_extra c) (da_used b2)) _ _ (fun t l v v' _ => extra_err_rel _ _ _ t l v v') ES) as [l1 l2 L|e1 e2 E]; [|rp].
    apply RP_intro; [|go]. apply ROk. rda. }
  destruct ST as [q3 q4 t3 [c1 c2 C|e1 e2 E] T3]; [|rp]. unfold dc_finish. cbv zeta. destruct C as [C1 C2 C3 C4 C5].
  rewrite (Rlines_nil _ _ C5), C1, C2, C4. destruct (is_nil _); rp.
Qed.

(** ** Whole schemas *)
Lemma nd_rel v : rv v -> rcv (no_default v).
Proof. intros V. split; [exact V|apply nd_off]. now apply rv_keeps. Qed.
Lemma F_map A B (P : B -> Prop) (f : A -> B) l : (forall x, In x l -> P (f x)) -> Forall P (map f l).
Proof. intros H. induction l as [|x l IH]; cbn [map]; constructor; [apply H; now left|apply IH; intros y Y; apply H; now right]. Qed.
Lemma orv_map (f : schema -> cv) o : (forall c, In c (opt_list o) -> rcv (f c)) -> orv (option_map (fun sc => cv_validate (f sc)) o).
Proof. intros H. destruct o as [x|]; cbn; [|exact I]. apply H. now left. Qed.
Lemma eval_rel E ref : (forall k, rcv (ref k)) -> forall sc, everywhere order_blind sc -> rcv (eval E ref sc).
Proof.
  intros R. assert (RO : forall k, ckeeps (ref k)) by (intros k; split; [apply rv_keeps, R|apply R]).
  apply (schema_children_ind (fun sc => everywhere order_blind sc -> rcv (eval E ref sc))).
  intros sc C0 W. inversion W as [? G CW]; subst. assert (C : forall c, In c (children sc) -> rcv (eval E ref c)) by (intros c X; apply C0; auto). clear C0 CW.
  pose proof (eval_off E ref RO sc) as [K _]. destruct sc; cbn [eval children order_blind] in *; try contradiction; try apply nd_rel.
  - apply none_rel.
  - apply bool_rel.
  - apply int_rel.
  - apply float_rel.
  - apply str_rel.
  - apply bytes_rel.
  - now apply literal_rel.
  - apply is_instance_rel.
  - destruct item as [item|]; [|contradiction]. apply list_rel; [exact K|apply C; now left|apply read_list].
  - apply set_rel; [exact K|apply C; now left|]. destruct frozen; [apply read_frozenset|apply read_set].
  - apply tuple_rel; [exact K|apply F_map, C|apply read_tuple].
  - apply nullable_rel, C. now left.
  - apply wd_cv_rel. apply C; now left.
  - apply chain_rel. apply F_map. intros x X. now apply C.
  - apply jop_rel; apply C; [now left|right; now left].
  - apply los_rel; apply C; [now left|right; now left].
  - apply custom_rel, C. now left.
  - apply before_rel; [exact G|apply C; now left].
  - apply after_rel, C; now left.
  - now apply plain_rel.
  - assert (F : Forall (fun c => rv (ch_validator c)) (map (fun cl => {| ch_validator := cv_validate (eval E ref (fst cl)); ch_label := snd cl |}) choices)).
    { apply F_map. intros x X. cbn. apply C. now apply in_map. }
    destruct mode; [apply smart_rel|apply ltr_rel]; exact F.
  - destruct d; [|contradiction]. apply tagged_rel; [|apply F_map; intros x X; cbn; apply C; now apply in_map|exact K].
    rewrite map_map. exact G.
  - apply model_fields_rel; [exact K|exact G| |intros; now apply read_fields].
    apply F_map. intros x X. cbn. apply C, in_or_app. left. now apply in_map.
  - apply typed_dict_rel; [exact K|exact G| |apply read_dict].
    apply F_map. intros x X. cbn. apply C, in_or_app. left. now apply in_map.
  - destruct G as [G1 ->]. apply arguments_rel; [exact K|exact G1|reflexivity| | |apply read_args].
    + apply F_map. intros x X. cbn. apply C, in_or_app. left. now apply in_map.
    + apply orv_map. intros x X. apply C, in_or_app. right. apply in_or_app. now left.
  - apply dataclass_args_rel; [exact K|exact G| |apply read_dataclass_args].
    apply F_map. intros x X. cbn. apply C, in_or_app. left. now apply in_map.
  - apply model_rel; [exact G|apply C; now left].
  - apply dataclass_rel, C; now left.
  - apply R.
Qed.
Lemma refs_rel E defs : (forall k d, defs k = Some d -> everywhere order_blind d) -> forall fuel depth k, rcv (refs E defs fuel depth k).
Proof.
  intros H. induction fuel as [|fuel IH]; intros depth k.
  - cbn [refs]. split; [intros i i' s I O; rp|intros l s O; exact O].
  - pose proof (refs_off E defs (S fuel) depth k) as [K KD]. split; [|exact KD]. cbn [refs] in *. destruct (defs k) as [sc|] eqn:D; [|intros i i' s I O; rp].
    assert (V : forall d, rcv (eval E (refs E defs fuel d) sc)) by (intros d; apply eval_rel; [apply IH|now apply (H k)]).
    intros i i' s I O. cbn [cv_validate]. cbv zeta. assert (O' : off (set_partial PartialOff s)) by reflexivity.
    destruct I as [i|v v' I|j j' I|v v' I]; [apply RP_refl; now apply K| | |].
    + destruct (_ <=? _); [rp|]. apply V; [now constructor|exact O'].
    + apply V; [now constructor|exact O'].
    + apply V; [now constructor|exact O'].
Qed.
Theorem run_rel E defs fuel sc : holds_of order_blind defs sc -> rv (run E defs fuel sc).
Proof. intros [W D]. unfold run. apply eval_rel; [|exact W]. intros k. now apply refs_rel. Qed.

From Coq Require Import List NArith ZArith Bool Lia.
From Verif Require Import Base Float64 Float64Proofs IntParse Numbers NumbersProofs BytesCodec Values VState LookupKey LookupKeyProofs Collections Child Inputs Scalars Literal LiteralProofs Wrappers Union TaggedUnion Tuple ModelFields TypedDict Assign Arguments Classes Interp InterpSpec InterpProofs RelSpec RelProofs.
Import ListNotations.
Open Scope nat_scope.

Section Args.
Context {mrg : Merge}.
Variable b : bool.
Variable m : rmode.

Record Rai (a1 a2 : arg_input) : Prop := {
  ri_args : Ropt (Forall2 (Rin m)) (ai_args a1) (ai_args a2);
  ri_kwargs : Ropt (fun k1 k2 => Rmd m (fst k1) (fst k2) /\ snd k1 = snd k2) (ai_kwargs a1) (ai_kwargs a2) }.
Lemma nth_rel ix l1 l2 : Forall2 (Rin m) l1 l2 -> Ropt (Rin m) (nth_error l1 ix) (nth_error l2 ix).
Proof. intros H. revert ix. induction H; intros [|ix]; cbn; try constructor; auto. Qed.

Record Raa (a1 a2 : aacc) : Prop := {
  rg_args : aa_args a1 = aa_args a2; rg_kwargs : aa_kwargs a1 = aa_kwargs a2; rg_errors : Rlines (aa_errors a1) (aa_errors a2); rg_used : aa_used a1 = aa_used a2 }.
Lemma aa_push_rel v a1 a2 : Raa a1 a2 -> Raa (aa_push v a1) (aa_push v a2).
Proof. intros []. split; cbn; congruence. Qed.
Lemma aa_put_rel k v a1 a2 : Raa a1 a2 -> Raa (aa_put k v a1) (aa_put k v a2).
Proof. intros []. split; cbn; congruence. Qed.
Lemma aa_use_rel k a1 a2 : Raa a1 a2 -> Raa (aa_use k a1) (aa_use k a2).
Proof. intros []. split; cbn; congruence. Qed.
Lemma aa_add_rel e1 e2 a1 a2 : Rlines e1 e2 -> Raa a1 a2 -> Raa (aa_add e1 a1) (aa_add e2 a2).
Proof. intros ? []. split; cbn; auto. now apply Rlines_app. Qed.
Ltac raa := repeat first [ assumption | apply aa_add_rel; [solve [rlines]|] | apply aa_use_rel | apply aa_put_rel | apply aa_push_rel ].

Inductive Rparam : param -> param -> Prop :=
| RParam i c1 c2 : rcv b m c1 c2 -> Rparam (mk_param i c1) (mk_param i c2).
Inductive Racfg : args_cfg -> args_cfg -> Prop :=
| RAcfg c ps1 ps2 va1 va2 vk1 vk2 : Forall2 Rparam ps1 ps2 -> Ropt (rv b m) va1 va2 -> Ropt (rv b m) vk1 vk2 -> Racfg (mk_args c ps1 va1 vk1) (mk_args c ps2 va2 vk2).

Lemma params_loop_rel c1 c2 ai1 ai2 i1 i2 ba bn ps1 ps2 : ac_loc_by_alias c1 = ac_loc_by_alias c2 -> Rai ai1 ai2 -> Rin m i1 i2 -> Forall2 Rparam ps1 ps2 -> forall ix a1 a2 s1 s2,
  Raa a1 a2 -> Rst b s1 s2 -> RP b Raa (params_loop c1 ai1 i1 ba bn ix ps1 a1 s1) (params_loop c2 ai2 i2 ba bn ix ps2 a2 s2).
Proof.
  intros LBA AI I. induction 1 as [|f1 f2 fs1 fs2 [pi v1 v2 V] FS IH]; intros ix a1 a2 s1 s2 A S; cbn [params_loop].
  - constructor; [now constructor|exact S].
  - rewrite LBA. cbn [pa_keys pa_name pa_cv pa_mode mk_param]. cbv zeta beta.
    assert (POS : Ropt (Rin m) (match ai_args ai1 with Some l => if positional (pi_mode pi) then nth_error l ix else None | None => None end)
                               (match ai_args ai2 with Some l => if positional (pi_mode pi) then nth_error l ix else None | None => None end)).
    { destruct (ri_args _ _ AI); [constructor|]. destruct (positional _); [now apply nth_rel|constructor]. }
    revert POS. generalize (match ai_args ai1 with Some l => if positional (pi_mode pi) then nth_error l ix else None | None => None end),
      (match ai_args ai2 with Some l => if positional (pi_mode pi) then nth_error l ix else None | None => None end). intros pos1 pos2 POS.
    assert (KW : forall key, Rr (Ropt (Rfound m)) (match ai_kwargs ai1 with Some (md, _) => match key with Some (BOk k) => md_get md k | _ => VOk None end | None => VOk None end)
                 (match ai_kwargs ai2 with Some (md, _) => match key with Some (BOk k) => md_get md k | _ => VOk None end | None => VOk None end)).
    { intros key. destruct (ri_kwargs _ _ AI) as [|[md1 n1] [md2 n2] [M _]]; [constructor; constructor|]. destruct key as [[k|]|]; [apply M| |]; constructor; constructor. }
    match goal with |- context [if by_keyword ?x then ?y else ?z] => generalize (if by_keyword x then y else z) end. intros key.
    destruct key as [[key|]|]; [|rp|].
    1: specialize (KW (Some (BOk key))); cbv beta iota in KW. 2: specialize (KW None); cbv beta iota in KW.
    all: match type of KW with Rr _ ?x ?y => revert KW; generalize x, y end; intros kw1 kw2 KW; destruct KW as [k1 k2 [|[p1 x1] [p2 x2] [P X]]|]; [| |rp].
    all: cbn [fst snd] in *; try subst p1.
    all: destruct POS as [|w1 w2 W]; cbv beta iota.
    all: try (apply IH; [raa|assumption]).
    all: match goal with |- RP _ _ (match rebind ?f _ ?k1 with _ => _ end) (match rebind _ _ ?k2 with _ => _ end) => 
           destruct (rebind_rel b _ eq f _ _ k1 k2 S) as [r1 r2 t1 t2 R T]; [intros; rst|intros; first [now apply (rc_v _ _ _ _ V) | now apply (rc_d _ _ _ _ V)]|] end.
    all: destruct R as [d1 d2 ->|e1 e2 E]; [|destruct E; first [rp | apply IH; [solve [raa]|assumption]]].
    all: try (apply IH; [raa|assumption]).
    all: destruct d2; [apply IH; [destruct (by_keyword _); raa|assumption]|].
    + match goal with |- context [key_error key ?t i1 ?l ?n] => destruct (key_error_rel m key t _ _ l n I) end; [rp|apply IH; [raa|assumption]].
    + apply IH; [raa|assumption].
Qed.
Lemma var_args_rel v1 v2 l1 l2 : Ropt (rv b m) v1 v2 -> Forall2 (Rin m) l1 l2 -> forall ix a1 a2 s1 s2,
  Raa a1 a2 -> Rst b s1 s2 -> RP b Raa (var_args_loop v1 ix l1 a1 s1) (var_args_loop v2 ix l2 a2 s2).
Proof.
  intros V. induction 1 as [|x1 x2 l1 l2 X L IH]; intros ix a1 a2 s1 s2 A S; cbn [var_args_loop].
  - constructor; [now constructor|exact S].
  - destruct V as [|v1 v2 V]; [apply IH; [raa|assumption]|]. destruct (V _ _ _ _ X S) as [r1 r2 t1 t2 R T].
    destruct R as [d1 d2 ->|e1 e2 E]; [apply IH; [raa|assumption]|]. destruct E; first [rp | apply IH; [solve [raa]|assumption]].
Qed.
Definition Rvk (o1 o2 : aacc * pydict) : Prop := Raa (fst o1) (fst o2) /\ snd o1 = snd o2.
Lemma var_kwargs_rel c1 c2 es1 es2 : Racfg c1 c2 -> Forall2 (Rentry m) es1 es2 -> forall rem a1 a2 s1 s2,
  Raa a1 a2 -> Rst b s1 s2 -> RP b Rvk (var_kwargs_loop c1 es1 rem a1 s1) (var_kwargs_loop c2 es2 rem a2 s2).
Proof.
  intros [c ps1 ps2 va1 va2 vk1 vk2 PS VA VK]. induction 1 as [|y1 y2 es1 es2 [x1 x2 l w1 w2 HX HW|e] ES IH]; intros rem a1 a2 s1 s2 A S; cbn [var_kwargs_loop].
  - constructor; [constructor; split; [exact A|reflexivity]|exact S].
  - destruct (key_str_rel _ _ _ HX) as [k1' k2' ->|f1 f2 F].
    + rewrite (rg_used _ _ A). destruct (mem_str k2' _); [now apply IH|]. cbn [ac_unpacked ac_var_kwargs ac_extra mk_args]. destruct (po_unpacked c).
      * rewrite (Rin_obj _ _ _ HW). now apply IH.
      * destruct VK as [|v1 v2 V].
        -- destruct (po_extra c); apply IH; raa; assumption.
        -- destruct (V _ _ _ _ HW S) as [r1 r2 u1 u2 R U]. destruct R as [d1 d2 ->|g1 g2 G]; [apply IH; [raa|assumption]|].
           destruct G; first [rp | apply IH; [solve [raa]|assumption]].
    + destruct F; first [rp | apply IH; [solve [raa]|assumption]].
  - rp.
Qed.
Lemma args_finish_rel a1 a2 s1 s2 : Raa a1 a2 -> Rst b s1 s2 -> RP b eq (args_finish a1 s1) (args_finish a2 s2).
Proof.
  intros [] S. unfold args_finish. rewrite (Rlines_nil _ _ rg_errors0), rg_args0, rg_kwargs0. destruct (is_nil _); rp.
Qed.
Lemma positional_count_rel ps1 ps2 : Forall2 Rparam ps1 ps2 -> forall n, positional_count_from n ps1 = positional_count_from n ps2.
Proof. induction 1 as [|f1 f2 fs1 fs2 [pi v1 v2 V] FS IH]; intros n; cbn; [reflexivity|]. now rewrite IH. Qed.
Lemma arguments_rel c1 c2 va : Racfg c1 c2 -> (forall i1 i2, Rin m i1 i2 -> Rr Rai (va i1) (va i2)) -> rv b m (arguments_validate c1 va) (arguments_validate c2 va).
Proof.
  intros C HV i1 i2 s1 s2 I S. unfold arguments_validate. cbv zeta. apply (Rst_partial b PartialOff) in S.
  revert S. generalize (set_partial PartialOff s1), (set_partial PartialOff s2). clear s1 s2. intros s1 s2 S. pose proof C as C'.
  destruct C as [c ps1 ps2 va1 va2 vk1 vk2 PS VA VK]. set (c1 := mk_args c ps1 va1 vk1) in *. set (c2 := mk_args c ps2 va2 vk2) in *.
  change (ac_by_alias c1) with (ac_by_alias c2). change (ac_by_name c1) with (ac_by_name c2).
  rewrite (by_alias_rel _ _ _ _ S), (by_name_rel _ _ _ _ S).
  destruct (HV _ _ I) as [ai1 ai2 AI|e1 e2 E]; [|rp].
  cbn [ac_params c1 c2 mk_args]. fold c1 c2. destruct (params_loop_rel c1 c2 ai1 ai2 i1 i2 (validate_by_alias_or s2 (ac_by_alias c2)) (validate_by_name_or s2 (ac_by_name c2)) ps1 ps2 eq_refl AI I PS 0 aa_init aa_init s1 s2) as [r1 r2 t1 t2 R T]; [split; reflexivity|exact S|].
  destruct R as [a1 a2 A|]; [|rp]. clear S.
  assert (ST : RP b Raa (var_args_stage c1 ai1 a1 t1) (var_args_stage c2 ai2 a2 t2)).
  { unfold var_args_stage. assert (P : positional_count c1 = positional_count c2) by exact (positional_count_rel _ _ PS 0). rewrite P.
    destruct (ri_args _ _ AI) as [|l1 l2 L]; [constructor; [now constructor|exact T]|]. rewrite (F2_length _ _ _ _ _ L).
    destruct (_ <? _); [|constructor; [now constructor|exact T]]. apply var_args_rel; [exact VA|now apply F2_skipn|exact A|exact T]. }
  destruct ST as [r1 r2 u1 u2 R U]. destruct R as [b1 b2 B|]; [|rp]. clear A T.
  assert (ST : RP b Rvk (var_kwargs_stage c1 ai1 b1 u1) (var_kwargs_stage c2 ai2 b2 u2)).
  { unfold var_kwargs_stage. destruct (ri_kwargs _ _ AI) as [|[md1 n1] [md2 n2] [M N]]; [constructor; [constructor; split; [exact B|reflexivity]|exact U]|].
    cbn [fst snd] in *. subst n1. rewrite (rg_used _ _ B). destruct (_ <? _); [|constructor; [constructor; split; [exact B|reflexivity]|exact U]].
    destruct (rm_iter _ _ _ M); [|rp]. now apply var_kwargs_rel. }
  destruct ST as [r1 r2 w1 w2 R W]. destruct R as [[d1 rem1] [d2 rem2] [D Q]|]; [|rp]. cbn [fst snd] in *. subst rem1. clear B U.
  unfold unpacked_stage. cbn [c1 c2 ac_unpacked ac_var_kwargs mk_args]. destruct (po_unpacked c); [|now apply args_finish_rel].
  destruct VK as [|v1 v2 V]; [rp|]. destruct (V _ _ _ _ (Rin_eq m (IPy (PDict rem2))) W) as [r1 r2 x1 x2 R X].
  destruct R as [o1 o2 ->|e1 e2 E].
  - destruct (as_dict o2); [|rp]. apply args_finish_rel; [|exact X]. destruct D. split; cbn; congruence.
  - destruct E; first [rp | apply args_finish_rel; [solve [raa]|assumption]].
Qed.

(** ** Dataclass arguments *)
Record Rda (a1 a2 : dacc) : Prop := {
  rh_dict : da_dict a1 = da_dict a2; rh_init : da_init a1 = da_init a2; rh_errors : Rlines (da_errors a1) (da_errors a2); rh_used : da_used a1 = da_used a2; rh_count : da_count a1 = da_count a2 }.
Lemma da_add_rel e1 e2 a1 a2 : Rlines e1 e2 -> Rda a1 a2 -> Rda (da_add e1 a1) (da_add e2 a2).
Proof. intros ? []. split; cbn; auto. now apply Rlines_app. Qed.
Lemma da_use_rel k a1 a2 : Rda a1 a2 -> Rda (da_use k a1) (da_use k a2).
Proof. intros []. split; cbn; congruence. Qed.
Lemma da_counted_rel a1 a2 : Rda a1 a2 -> Rda (da_counted a1) (da_counted a2).
Proof. intros []. split; cbn; congruence. Qed.
Inductive Rdcf : dc_field -> dc_field -> Prop :=
| RDcf i c1 c2 : rcv b m c1 c2 -> Rdcf (mk_dcf i c1) (mk_dcf i c2).
Inductive Rdcfg : dc_cfg -> dc_cfg -> Prop :=
| RDcfg c fs1 fs2 ex1 ex2 : Forall2 Rdcf fs1 fs2 -> Ropt (rv b m) ex1 ex2 -> Rdcfg (mk_dc c fs1 ex1) (mk_dc c fs2 ex2).
Lemma da_set_rel c1 c2 i v1 v2 x a1 a2 : dc_collect_init_only c1 = dc_collect_init_only c2 -> Rda a1 a2 -> Rda (da_set c1 (mk_dcf i v1) x a1) (da_set c2 (mk_dcf i v2) x a2).
Proof. intros C []. unfold da_set. rewrite C. cbn [df_init_only df_name mk_dcf]. destruct (dn_init_only i); split; cbn; try congruence. destruct (dc_collect_init_only c2); congruence. Qed.
Ltac rda := repeat first [ assumption | apply da_add_rel; [solve [rlines]|] | apply da_use_rel | apply da_counted_rel | apply da_set_rel; [reflexivity|] ].

Lemma dc_loop_rel c1 c2 ai1 ai2 i1 i2 ba bn fs1 fs2 : Rdcfg c1 c2 -> Rai ai1 ai2 -> Rin m i1 i2 -> Forall2 Rdcf fs1 fs2 -> forall ix a1 a2 s1 s2,
  Rda a1 a2 -> Rst b s1 s2 -> RP b Rda (dc_loop c1 ai1 i1 ba bn ix fs1 a1 s1) (dc_loop c2 ai2 i2 ba bn ix fs2 a2 s2).
Proof.
  intros C AI I. destruct C as [c gs1 gs2 ex1 ex2 _ _]. set (c1 := mk_dc c gs1 ex1) in *. set (c2 := mk_dc c gs2 ex2) in *. change (dc_loc_by_alias c1) with (dc_loc_by_alias c2).
  induction 1 as [|f1 f2 fs1 fs2 [di v1 v2 V] FS IH]; intros ix a1 a2 s1 s2 A S; cbn [dc_loop].
  - constructor; [now constructor|exact S].
  - change (dc_loc_by_alias c1) with (dc_loc_by_alias c2). rewrite (rh_dict _ _ A). cbn [df_keys df_name df_cv df_kw_only df_init mk_dcf]. cbv zeta beta.
    assert (S' : Rst b (set_extra (set_data (Some (da_dict a2)) (st_extra s1)) s1) (set_extra (set_data (Some (da_dict a2)) (st_extra s2)) s2)) by rst.
    revert S'. generalize (set_extra (set_data (Some (da_dict a2)) (st_extra s1)) s1), (set_extra (set_data (Some (da_dict a2)) (st_extra s2)) s2). clear s1 s2 S. intros s1 s2 S.
    destruct (negb (dn_init di)).
    { destruct (rc_d _ _ _ _ V (Some (LStr (dn_name di))) _ _ S) as [r1 r2 t1 t2 R T]. destruct R as [d1 d2 ->|e1 e2 E].
      - destruct d2; apply IH; try assumption. rda.
      - destruct E; first [rp | apply IH; [solve [rda]|assumption]]. }
    assert (POS : Ropt (Rin m) (match ai_args ai1 with Some l => if negb (dn_kw_only di) then nth_error l ix else None | None => None end)
                               (match ai_args ai2 with Some l => if negb (dn_kw_only di) then nth_error l ix else None | None => None end)).
    { destruct (ri_args _ _ AI); [constructor|]. destruct (negb _); [now apply nth_rel|constructor]. }
    revert POS. generalize (match ai_args ai1 with Some l => if negb (dn_kw_only di) then nth_error l ix else None | None => None end),
      (match ai_args ai2 with Some l => if negb (dn_kw_only di) then nth_error l ix else None | None => None end). intros pos1 pos2 POS.
    destruct (collection_select _ ba bn) as [key|]; [|rp].
    assert (KW : Rr (Ropt (Rfound m)) (match ai_kwargs ai1 with Some (md, _) => md_get md key | None => VOk None end) (match ai_kwargs ai2 with Some (md, _) => md_get md key | None => VOk None end)).
    { destruct (ri_kwargs _ _ AI) as [|[md1 n1] [md2 n2] [M _]]; [constructor; constructor|]. apply M. }
    match type of KW with Rr _ ?x ?y => revert KW; generalize x, y end; intros kw1 kw2 KW; destruct KW as [k1 k2 [|[p1 x1] [p2 x2] [P X]]|]; [| |rp].
    all: cbn [fst snd] in *; try subst p1.
    all: destruct POS as [|w1 w2 W]; cbv beta iota.
    all: try (apply IH; [rda|assumption]).
    all: match goal with |- RP _ _ (match rebind ?f _ ?k1 with _ => _ end) (match rebind _ _ ?k2 with _ => _ end) => 
           destruct (rebind_rel b _ eq f _ _ k1 k2 S) as [r1 r2 t1 t2 R T]; [intros; rst|intros; first [now apply (rc_v _ _ _ _ V) | now apply (rc_d _ _ _ _ V)]|] end.
    all: destruct R as [d1 d2 ->|e1 e2 E]; [|destruct E; first [rp | apply IH; [solve [rda]|assumption]]].
    all: try (apply IH; [rda|assumption]).
    destruct d2; [apply IH; [rda|assumption]|].
    match goal with |- context [key_error key ?t i1 ?l ?n] => destruct (key_error_rel m key t _ _ l n I) end; [rp|apply IH; [rda|assumption]].
Qed.
Lemma dc_extras_rel c1 c2 es1 es2 : Rdcfg c1 c2 -> Forall2 (Rentry m) es1 es2 -> forall a1 a2 s1 s2,
  Rda a1 a2 -> Rst b s1 s2 -> RP b Rda (dc_extras_loop c1 es1 a1 s1) (dc_extras_loop c2 es2 a2 s2).
Proof.
  intros [c fs1 fs2 ex1 ex2 FS EX]. induction 1 as [|y1 y2 es1 es2 [x1 x2 l w1 w2 HX HW|e] ES IH]; intros a1 a2 s1 s2 A S; cbn [dc_extras_loop].
  - constructor; [now constructor|exact S].
  - destruct (key_str_rel _ _ _ HX) as [k1' k2' ->|f1 f2 F].
    + cbv zeta. rewrite (rh_used _ _ A). destruct (mem_str k2' _); [now apply IH|]. cbn [dc_extra dc_extras mk_dc].
      assert (PUT : forall v, Rda {| da_dict := dict_set (PStr k2') v (da_dict a1); da_init := da_init a1; da_errors := da_errors a1; da_used := da_used a2; da_count := da_count a1 |}
                                  {| da_dict := dict_set (PStr k2') v (da_dict a2); da_init := da_init a2; da_errors := da_errors a2; da_used := da_used a2; da_count := da_count a2 |}).
      { intros v. destruct A. split; cbn; congruence. }
      destruct (do_extra c).
      * destruct EX as [|v1 v2 V].
        -- rewrite (Rin_obj _ _ _ HW). apply IH; auto.
        -- rewrite (rh_dict _ _ A) at 1.
           destruct (V _ _ (set_extra (set_data (Some (da_dict a2)) (st_extra s1)) s1) (set_extra (set_data (Some (da_dict a2)) (st_extra s2)) s2) HW) as [r1 r2 u1 u2 R U]; [rst|].
           destruct R as [d1 d2 ->|g1 g2 G]; [apply IH; auto|]. destruct G; first [rp | apply IH; [solve [rda]|assumption]].
      * apply IH; [rda|assumption].
      * now apply IH.
    + destruct F; first [rp | apply IH; [solve [rda]|assumption]].
  - rp.
Qed.
Lemma dc_count_rel fs1 fs2 : Forall2 Rdcf fs1 fs2 -> length (filter (fun f => negb (df_kw_only f)) fs1) = length (filter (fun f => negb (df_kw_only f)) fs2).
Proof. induction 1 as [|f1 f2 fs1 fs2 [di v1 v2 V] FS IH]; cbn; [reflexivity|]. destruct (dn_kw_only di); cbn; congruence. Qed.
Lemma dc_unexpected_rel n l1 l2 : Forall2 (Rin m) l1 l2 -> Rlines (dc_unexpected n l1) (dc_unexpected n l2).
Proof.
  intros L. unfold dc_unexpected. rewrite <- (F2_length _ _ _ _ _ L). generalize 0 as k. revert n. induction L as [|x1 x2 l1 l2 X L IH]; intros n k; [now destruct n|].
  cbn [length List.seq combine]. destruct n as [|n]; [|apply IH]. cbn [skipn map fst snd]. apply (Rlines_app [_] [_]); [eapply Rlines_one; eassumption|]. exact (IH 0 (S k)).
Qed.
Lemma dataclass_args_rel c1 c2 va : Rdcfg c1 c2 -> (forall i1 i2, Rin m i1 i2 -> Rr Rai (va i1) (va i2)) -> rv b m (dataclass_args_validate c1 va) (dataclass_args_validate c2 va).
Proof.
  intros C HV i1 i2 s1 s2 I S. unfold dataclass_args_validate. cbv zeta. apply (Rst_partial b PartialOff) in S.
  revert S. generalize (set_partial PartialOff s1), (set_partial PartialOff s2). clear s1 s2. intros s1 s2 S.
  destruct (HV _ _ I) as [ai1 ai2 AI|e1 e2 E]; [|rp].
  apply rebind_rel; [exact S|intros; rst|]. clear s1 s2 S. intros s1 s2 S.
  assert (BA : dc_by_alias c1 = dc_by_alias c2 /\ dc_by_name c1 = dc_by_name c2 /\ dc_collect_init_only c1 = dc_collect_init_only c2 /\ Forall2 Rdcf (dc_fields c1) (dc_fields c2)) by (destruct C; repeat split; auto).
  destruct BA as (-> & -> & COL & FS). rewrite (by_alias_rel _ _ _ _ S), (by_name_rel _ _ _ _ S).
  destruct (dc_loop_rel c1 c2 ai1 ai2 i1 i2 (validate_by_alias_or s2 (dc_by_alias c2)) (validate_by_name_or s2 (dc_by_name c2)) _ _ C AI I FS 0 da_init0 da_init0 s1 s2) as [r1 r2 t1 t2 R T]; [split; reflexivity|exact S|].
  destruct R as [a1 a2 A|]; [|rp].
  assert (B : Rda (dc_args_stage c1 ai1 a1) (dc_args_stage c2 ai2 a2)).
  { unfold dc_args_stage. destruct (ri_args _ _ AI) as [|l1 l2 L]; [exact A|]. apply da_add_rel; [|exact A]. unfold dc_positional_count. rewrite (dc_count_rel _ _ FS). now apply dc_unexpected_rel. }
  revert B. generalize (dc_args_stage c1 ai1 a1), (dc_args_stage c2 ai2 a2). intros b1 b2 B.
  assert (ST : RP b Rda (dc_kwargs_stage c1 ai1 b1 t1) (dc_kwargs_stage c2 ai2 b2 t2)).
  { unfold dc_kwargs_stage. destruct (ri_kwargs _ _ AI) as [|[md1 n1] [md2 n2] [M N]]; [constructor; [now constructor|exact T]|].
    cbn [fst snd] in *. subst n1. rewrite (rh_used _ _ B). destruct (negb _); [|constructor; [now constructor|exact T]].
    destruct (rm_iter _ _ _ M); [|rp]. now apply dc_extras_rel. }
  destruct ST as [r1 r2 w1 w2 R W]. destruct R as [d1 d2 D|]; [|rp].
  unfold dc_finish. rewrite COL. destruct D. rewrite (Rlines_nil _ _ rh_errors0), rh_dict0, rh_init0. cbv zeta. destruct (is_nil _); rp.
Qed.
End Args.

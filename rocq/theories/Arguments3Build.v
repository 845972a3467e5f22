(** Which parameter lists are accepted; the two kinds of argument schemas compared. *)
From Coq Require Import List NArith ZArith Bool Lia Arith.
From Verif Require Import Base Float64 Values VState LookupKey LookupKeySpec Collections CollectionsSpec Child Inputs ModelFields ModelFieldsSpec Assign AssignSpec Arguments ArgumentsSpec ArgumentsProofs Classes Arguments3 Arguments3Spec.
Import ListNotations.
Open Scope nat_scope.

(** ** Building *)
Definition compat (m n : pmode3) : Prop := rank3 m <= rank3 n /\ (rank3 m = rank3 n -> rank3 m <> 2 /\ rank3 m <> 4).
Lemma signature_splits ms : signature ms <-> forall before m after, ms = before ++ m :: after -> Forall (fun n => compat n m) before.
Proof.
  induction ms as [|m ms IH]; cbn [signature].
  - split; [|trivial]. intros _ [|b before] m after H; discriminate H.
  - rewrite IH. split.
    + intros [F G] [|b before] x after H; [constructor|]. cbn in H. injection H as <- H. constructor.
      * rewrite Forall_forall in F. apply F. rewrite H. apply in_or_app. right. left. reflexivity.
      * eapply G. exact H.
    + intros H. split.
      * apply Forall_forall. intros x I. apply in_split in I. destruct I as (a & b & ->). pose proof (H (m :: a) x b eq_refl) as F. inversion F; subst. assumption.
      * intros before x after E. specialize (H (m :: before) x after). cbn in H. rewrite E in H. specialize (H eq_refl). inversion H; assumption.
Qed.
Definition flags_of (before : list param_schema) : build_flags :=
  {| bf_names := rev (map ps_name before); bf_default := existsb ps_default before;
     bf_pos_or_kw := existsb (fun p => match ps_mode p with MPosOrKw => true | _ => false end) before;
     bf_var_args := existsb (fun p => is_var_args (ps_mode p)) before;
     bf_kw_only := existsb (fun p => match ps_mode p with MKwOnly => true | _ => false end) before;
     bf_var_kwargs := existsb (fun p => is_var_kwargs (ps_mode p)) before |}.
Definition step_ok (before : list param_schema) (p : param_schema) : Prop :=
  ~ In (ps_name p) (map ps_name before) /\ Forall (fun n => compat (ps_mode n) (ps_mode p)) before /\ ps_omit p = false /\
  (forall q, In q before -> ps_default q = true -> ps_default p = false -> exists k, In k (before ++ [p]) /\ ps_mode k = MKwOnly).
Lemma forall_cons {A} (P : A -> Prop) x l : Forall P (x :: l) <-> P x /\ Forall P l.
Proof. split; [intros H; inversion H; auto|intros [? ?]; constructor; assumption]. Qed.
Lemma mode_ok before m : mode_refused m (flags_of before) = false <-> Forall (fun n => compat (ps_mode n) m) before.
Proof.
  unfold mode_refused, flags_of; cbn [bf_pos_or_kw bf_var_args bf_kw_only bf_var_kwargs].
  induction before as [|p before IH]; [destruct m; cbn; split; [constructor|reflexivity| constructor|reflexivity|constructor|reflexivity|constructor|reflexivity|constructor|reflexivity|constructor|reflexivity]|].
  rewrite forall_cons, <- IH. clear IH. cbn [existsb].
  generalize (existsb (fun p => match ps_mode p with MPosOrKw => true | _ => false end) before) (existsb (fun p => is_var_args (ps_mode p)) before)
    (existsb (fun p => match ps_mode p with MKwOnly => true | _ => false end) before) (existsb (fun p => is_var_kwargs (ps_mode p)) before). intros b1 b2 b3 b4.
  unfold compat. destruct m, (ps_mode p); cbn [rank3 is_var_args is_var_kwargs orb];
    rewrite ?orb_false_r, ?orb_true_r, ?orb_true_l, ?orb_false_l; cbn [orb];
    (split; [intros H; first [discriminate H|split; [lia|exact H]] | intros [Hc H]; first [exact H|exfalso; lia]]).
Qed.
Lemma mem_str_in k l : mem_str k l = true <-> In k l.
Proof. unfold mem_str. rewrite existsb_exists. split; [intros (x & I & E); apply str_eqb_eq in E; congruence|intros I; exists k; split; [exact I|apply str_eqb_eq; reflexivity]]. Qed.
Lemma build_splits ps : forall before, build3_loop (flags_of before) ps = true <-> forall b p a, ps = b ++ p :: a -> step_ok (before ++ b) p.
Proof.
  induction ps as [|p ps IH]; intros before; cbn [build3_loop].
  - split; [|reflexivity]. intros _ [|x b] p a H; discriminate H.
  - assert (S0 : (if mem_str (ps_name p) (bf_names (flags_of before)) then false
                  else if mode_refused (ps_mode p) (flags_of before) then false
                  else if ps_omit p then false else if bf_default (had (ps_mode p) (flags_of before)) && negb (ps_default p) && negb (bf_kw_only (had (ps_mode p) (flags_of before))) then false else true) = true <-> step_ok before p).
    { unfold step_ok. rewrite <- mode_ok. cbn [flags_of bf_names].
      destruct (mem_str (ps_name p) (rev (map ps_name before))) eqn:Mn.
      { split; [discriminate|]. intros (N & _). apply mem_str_in in Mn. rewrite <- in_rev in Mn. contradiction. }
      assert (Nn : ~ In (ps_name p) (map ps_name before)). { intros I. rewrite in_rev in I. apply mem_str_in in I. congruence. }
      fold (flags_of before). destruct (mode_refused (ps_mode p) (flags_of before)); [split; [discriminate|intros (_ & H & _); discriminate H]|].
      destruct (ps_omit p); [split; [discriminate|intros (_ & _ & H & _); discriminate H]|].
      replace (bf_default (had (ps_mode p) (flags_of before))) with (existsb ps_default before) by reflexivity.
      assert (K : bf_kw_only (had (ps_mode p) (flags_of before)) = true <-> exists k, In k (before ++ [p]) /\ ps_mode k = MKwOnly).
      { cbn [had bf_kw_only flags_of]. split.
        - intros H. destruct (ps_mode p) eqn:Mp; try (apply existsb_exists in H; destruct H as (k & I & Hk); exists k; split; [apply in_or_app; auto|destruct (ps_mode k); congruence]).
          exists p. split; [apply in_or_app; right; left; reflexivity|exact Mp].
        - intros (k & I & Hk). apply in_app_or in I. destruct I as [I|[<-|[]]]; [|rewrite Hk; reflexivity].
          destruct (ps_mode p); try reflexivity; (apply existsb_exists; exists k; split; [exact I|rewrite Hk; reflexivity]). }
      destruct (existsb ps_default before) eqn:D, (ps_default p) eqn:Dp; cbn [andb negb].
      - split; [intros _|reflexivity]. repeat (split; [assumption||reflexivity|]). intros; congruence.
      - destruct (bf_kw_only _); cbn [negb].
        + split; [intros _|reflexivity]. repeat (split; [assumption||reflexivity|]). intros. apply K. reflexivity.
        + split; [discriminate|]. intros (_ & _ & _ & H). apply existsb_exists in D. destruct D as (q & I & Dq). apply K. exact (H q I Dq eq_refl).
      - split; [intros _|reflexivity]. repeat (split; [assumption||reflexivity|]). intros; congruence.
      - split; [intros _|reflexivity]. repeat (split; [assumption||reflexivity|]). intros q I Dq. exfalso. assert (existsb ps_default before = true) by (apply existsb_exists; eauto). congruence. }
    assert (F : {| bf_names := ps_name p :: bf_names (had (ps_mode p) (flags_of before)); bf_default := bf_default (had (ps_mode p) (flags_of before)) || ps_default p;
        bf_pos_or_kw := bf_pos_or_kw (had (ps_mode p) (flags_of before)); bf_var_args := bf_var_args (had (ps_mode p) (flags_of before));
        bf_kw_only := bf_kw_only (had (ps_mode p) (flags_of before)); bf_var_kwargs := bf_var_kwargs (had (ps_mode p) (flags_of before)) |} = flags_of (before ++ [p])).
    { unfold flags_of, had. cbn [bf_names bf_default bf_pos_or_kw bf_var_args bf_kw_only bf_var_kwargs]. rewrite map_app, rev_app_distr, !existsb_app. cbn [map rev app existsb].
      rewrite !orb_false_r. f_equal; destruct (ps_mode p); cbn [is_var_args is_var_kwargs]; rewrite ?orb_false_r, ?orb_true_r; reflexivity. }
    rewrite F. split.
    + intros H. assert (St : step_ok before p /\ build3_loop (flags_of (before ++ [p])) ps = true).
      { rewrite <- S0. repeat match type of H with (if ?b then _ else _) = true => destruct b; [discriminate H|] end. split; [reflexivity|exact H]. }
      destruct St as [St H2]. intros [|x b] q a E; cbn in E; injection E as -> E.
      * rewrite app_nil_r. exact St.
      * subst ps. apply IH with (b := b) (p := q) (a := a) in H2; [|reflexivity]. rewrite <- app_assoc in H2. exact H2.
    + intros H. pose proof (H [] p ps eq_refl) as St. rewrite app_nil_r in St. apply S0 in St.
      assert (G : build3_loop (flags_of (before ++ [p])) ps = true).
      { apply IH. intros b q a E. rewrite <- app_assoc. apply (H (p :: b) q a). rewrite E. reflexivity. }
      repeat match type of St with (if ?b then _ else _) = true => destruct b; [discriminate St|] end. exact G.
Qed.
Lemma build3_iff ps : build3 ps = true <->
  signature (map ps_mode ps) /\ NoDup (map ps_name ps) /\ Forall (fun p => ps_omit p = false) ps /\ defaults_last ps.
Proof.
  unfold build3. change bf_init with (flags_of []). rewrite build_splits. cbn [app]. split.
  - intros H. repeat apply conj.
    + apply signature_splits. intros b m a E. apply map_eq_app in E. destruct E as (b' & a' & -> & <- & E). destruct a' as [|p a']; [discriminate E|]. cbn in E. injection E as <- <-.
      destruct (H b' p a' eq_refl) as (_ & F & _). rewrite Forall_map. exact F.
    + assert (G : forall l r, ps = l ++ r -> NoDup (map ps_name l)).
      { intros l. induction l as [|p l IH] using rev_ind; intros r E; [constructor|]. rewrite map_app. cbn.
        rewrite <- app_assoc in E. cbn in E. apply NoDup_Add with (a := ps_name p) (l := map ps_name l).
        - assert (Q := Add_app (ps_name p) (map ps_name l) []). rewrite app_nil_r in Q. exact Q.
        - split; [eapply IH; exact E|]. destruct (H l p r E) as (N & _). exact N. }
      apply (G ps []). rewrite app_nil_r. reflexivity.
    + apply Forall_forall. intros p I. apply in_split in I. destruct I as (b & a & ->). destruct (H b p a eq_refl) as (_ & _ & O & _). exact O.
    + intros b p a q E I D1 D2. destruct (H b p a E) as (_ & _ & _ & G). exact (G q I D1 D2).
  - intros (Sg & Nd & Om & Df) b p a E. repeat split.
    + intros I. rewrite E, map_app in Nd. cbn in Nd. apply NoDup_remove_2 in Nd. apply Nd. apply in_or_app. auto.
    + apply signature_splits with (before := map ps_mode b) (m := ps_mode p) (after := map ps_mode a) in Sg; [|rewrite E, map_app; reflexivity]. rewrite Forall_map in Sg. exact Sg.
    + rewrite Forall_forall in Om. apply Om. rewrite E. apply in_or_app. right. left. reflexivity.
    + intros q I D1 D2. exact (Df b p a q E I D1 D2).
Qed.

(** ** The older kind of schema *)
Lemma find_filter {A} (f : A -> bool) l : find f l = match filter f l with x :: _ => Some x | [] => None end.
Proof. induction l as [|x l IH]; [reflexivity|]. cbn. destruct (f x); [reflexivity|exact IH]. Qed.
Lemma signature_cons m ms : signature (m :: ms) -> Forall (compat m) ms /\ signature ms.
Proof. intros H. exact H. Qed.
Lemma count_ordered (ps : list param3) : signature (map p3_mode ps) -> forall k,
  positional_count_from k (map param_v2 (filter (fun p => negb (is_variadic (p3_mode p))) ps)) =
  match length (filter (fun p => positional3 (p3_mode p)) ps) with 0 => 0 | n => k + n end.
Proof.
  induction ps as [|p ps IH]; intros Sg k; [reflexivity|]. cbn [map] in Sg. apply signature_cons in Sg. destruct Sg as [F Sg].
  specialize (IH Sg). cbn [filter].
  assert (None' : positional3 (p3_mode p) = false -> filter (fun p => positional3 (p3_mode p)) ps = []).
  { intros N. rewrite Forall_map in F. clear IH Sg. induction ps as [|q ps IH2]; [reflexivity|]. inversion F as [|? ? [Fq _] F']; subst. cbn.
    destruct (positional3 (p3_mode q)) eqn:Q; [exfalso; destruct (p3_mode p), (p3_mode q); cbn in *; try discriminate; lia|apply IH2; exact F']. }
  destruct (p3_mode p) eqn:M; cbn [is_variadic negb positional3 map length].
  - cbn [positional_count_from]. rewrite IH. cbn [param_v2 pa_mode]. rewrite M. cbn [mode_v2 positional]. destruct (length _); lia.
  - cbn [positional_count_from]. rewrite IH. cbn [param_v2 pa_mode]. rewrite M. cbn [mode_v2 positional]. destruct (length _); lia.
  - rewrite IH. reflexivity.
  - cbn [positional_count_from]. rewrite IH. cbn [param_v2 pa_mode]. rewrite M. cbn [mode_v2 positional]. rewrite None' by reflexivity. reflexivity.
  - apply IH.
  - apply IH.
Qed.
Section V2.
Variables (repr : pyval -> str) (c : args3_cfg).
Lemma params3_same ai i ba bn ps : Forall (fun p => is_variadic (p3_mode p) = false /\ nameless (p3_cv p) /\ exists k, collection_select (p3_keys p) ba bn = BOk k) ps ->
  forall index a s, params3_loop c ai i ba bn index ps a s = params_loop (as_v2 c) ai i ba bn index (map param_v2 ps) a s.
Proof.
  induction ps as [|p ps IH]; intros G index a s; [reflexivity|]. inversion G as [|? ? (V & NL & k & K) G']; subst. specialize (IH G').
  cbn [params3_loop params_loop map]. cbn [param_v2 pa_mode pa_keys pa_cv pa_name]. rewrite K.
  assert (POS : forall x a, match cv_validate (p3_cv p) x s with
     | (VOk v, s') => params3_loop c ai i ba bn (S index) ps (aa_push v a) s'
     | (VErr (LineErrors es), s') => params3_loop c ai i ba bn (S index) ps (aa_add (map (with_outer (index_loc index)) es) a) s'
     | (VErr e, s') => (VErr e, s') end =
     match rebind (set_field_name (Some (p3_name p))) s (cv_validate (p3_cv p) x) with
     | (VOk v, s') => params_loop (as_v2 c) ai i ba bn (S index) (map param_v2 ps) (aa_push v a) s'
     | (VErr (LineErrors es), s') => params_loop (as_v2 c) ai i ba bn (S index) (map param_v2 ps) (aa_add (map (with_outer (index_loc index)) es) a) s'
     | (VErr e, s') => (VErr e, s') end).
  { intros x b. rewrite (proj1 (NL _ _)). destruct (cv_validate (p3_cv p) x s) as [[v|[| | | |]] s']; try apply IH; reflexivity. }
  destruct (p3_mode p); try discriminate V; cbn [mode_v2 positional by_keyword positional3 by_keyword3]; destruct (ai_kwargs ai) as [[md len]|]; try destruct (md_get md k) as [[[path value]|]|e]; try reflexivity;
    destruct (ai_args ai) as [l|]; try destruct (nth_error l index) as [x|]; try apply IH; try apply POS; rewrite ?(proj1 (NL _ _)), ?(proj2 (NL _ _)).
  all: try (destruct (cv_validate (p3_cv p) _ s) as [[v|[| | | |]] s']; try apply IH; reflexivity).
  all: destruct (cv_default (p3_cv p) _ s) as [[[v|]|ed] s']; try apply IH; try reflexivity; (destruct (key_error _ _ _ _ _); [apply IH|reflexivity]).
Qed.
Lemma kwargs3_same es : (forall p, find_mode is_var_kwargs c = Some p -> is_unpacked (p3_mode p) = existsb (fun p => is_unpacked (p3_mode p)) (a3_params c)) ->
  (find_mode is_var_kwargs c = None -> existsb (fun p => is_unpacked (p3_mode p)) (a3_params c) = false) ->
  forall r a s, kwargs3_loop c es r a s = var_kwargs_loop (as_v2 c) es r a s.
Proof.
  intros U N. induction es as [|[key kloc value|e] es IH]; intros r a s; cbn [kwargs3_loop var_kwargs_loop]; [reflexivity| |reflexivity].
  destruct (key_str key) as [k|[l| | | |]]; try apply IH; try reflexivity. destruct (mem_str k (aa_used a)); [apply IH|].
  cbn [as_v2 ac_unpacked ac_var_kwargs ac_extra]. unfold find_mode in *. rewrite find_filter in *.
  destruct (filter (fun p => is_var_kwargs (p3_mode p)) (a3_params c)) as [|p ps].
  - rewrite N by reflexivity. destruct (a3_extra c); apply IH.
  - rewrite <- (U p eq_refl). destruct (p3_mode p) eqn:M; cbn [is_unpacked]; try apply IH;
      destruct (cv_validate (p3_cv p) value s) as [[v|[| | | |]] s']; try apply IH; reflexivity.
Qed.
Lemma one_kwargs ps : signature (map p3_mode ps) -> forall p, find (fun p => is_var_kwargs (p3_mode p)) ps = Some p ->
  is_unpacked (p3_mode p) = existsb (fun p => is_unpacked (p3_mode p)) ps /\
  (is_unpacked (p3_mode p) = true -> find (fun p => is_unpacked (p3_mode p)) ps = Some p).
Proof.
  induction ps as [|q ps IH]; intros Sg p F; [discriminate F|]. cbn [map] in Sg. apply signature_cons in Sg. destruct Sg as [Fq Sg]. cbn [find existsb] in *.
  destruct (is_var_kwargs (p3_mode q)) eqn:Q.
  - injection F as <-. assert (E : existsb (fun p => is_unpacked (p3_mode p)) ps = false).
    { destruct (existsb _ ps) eqn:E; [|reflexivity]. exfalso. apply existsb_exists in E. destruct E as (x & I & U). rewrite Forall_map, Forall_forall in Fq. specialize (Fq x I).
      unfold compat in Fq. destruct (p3_mode q), (p3_mode x); try discriminate; cbn in Fq; lia. }
    rewrite E, orb_false_r. split; [reflexivity|]. intros ->. reflexivity.
  - replace (is_unpacked (p3_mode q)) with false by (destruct (p3_mode q); try reflexivity; discriminate Q). cbn [orb]. apply IH; assumption.
Qed.
Lemma no_kwargs ps : find (fun p => is_var_kwargs (p3_mode p)) ps = None -> existsb (fun p => is_unpacked (p3_mode p)) ps = false /\ find (fun p => is_unpacked (p3_mode p)) ps = None.
Proof.
  induction ps as [|q ps IH]; intros F; [auto|]. cbn [find existsb] in *. destruct (is_var_kwargs (p3_mode q)) eqn:Q; [discriminate F|].
  replace (is_unpacked (p3_mode q)) with false by (destruct (p3_mode q); try reflexivity; discriminate Q). apply IH, F.
Qed.
Lemma argskwargs_same v args kw vd vt e s :
  as_args_kwargs v = Some (args, kw) -> vd false (IPy v) = VErr e -> signature (map p3_mode (a3_params c)) ->
  Forall (fun p => nameless (p3_cv p) /\ exists k, collection_select (p3_keys p) (validate_by_alias_or s (a3_by_alias c)) (validate_by_name_or s (a3_by_name c)) = BOk k) (plain c) ->
  arguments3_validate repr c vd vt (IPy v) s = arguments_validate (as_v2 c) (validate_args repr) (IPy v) s.
Proof.
  intros A D Sg G. unfold arguments3_validate, arguments_validate. rewrite D. unfold validate_args3, validate_args.
  assert (Z : dict_items v = None) by (destruct v as [| | | | | | | | | | |n l|]; try discriminate A; reflexivity). rewrite Z, A. clear Z.
  set (ai := {| ai_args := _; ai_kwargs := _ |}). unfold from_argskwargs.
  change (validate_by_alias_or (set_partial PartialOff s) ?x) with (validate_by_alias_or s x). change (validate_by_name_or (set_partial PartialOff s) ?x) with (validate_by_name_or s x).
  cbn [as_v2 ac_by_alias ac_by_name ac_params]. fold (plain c). rewrite params3_same.
  2:{ rewrite Forall_forall in *. intros p I. pose proof I as I'. apply filter_In in I'. destruct (G p I) as [G1 G2]. split; [|split; [exact G1|exact G2]]. apply negb_true_iff, I'. }
  destruct (params_loop _ _ _ _ _ _ _ _ _) as [[a|e1] s1]; [|reflexivity].
  assert (C : positional_count (as_v2 c) = positional_count3 c).
  { unfold positional_count, positional_count3. cbn [as_v2 ac_params]. unfold plain. rewrite (count_ordered _ Sg 0). destruct (length _); reflexivity. }
  unfold var_args_stage. rewrite C. cbn [as_v2 ac_var_args]. unfold find_mode at 1. rewrite find_filter.
  replace (option_map (fun p => cv_validate (p3_cv p)) (match filter (fun p => is_var_args (p3_mode p)) (a3_params c) with [] => None | x :: _ => Some x end))
    with (match filter (fun p => is_var_args (p3_mode p)) (a3_params c) with [] => None | p :: _ => Some (cv_validate (p3_cv p)) end) by (destruct (filter _ (a3_params c)); reflexivity).
  destruct (match ai_args ai with Some l => _ | None => _ end) as [[a2|e2] s2]; [|reflexivity].
  unfold var_kwargs_stage.
  assert (KW : forall es r a s, kwargs3_loop c es r a s = var_kwargs_loop (as_v2 c) es r a s).
  { intros. apply kwargs3_same.
    - intros p F. apply (one_kwargs _ Sg p F).
    - intros F. apply (no_kwargs _ F). }
  assert (E : (match ai_kwargs ai with
     | Some (md, len) => if length (aa_used a2) <? len then match md_iter md with VOk es => kwargs3_loop c es [] a2 s2 | VErr e => (VErr e, s2) end else (VOk (a2, []), s2)
     | None => (VOk (a2, []), s2) end) =
    (match ai_kwargs ai with
     | Some (md, len) => if length (aa_used a2) <? len then match md_iter md with VOk es => var_kwargs_loop (as_v2 c) es [] a2 s2 | VErr e => (VErr e, s2) end else (VOk (a2, []), s2)
     | None => (VOk (a2, []), s2) end)).
  { destruct (ai_kwargs ai) as [[md len]|]; [|reflexivity]. destruct (_ <? len); [|reflexivity]. destruct (md_iter md); [apply KW|reflexivity]. }
  rewrite E. clear E. destruct (match ai_kwargs ai with Some _ => _ | None => _ end) as [[[a3 r]|e3] s3]; [|reflexivity].
  unfold unpacked_stage. cbn [as_v2 ac_unpacked ac_var_kwargs]. 
  destruct (find (fun p => is_var_kwargs (p3_mode p)) (a3_params c)) as [p|] eqn:F.
  - destruct (one_kwargs _ Sg p F) as [U1 U2]. rewrite <- U1. destruct (is_unpacked (p3_mode p)) eqn:U.
    + unfold find_mode. rewrite U2 by reflexivity. rewrite find_filter in F. destruct (filter (fun p => is_var_kwargs (p3_mode p)) (a3_params c)) as [|q l]; [discriminate F|]. injection F as ->.
      destruct (cv_validate (p3_cv p) _ s3) as [[w|[es| | | |]] s4]; cbn [unpack3]; try reflexivity.
      * destruct (as_dict w); reflexivity.
      * rewrite map_id. reflexivity.
    + unfold find_mode. replace (find (fun p => is_unpacked (p3_mode p)) (a3_params c)) with (@None param3); [reflexivity|]. symmetry. destruct (find (fun p => is_unpacked (p3_mode p)) (a3_params c)) eqn:F2; [|reflexivity].
      apply find_some in F2. exfalso. assert (X : existsb (fun p => is_unpacked (p3_mode p)) (a3_params c) = true) by (apply existsb_exists; eexists; exact F2). congruence.
  - destruct (no_kwargs _ F) as [U1 U2]. rewrite U1. unfold find_mode. rewrite U2. reflexivity.
Qed.
End V2.

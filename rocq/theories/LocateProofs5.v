From Coq Require Import List NArith ZArith Bool Lia.
From Verif Require Import Base Float64 IntParse Numbers BytesCodec Values VState LookupKey Collections Child Inputs Scalars Literal Wrappers Union TaggedUnion Tuple ModelFields TypedDict Assign Arguments Classes Interp InterpSpec CollectionsProofs LookupKeyProofs ArgumentsProofs InterpProofs StableSpec LocateSpec LocateProofs LocateProofs2 LocateProofs3 LocateProofs4.
Import ListNotations.
Open Scope nat_scope.

Section Locate.
Variable E : env.
Variable label : loc_item -> Prop.
Notation step := (step E).
Notation leads := (leads E label).
Notation located := (located E label).
Notation errs := (errs E label).
Notation tracks := (tracks E label).
Notation ctracks := (ctracks E label).
Notation md_at := (md_at E label).
Notation missing := (missing E label).
Notation applied := (applied E label).

Record args_at (i : input) (ai : arg_input) : Prop := {
  at_pos : forall l n x, ai_args ai = Some l -> nth_error l n = Some x -> python_or_json x /\ step i (index_loc n) x;
  at_no_pos : forall n, match ai_args ai with Some l => nth_error l n | None => None end = None ->
     (exists v d, i = IPy v /\ dict_items v = Some d) \/ absent E i [index_loc n];
  at_kw : forall md len, ai_kwargs ai = Some (md, len) -> md_at i md;
  at_no_kw : forall k r, ai_kwargs ai = None -> absent E i (LStr k :: r) }.

Lemma args_dict v d : dict_items v = Some d -> args_at (IPy v) {| ai_args := None; ai_kwargs := Some (py_kwargs (e_repr E) d) |}.
Proof.
  intros D. constructor; cbn; try discriminate.
  - intros n _. left. eauto.
  - intros md len [= <- _]. apply dict_md_at, dict_strip, D.
Qed.
Lemma args_json l : args_at (IJson (JObj l)) {| ai_args := None; ai_kwargs := Some (json_mdict l, length l) |}.
Proof.
  constructor; cbn; try discriminate.
  - intros n _. right. apply absent_data; [exact I|]. intros A. inversion A; subst. match goal with Q : subscript _ _ _ |- _ => inversion Q end.
  - intros md len [= <- _]. apply json_md_at.
Qed.
Lemma args_obj_at v args kw : as_args_kwargs v = Some (args, kw) -> args_at (IPy v) {| ai_args := Some (map IPy args); ai_kwargs := option_map (py_kwargs (e_repr E)) kw |}.
Proof.
  intros A. pose proof (args_obj _ _ A) as (SV & c & al & VV).
  assert (DL : data_like (IPy v)) by (cbn; rewrite SV, VV; rewrite VV in A; congruence).
  constructor; cbn.
  - intros l n x [= <-]. rewrite nth_error_map. destruct (nth_error args n) eqn:N; [|discriminate]. intros [= <-]. split; [exact I|]. eapply step_arg; eauto.
  - intros n H. right. apply absent_data; [exact DL|]. rewrite nth_error_map in H. destruct (nth_error args n) eqn:N; [discriminate|]. intros Q. inversion Q; subst.
    + match goal with Q : subscript _ _ _ |- _ => inversion Q; subst end; repeat match goal with Q : _ \/ _ |- _ => destruct Q end; discriminate.
    + match goal with Q : _ \/ _ |- _ => destruct Q end; discriminate.
    + assert (n0 = n) by (apply Nat2Z.inj; assumption). congruence.
  - intros md len H. destruct kw as [kw|]; [|discriminate]. injection H as <- _. eapply kwargs_md_at; eauto.
  - intros k r H. destruct kw as [kw|]; [discriminate|]. apply absent_data; [exact DL|]. intros Q. inversion Q; subst; [|congruence].
    match goal with Q : subscript _ _ _ |- _ => inversion Q; subst end; discriminate.
Qed.
Lemma args_list_at v l : strip v = PList l \/ strip v = PTuple l -> args_at (IPy v) {| ai_args := Some (map IPy l); ai_kwargs := None |}.
Proof.
  intros S. pose proof (list_seq_at E v l S) as SA. constructor; cbn; try discriminate.
  - intros l' n x [= <-]. rewrite nth_error_map. destruct (nth_error l n) eqn:N; [|discriminate]. intros [= <-]. apply (sa_items _ _ _ SA n (It (IPy p))). rewrite nth_error_map, N. reflexivity.
  - intros n H. right. apply absent_data; [apply (sa_data _ _ _ SA)|]. apply (sa_end _ _ _ SA). apply nth_error_None in H. now rewrite map_length in *.
  - intros k r _. apply absent_data; [apply (sa_data _ _ _ SA)|]. intros Q. inversion Q; subst.
    + match goal with Q : subscript _ _ _ |- _ => inversion Q; subst end; repeat match goal with Q : _ \/ _ |- _ => destruct Q end; congruence.
    + match goal with Q : as_args_kwargs _ = Some _ |- _ => apply args_obj in Q; destruct Q as (_ & ? & ? & ->) end. destruct S; discriminate.
Qed.
Lemma args_array l : args_at (IJson (JArr l)) {| ai_args := Some (map IJson l); ai_kwargs := None |}.
Proof.
  pose proof (json_seq_at E l) as SA. constructor; cbn; try discriminate.
  - intros l' n x [= <-]. rewrite nth_error_map. destruct (nth_error l n) eqn:N; [|discriminate]. intros [= <-]. apply (sa_items _ _ _ SA n (It (IJson j))). rewrite nth_error_map, N. reflexivity.
  - intros n H. right. apply absent_data; [exact I|]. apply (sa_end _ _ _ SA). apply nth_error_None in H. now rewrite map_length in *.
  - intros k r _. apply absent_data; [exact I|]. intros Q. inversion Q; subst. match goal with Q : subscript _ _ _ |- _ => inversion Q end.
Qed.
Definition args_reads (f : input -> vres arg_input) : Prop :=
  forall i, python_or_json i -> (forall ai, f i = VOk ai -> args_at i ai) /\ (forall e, f i = VErr e -> exists t, e = LineErrors [new_error t i]).
Ltac bad_args := split; [discriminate|intros e [= <-]; eauto; fail].
Lemma validate_args_at : args_reads (validate_args (e_repr E)).
Proof.
  intros [v|j|k|v] P; unfold validate_args; [|destruct j; try bad_args|bad_args|contradiction].
  - destruct (dict_items v) eqn:D; [split; [intros ai [= <-]; now apply args_dict|discriminate]|].
    destruct (as_args_kwargs v) as [[args kw]|] eqn:A; [split; [intros ai [= <-]; now apply args_obj_at|discriminate]|].
    destruct (strip v) eqn:S; try bad_args; (split; [intros ai [= <-]; apply args_list_at; auto|discriminate]).
  - split; [intros ai [= <-]; apply args_array|discriminate].
  - split; [intros ai [= <-]; apply args_json|discriminate].
Qed.
Lemma validate_dargs_at : args_reads (validate_dataclass_args (e_repr E)).
Proof.
  intros [v|j|k|v] P; unfold validate_dataclass_args; [|destruct j; try bad_args|bad_args|contradiction].
  - destruct (dict_items v) eqn:D; [split; [intros ai [= <-]; now apply args_dict|discriminate]|].
    destruct (as_args_kwargs v) as [[args kw]|] eqn:A; [split; [intros ai [= <-]; now apply args_obj_at|discriminate]|bad_args].
  - split; [intros ai [= <-]; apply args_json|discriminate].
Qed.

Section Args.
Variables (i : input) (ai : arg_input).
Hypothesis A : args_at i ai.

Definition kw_get (k : lookup_key) : vres (option (lookup_path * input)) := match ai_kwargs ai with Some (md, _) => md_get md k | None => VOk None end.
Lemma kw_missing k t n : missing_type t = true -> good_key k -> kw_get k = VOk None -> exists e, key_error k t i true n = Some e /\ located i e.
Proof.
  intros T G H. unfold kw_get in H. destruct (ai_kwargs ai) as [[md len]|] eqn:K; [exact (missing i md (at_kw _ _ A _ _ K) k t n T G H)|].
  destruct (key_error_loc k t i n G) as (p & e & F & KE & P & TT & II). exists e. split; [exact KE|].
  eapply loc_missing with (p := []); [now rewrite TT|exact P|constructor|unfold shows; now rewrite II|]. now apply (at_no_kw _ _ A).
Qed.
Lemma kw_applied k p x es n : good_key k -> kw_get k = VOk (Some (p, x)) -> Forall (located x) es -> Forall (located i) (map (fun e => apply_error_loc p e true n) es).
Proof. intros G H. unfold kw_get in H. destruct (ai_kwargs ai) as [[md len]|] eqn:K; [|discriminate]. exact (applied i md (at_kw _ _ A _ _ K) k p x es n G H). Qed.
Lemma kw_plain k p x : good_key k -> kw_get k = VOk (Some (p, x)) -> python_or_json x /\ leads i (path_loc p) x.
Proof. intros G H. unfold kw_get in H. destruct (ai_kwargs ai) as [[md len]|] eqn:K; [|discriminate]. exact (ma_get _ _ _ _ (at_kw _ _ A _ _ K) _ _ _ G H). Qed.
Lemma kw_err k e : kw_get k = VErr e -> errs i (@VErr unit e).
Proof. intros H. unfold kw_get in H. destruct (ai_kwargs ai) as [[md len]|] eqn:K; [|discriminate]. destruct (lookup_errs E label i md (at_kw _ _ A _ _ K) _ _ H) as (l & -> & F & _). exact F. Qed.
(** The two sources of one argument. *)
Lemma multiple name p x : kw_get (Simple (path_from_str name)) = VOk (Some (p, x)) -> located i (new_error_loc EMultipleArgumentValues x (LStr name)).
Proof.
  intros H. assert (P : p = path_from_str name).
  { unfold kw_get in H. destruct (ai_kwargs ai) as [[md len]|] eqn:K; [|discriminate]. exact (ma_simple _ _ _ _ (at_kw _ _ A _ _ K) _ _ _ H). }
  destruct (kw_plain (Simple (path_from_str name)) p x) as [_ L]; [constructor; reflexivity|exact H|]. subst p. eapply loc_here; [exact L|reflexivity].
Qed.

(** ** Function calls *)
Variable c : args_cfg.
Hypothesis LA : ac_loc_by_alias c = true.
Hypothesis UN : ac_unpacked c = false.
Definition param_at (p : param) : Prop := ctracks (pa_cv p) /\ match pa_mode p with PosOrKw => unaliased (pa_name p) (pa_keys p) | _ => built (pa_name p) (pa_keys p) end.
Definition aacc_ok (r : vres aacc) : Prop := match r with VOk a => Forall (located i) (aa_errors a) | VErr e => errs i (@VErr unit e) end.

Lemma params_at ba bn ps : Forall param_at ps -> forall n a s, Forall (located i) (aa_errors a) -> aacc_ok (fst (params_loop c ai i ba bn n ps a s)).
Proof.
  intros X. induction X as [|p ps [T B] X IH]; intros n a s F; cbn [params_loop]; [exact F|]. cbv zeta.
  set (pos := match ai_args ai with Some l => if positional (pa_mode p) then nth_error l n else None | None => None end).
  assert (PP : forall x, pos = Some x -> python_or_json x /\ step i (index_loc n) x).
  { unfold pos. intros x. destruct (ai_args ai) as [l|] eqn:L; [|discriminate]. destruct (positional (pa_mode p)); [|discriminate]. intros N. eapply (at_pos _ _ A); eauto. }
  assert (BB : built (pa_name p) (pa_keys p)) by (destruct (pa_mode p); auto using unaliased_built).
  set (key := if by_keyword (pa_mode p) then match collection_select (pa_keys p) ba bn with BOk k => Some (BOk k) | BErr => Some BErr end else None).
  assert (KG : forall k, key = Some (BOk k) -> good_key k).
  { unfold key. destruct (by_keyword (pa_mode p)); [|discriminate]. destruct (collection_select _ _ _) eqn:CS; [|discriminate]. intros k [= <-]. exact (select_good _ _ _ _ _ BB CS). }
  assert (KM : forall k x, pos = Some x -> key = Some (BOk k) -> k = Simple (path_from_str (pa_name p))).
  { unfold key, pos. intros k x PS. destruct (ai_args ai); [|discriminate]. destruct (pa_mode p); cbn [positional by_keyword] in *; try discriminate.
    destruct (collection_select _ _ _) eqn:CS; [|discriminate]. intros [= <-]. exact (select_unaliased _ _ _ _ _ B CS). }
  assert (KN : key = None -> positional (pa_mode p) = true).
  { unfold key. destruct (pa_mode p); cbn; try reflexivity; destruct (collection_select _ _ _); discriminate. }
  clearbody key. 
  assert (W : match key with Some BErr => True | _ => aacc_ok (fst (
     match match ai_kwargs ai, key with Some (md, _), Some (BOk k) => md_get md k | _, _ => VOk None end with
     | VErr e => (VErr e, s)
     | VOk kw =>
         match pos, kw with
         | Some _, Some (_, value) => params_loop c ai i ba bn (S n) ps (aa_add [new_error_loc EMultipleArgumentValues value (LStr (pa_name p))] (match kw with Some (path, _) => aa_use (lp_first path) a | None => a end)) s
         | Some value, None =>
             match rebind (set_field_name (Some (pa_name p))) s (cv_validate (pa_cv p) value) with
             | (VOk v, s') => params_loop c ai i ba bn (S n) ps (aa_push v (match kw with Some (path, _) => aa_use (lp_first path) a | None => a end)) s'
             | (VErr (LineErrors es), s') => params_loop c ai i ba bn (S n) ps (aa_add (map (with_outer (index_loc n)) es) (match kw with Some (path, _) => aa_use (lp_first path) a | None => a end)) s'
             | (VErr e, s') => (VErr e, s')
             end
         | None, Some (path, value) =>
             match rebind (set_field_name (Some (pa_name p))) s (cv_validate (pa_cv p) value) with
             | (VOk v, s') => params_loop c ai i ba bn (S n) ps (aa_put (pa_name p) v (match kw with Some (path, _) => aa_use (lp_first path) a | None => a end)) s'
             | (VErr (LineErrors es), s') => params_loop c ai i ba bn (S n) ps (aa_add (map (fun e => apply_error_loc path e (ac_loc_by_alias c) (pa_name p)) es) (match kw with Some (path, _) => aa_use (lp_first path) a | None => a end)) s'
             | (VErr e, s') => (VErr e, s')
             end
         | None, None =>
             match rebind (set_field_name (Some (pa_name p))) s (cv_default (pa_cv p) (Some (LStr (pa_name p)))) with
             | (VErr e, s') => (VErr e, s')
             | (VOk (Some v), s') => params_loop c ai i ba bn (S n) ps (if by_keyword (pa_mode p) then aa_put (pa_name p) v (match kw with Some (path, _) => aa_use (lp_first path) a | None => a end) else aa_push v (match kw with Some (path, _) => aa_use (lp_first path) a | None => a end)) s'
             | (VOk None, s') =>
                 match key with
                 | Some (BOk k) =>
                     match key_error k (if positional (pa_mode p) then EMissingArgument else EMissingKeywordOnly) i (ac_loc_by_alias c) (pa_name p) with
                     | Some e => params_loop c ai i ba bn (S n) ps (aa_add [e] (match kw with Some (path, _) => aa_use (lp_first path) a | None => a end)) s'
                     | None => (VErr Panic, s')
                     end
                 | _ => params_loop c ai i ba bn (S n) ps (aa_add [new_error_loc EMissingPositionalOnly i (index_loc n)] (match kw with Some (path, _) => aa_use (lp_first path) a | None => a end)) s'
                 end
             end
         end
     end)) end).
  { destruct key as [[k|]|] eqn:KK; [|exact I|].
    - specialize (KG _ eq_refl). change (match ai_kwargs ai with Some (md, _) => md_get md k | None => VOk None end) with (kw_get k).
      replace (match ai_kwargs ai with Some (md, _) => md_get md k | None => VOk None end) with (kw_get k) by reflexivity.
      destruct (kw_get k) as [[[q x]|]|e] eqn:H; [| |exact (kw_err _ _ H)].
      + destruct pos as [y|] eqn:PS.
        * apply IH. cbn. apply forall_snoc; [exact F|]. pose proof (KM _ _ eq_refl eq_refl) as ->. exact (multiple _ _ _ H).
        * pose proof (kw_plain _ _ _ KG H) as [P L]. match goal with |- context [rebind ?a ?b ?d] => pose proof (rebind_errs E label x a b d) as R; destruct (rebind a b d) as [[v|e] s1] end; [now apply IH|].
          specialize (R (fun s => proj1 T x s P)). cbn in R. destruct e as [l| | | |]; try exact I. apply IH. cbn. apply forall_add; [exact F|]. rewrite LA. eapply kw_applied; eauto.
      + destruct pos as [y|] eqn:PS.
        * destruct (PP _ eq_refl) as [P L]. match goal with |- context [rebind ?a ?b ?d] => pose proof (rebind_errs E label y a b d) as R; destruct (rebind a b d) as [[v|e] s1] end; [now apply IH|].
          specialize (R (fun s => proj1 T y s P)). cbn in R. destruct e as [l| | | |]; try exact I. apply IH. cbn. apply forall_add; [exact F|]. eapply outer_all; eauto.
        * match goal with |- context [rebind ?a ?b ?d] => destruct (rebind_fst a b d) as [s' R]; destruct (rebind a b d) as [[[v|]|e] s1] end; cbn [fst] in R.
          -- destruct (by_keyword _); now apply IH.
          -- rewrite LA. destruct (kw_missing k (if positional (pa_mode p) then EMissingArgument else EMissingKeywordOnly) (pa_name p)) as (e & -> & Le); [now destruct (positional _)|exact KG|exact H|]. apply IH. cbn. apply forall_snoc; assumption.
          -- apply (errs_plain E label (A := unit)). exact (proj2 T _ _ _ (eq_sym R)).
    - replace (match ai_kwargs ai with Some (md, _) => VOk None | None => VOk None end) with (VOk (A := option (lookup_path * input)) None) by (destruct (ai_kwargs ai) as [[]|]; reflexivity).
      destruct pos as [y|] eqn:PS.
      + destruct (PP _ eq_refl) as [P L]. match goal with |- context [rebind ?a ?b ?d] => pose proof (rebind_errs E label y a b d) as R; destruct (rebind a b d) as [[v|e] s1] end; [now apply IH|].
        specialize (R (fun s => proj1 T y s P)). cbn in R. destruct e as [l| | | |]; try exact I. apply IH. cbn. apply forall_add; [exact F|]. eapply outer_all; eauto.
      + match goal with |- context [rebind ?a ?b ?d] => destruct (rebind_fst a b d) as [s' R]; destruct (rebind a b d) as [[[v|]|e] s1] end; cbn [fst] in R.
        * destruct (by_keyword _); now apply IH.
        * apply IH. cbn. apply forall_snoc; [exact F|]. eapply loc_positional with (p := []); [reflexivity|reflexivity|constructor|reflexivity|].
          apply (at_no_pos _ _ A). unfold pos in PS. rewrite (KN eq_refl) in PS. exact PS.
        * apply (errs_plain E label (A := unit)). exact (proj2 T _ _ _ (eq_sym R)). }
  destruct key as [[k|]|]; [exact W|exact I|exact W].
Qed.

Lemma var_args_at v xs : (forall w, v = Some w -> tracks w) -> forall n, (forall m x, nth_error xs m = Some x -> python_or_json x /\ step i (index_loc (n + m)) x) ->
  forall a s, Forall (located i) (aa_errors a) -> aacc_ok (fst (var_args_loop v n xs a s)).
Proof.
  intros V. induction xs as [|x xs IH]; intros n X a s F; cbn [var_args_loop]; [exact F|].
  destruct (X 0 x eq_refl) as [P ST]. rewrite Nat.add_0_r in ST.
  assert (X' : forall m x, nth_error xs m = Some x -> python_or_json x /\ step i (index_loc (S n + m)) x) by (intros m y Y; specialize (X (Datatypes.S m) y Y); now rewrite Nat.add_succ_r in X).
  specialize (IH (Datatypes.S n) X'). destruct v as [w|].
  - pose proof (V _ eq_refl x s P) as T. destruct (w x s) as [[u|e] s1]; [now apply IH|]. cbn in T. destruct e as [l| | | |]; try exact I. apply IH. cbn. apply forall_add; [exact F|]. eapply outer_all; eauto.
  - apply IH. cbn. apply forall_snoc; [exact F|]. now apply located_new_loc.
Qed.
Lemma var_kwargs_at es : (forall w, ac_var_kwargs c = Some w -> tracks w) -> Forall (entry_at E i) es -> forall rem a s, Forall (located i) (aa_errors a) ->
  match fst (var_kwargs_loop c es rem a s) with VOk (a', _) => Forall (located i) (aa_errors a') | VErr e => errs i (@VErr unit e) end.
Proof.
  intros V X. induction X as [|en es N X IH]; intros rem a s F; cbn [var_kwargs_loop]; [exact F|]. destruct en as [k kl v|]; [|destruct N]. destruct N as (PK & PV & KO & ST).
  destruct (key_str k) as [n|e] eqn:K.
  - destruct (mem_str n (aa_used a)); [now apply IH|]. rewrite UN. destruct (ac_var_kwargs c) as [w|] eqn:XE.
    + pose proof (V _ eq_refl v s PV) as T. destruct (w v s) as [[u|e] s1]; [now apply IH|]. cbn in T. destruct e as [l| | | |]; try exact I. apply IH. cbn. apply forall_add; [exact F|]. eapply outer_all; eauto.
    + destruct (ac_extra c); try now apply IH. apply IH. cbn. apply forall_snoc; [exact F|]. now apply located_new_loc.
  - rewrite (key_str_err _ _ K). apply IH. cbn [aa_add aa_errors]. apply forall_add; [exact F|]. now apply bad_key.
Qed.

(** ** Dataclasses *)
Variable dc : dc_cfg.
Hypothesis DLA : dc_loc_by_alias dc = true.
Definition dcf_at (f : dc_field) : Prop := ctracks (df_cv f) /\ if df_kw_only f then built (df_name f) (df_keys f) else unaliased (df_name f) (df_keys f).
Definition dacc_ok (r : vres dacc) : Prop := match r with VOk a => Forall (located i) (da_errors a) | VErr e => errs i (@VErr unit e) end.
Lemma da_set_errors f v a : da_errors (da_set dc f v a) = da_errors a. Proof. unfold da_set. destruct (df_init_only f); reflexivity. Qed.
Lemma dc_at ba bn fs : Forall dcf_at fs -> forall n a s, Forall (located i) (da_errors a) -> dacc_ok (fst (dc_loop dc ai i ba bn n fs a s)).
Proof.
  intros X. induction X as [|f fs [T B] X IH]; intros n a s F; cbn [dc_loop]; [exact F|]. cbv zeta. set (s0 := set_extra _ s). clearbody s0.
  assert (BB : built (df_name f) (df_keys f)) by (destruct (df_kw_only f); auto using unaliased_built).
  destruct (negb (df_init f)).
  - pose proof (proj2 T (Some (LStr (df_name f))) s0) as D. destruct (cv_default _ _ _) as [[[v|]|e] s1].
    + apply IH. cbn [da_counted da_errors]. now rewrite da_set_errors.
    + now apply IH.
    + specialize (D _ eq_refl). destruct e as [l| | | |]; try exact I; [destruct D|now apply IH].
  - set (pos := match ai_args ai with Some l => if negb (df_kw_only f) then nth_error l n else None | None => None end).
    assert (PP : forall x, pos = Some x -> python_or_json x /\ step i (index_loc n) x).
    { unfold pos. intros x. destruct (ai_args ai) as [l|] eqn:L; [|discriminate]. destruct (negb _); [|discriminate]. intros N. eapply (at_pos _ _ A); eauto. }
    destruct (collection_select _ _ _) as [k|] eqn:K; [|exact I]. pose proof (select_good _ _ _ _ _ BB K) as G.
    assert (KM : forall x, pos = Some x -> k = Simple (path_from_str (df_name f))).
    { unfold pos. intros x PS. destruct (ai_args ai); [|discriminate]. destruct (df_kw_only f); [discriminate|]. exact (select_unaliased _ _ _ _ _ B K). }
    fold (kw_get k). destruct (kw_get k) as [[[q x]|]|e] eqn:H; [| |exact (kw_err _ _ H)].
    + destruct pos as [y|] eqn:PS.
      * apply IH. cbn. apply forall_snoc; [exact F|]. pose proof (KM _ eq_refl) as ->. exact (multiple _ _ _ H).
      * pose proof (kw_plain _ _ _ G H) as [P L]. match goal with |- context [rebind ?a ?b ?d] => pose proof (rebind_errs E label x a b d) as R; destruct (rebind a b d) as [[v|e] s1] end; [apply IH; cbn [da_counted da_errors]; now rewrite da_set_errors|].
        specialize (R (fun s => proj1 T x s P)). cbn in R. destruct e as [l| | | |]; try exact I. apply IH. cbn. apply forall_add; [exact F|]. rewrite DLA. eapply kw_applied; eauto.
    + destruct pos as [y|] eqn:PS.
      * destruct (PP _ eq_refl) as [P L]. match goal with |- context [rebind ?a ?b ?d] => pose proof (rebind_errs E label y a b d) as R; destruct (rebind a b d) as [[v|e] s1] end; [apply IH; cbn [da_counted da_errors]; now rewrite da_set_errors|].
        specialize (R (fun s => proj1 T y s P)). cbn in R. destruct e as [l| | | |]; try exact I. apply IH. cbn. apply forall_add; [exact F|]. eapply outer_all; eauto.
      * match goal with |- context [rebind ?a ?b ?d] => destruct (rebind_fst a b d) as [s' R]; destruct (rebind a b d) as [[[v|]|e] s1] end; cbn [fst] in R.
        -- apply IH. now rewrite da_set_errors.
        -- rewrite DLA. destruct (kw_missing k EMissing (df_name f) eq_refl G H) as (e & -> & Le). apply IH. cbn. apply forall_snoc; assumption.
        -- pose proof (proj2 T _ _ _ (eq_sym R)) as D. destruct e as [l| | | |]; try exact I; [destruct D|now apply IH].
Qed.
Lemma dc_extras_at es : (forall w, dc_extras dc = Some w -> tracks w) -> Forall (entry_at E i) es -> forall a s, Forall (located i) (da_errors a) ->
  dacc_ok (fst (dc_extras_loop dc es a s)).
Proof.
  intros V X. induction X as [|en es N X IH]; intros a s F; cbn [dc_extras_loop]; [exact F|]. destruct en as [k kl v|]; [|destruct N]. destruct N as (PK & PV & KO & ST).
  destruct (key_str k) as [n|e] eqn:K.
  - cbv zeta. destruct (mem_str n (da_used a)); [now apply IH|]. destruct (dc_extra dc); [|apply IH; cbn; apply forall_snoc; [exact F|now apply located_new_loc]|now apply IH].
    destruct (dc_extras dc) as [w|] eqn:XE; [|now apply IH]. pose proof (V _ eq_refl v (set_extra (set_data (Some (da_dict a)) (st_extra s)) s) PV) as T. destruct (w v _) as [[u|e] s1]; [now apply IH|]. cbn in T.
    destruct e as [l| | | |]; try exact I. apply IH. cbn. apply forall_add; [exact F|]. eapply outer_all; eauto.
  - rewrite (key_str_err _ _ K). apply IH. cbn [da_add da_errors]. apply forall_add; [exact F|]. now apply bad_key.
Qed.
Lemma dc_unexpected_at n l : ai_args ai = Some l -> Forall (located i) (dc_unexpected n l).
Proof.
  intros L. unfold dc_unexpected. apply Forall_forall. intros e H. apply in_map_iff in H. destruct H as ([m x] & <- & H). cbn [fst snd].
  apply located_new_loc. eapply (at_pos _ _ A); [exact L|].
  assert (H' : In (m, x) (combine (List.seq 0 (length l)) l)) by (rewrite <- (firstn_skipn n (combine _ _)); apply in_or_app; now right).
  clear - H'. assert (G : forall k, In (m, x) (combine (List.seq k (length l)) l) -> k <= m /\ nth_error l (m - k) = Some x).
  { clear H'. induction l as [|y l IH]; intros k H; [destruct H|]. cbn in H. destruct H as [[= <- <-]|H]; [split; [lia|now rewrite Nat.sub_diag]|].
    destruct (IH _ H) as [Q1 Q2]. split; [lia|]. replace (m - k) with (S (m - S k)) by lia. exact Q2. }
  destruct (G 0 H') as [_ Q]. now rewrite Nat.sub_0_r in Q.
Qed.
End Args.

Lemma arguments_tracks c f : ac_loc_by_alias c = true -> ac_unpacked c = false -> Forall param_at (ac_params c) ->
  (forall w, ac_var_args c = Some w -> tracks w) -> (forall w, ac_var_kwargs c = Some w -> tracks w) -> args_reads f -> tracks (arguments_validate c f).
Proof.
  intros LA UN X VA VK R i s P. unfold arguments_validate. cbv zeta. destruct (R i P) as [R1 R2]. destruct (f i) as [ai|e]; [|destruct (R2 _ eq_refl) as [t ->]; now apply errs_val].
  specialize (R1 _ eq_refl).
  match goal with |- context [params_loop c ai i ?ba ?bn 0 _ _ ?s0] => pose proof (params_at i ai R1 c LA ba bn _ X 0 aa_init s0 (Forall_nil _)) as Q; destruct (params_loop c ai i ba bn 0 _ _ s0) as [[a|e] s1] end; [|exact Q]. cbn in Q.
  assert (Q2 : aacc_ok i (fst (var_args_stage c ai a s1))).
  { unfold var_args_stage. destruct (ai_args ai) as [l|] eqn:L; [|exact Q]. destruct (_ <? _); [|exact Q]. apply var_args_at; [exact VA| |exact Q].
    intros m x N. eapply (at_pos _ _ R1); [exact L|]. clear - N. revert N. generalize (positional_count c) as k. intros k. revert l. induction k; intros l N; [exact N|]. destruct l; [destruct m; discriminate|]. cbn. now apply IHk. }
  destruct (var_args_stage c ai a s1) as [[a2|e] s2]; [|exact Q2]. cbn in Q2.
  assert (Q3 : match fst (var_kwargs_stage c ai a2 s2) with VOk (a', _) => Forall (located i) (aa_errors a') | VErr e => errs i (@VErr unit e) end).
  { unfold var_kwargs_stage. destruct (ai_kwargs ai) as [[md len]|] eqn:K; [|exact Q2]. destruct (_ <? _); [|exact Q2]. pose proof (at_kw _ _ R1 _ _ K) as M. destruct (md_iter md) as [es|e] eqn:MI.
    - apply var_kwargs_at; [exact UN|exact VK|exact (iter_entries _ _ _ _ _ M MI)|exact Q2].
    - destruct (ma_iter_ok _ _ _ _ M) as [es ES]. congruence. }
  destruct (var_kwargs_stage c ai a2 s2) as [[[a3 rem]|e] s3]; [|exact Q3]. cbn in Q3. unfold unpacked_stage. rewrite UN. unfold args_finish. destruct (is_nil (aa_errors a3)); [exact I|exact Q3].
Qed.
Lemma dataclass_args_tracks c f : dc_loc_by_alias c = true -> Forall dcf_at (dc_fields c) -> (forall w, dc_extras c = Some w -> tracks w) -> args_reads f -> tracks (dataclass_args_validate c f).
Proof.
  intros LA X VX R i s P. unfold dataclass_args_validate. cbv zeta. destruct (R i P) as [R1 R2]. destruct (f i) as [ai|e]; [|destruct (R2 _ eq_refl) as [t ->]; now apply errs_val].
  specialize (R1 _ eq_refl). apply rebind_errs. intros s0.
  match goal with |- context [dc_loop c ai i ?ba ?bn 0 _ _ s0] => pose proof (dc_at i ai R1 c LA ba bn _ X 0 da_init0 s0 (Forall_nil _)) as Q; destruct (dc_loop c ai i ba bn 0 _ _ s0) as [[a|e] s1] end; [|exact Q]. cbn in Q.
  assert (Q2 : Forall (located i) (da_errors (dc_args_stage c ai a))).
  { unfold dc_args_stage. destruct (ai_args ai) as [l|] eqn:L; [|exact Q]. cbn. apply forall_add; [exact Q|]. now apply (dc_unexpected_at i ai R1). }
  assert (Q3 : dacc_ok i (fst (dc_kwargs_stage c ai (dc_args_stage c ai a) s1))).
  { unfold dc_kwargs_stage. destruct (ai_kwargs ai) as [[md len]|] eqn:K; [|exact Q2]. destruct (negb _); [|exact Q2]. pose proof (at_kw _ _ R1 _ _ K) as M. destruct (md_iter md) as [es|e] eqn:MI.
    - apply dc_extras_at; [exact VX|exact (iter_entries _ _ _ _ _ M MI)|exact Q2].
    - destruct (ma_iter_ok _ _ _ _ M) as [es ES]. congruence. }
  destruct (dc_kwargs_stage c ai _ s1) as [[a3|e] s3]; [|exact Q3]. cbn in Q3. unfold dc_finish. cbv zeta. destruct (is_nil (da_errors a3)); [exact I|exact Q3].
Qed.
End Locate.

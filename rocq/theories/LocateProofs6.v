From Coq Require Import List NArith ZArith Bool Lia.
From Verif Require Import Base Float64 IntParse Numbers BytesCodec Values VState LookupKey Collections Child Inputs Scalars Literal LiteralProofs Wrappers Union TaggedUnion Tuple ModelFields TypedDict Assign Arguments Classes Interp InterpSpec CollectionsProofs LookupKeyProofs ArgumentsProofs InterpProofs StableSpec StrictProofs6 LocateSpec LocateProofs LocateProofs2 LocateProofs3 LocateProofs4 LocateProofs5.
Import ListNotations.
Open Scope nat_scope.

Section Locate.
Variable E : env.
Variable label : loc_item -> Prop.
Notation located := (located E label).
Notation errs := (errs E label).
Notation tracks := (tracks E label).
Notation ctracks := (ctracks E label).

(** ** Scalars *)
Lemma accept_errs A i (m : matched A) s k : errs i m -> (forall a s, errs i (fst (k a s))) -> errs i (fst (accept m s k)).
Proof. intros M K. unfold accept. destruct m as [[a e]|e]; [apply K|exact M]. Qed.
Lemma lax_errs A i (r : vres A) : errs i r -> errs i (lax r). Proof. now destruct r. Qed.
Lemma maybe_errs v t e : maybe_as_string v t = VErr e -> errs (IPy v) (@VErr unit e).
Proof. unfold maybe_as_string. repeat brk; intros [= <-]. now apply (errs_val E label (A := unit)). Qed.
Ltac tr := repeat first [exact I | apply errs_val; reflexivity | eapply maybe_errs; eassumption | apply lax_errs | brk].
Lemma bool_tracks st : tracks (bool_validate st).
Proof. intros [v|j|k|v] s P; [| | |contradiction]; (apply accept_errs; [|intros; exact I]); unfold validate_bool, in_str_as_bool, in_int_as_bool; tr. Qed.
Lemma int_tracks md st c : tracks (int_validate md st c).
Proof. intros [v|j|k|v] s P; [| | |contradiction]; (apply accept_errs; [unfold validate_int, in_str_as_int, in_float_as_int; tr|intros; tr]). Qed.
Lemma float_tracks pf st c : tracks (float_validate pf st c).
Proof. intros [v|j|k|v] s P; [| | |contradiction]; (apply accept_errs; [unfold validate_float, in_str_as_float; cbv zeta; tr|intros; tr]). Qed.
Lemma str_tracks ps fs tl tu c : tracks (str_validate ps fs tl tu c).
Proof. intros [v|j|k|v] s P; [| | |contradiction]; (apply accept_errs; [unfold validate_str; tr|intros; cbv zeta; tr]). Qed.
Lemma bytes_tracks c : tracks (bytes_validate c).
Proof. intros [v|j|k|v] s P; [| | |contradiction]; (apply accept_errs; [unfold validate_bytes, in_deserialize, strictly; tr|intros; tr]). Qed.
Lemma any_tracks : tracks any_validate. Proof. intros i s P. exact I. Qed.
Lemma none_tracks : tracks none_validate. Proof. intros i s P. unfold none_validate. tr. Qed.
Lemma is_instance_tracks sub cls : tracks (is_instance_validate sub cls). Proof. intros [v|j|k|v] s P; unfold is_instance_validate; tr. Qed.
Lemma lk_errs ps fs md lk i e : python_or_json i -> lk_validate ps fs md lk i = VErr e -> errs i (@VErr unit e).
Proof.
  intros P. unfold lk_validate. destruct (bool_slot _ _); [discriminate|]. destruct (int_slot _ _ _) as [[]|e'] eqn:IS; try discriminate.
  - destruct (str_slot _ _ _ _); [discriminate|]. destruct (pd_lookup _ _); [discriminate|]. destruct (values_slot _ _); discriminate.
  - intros [= ->]. unfold int_slot in IS. destruct (lk_int _); [discriminate|]. destruct (exact_int _ _) as [n|] eqn:X; [|discriminate].
    assert (V : PInt (int_value n) = input_object i).
    { destruct i as [v|j|k|v]; [| | |contradiction].
      - cbn in X. destruct v; try discriminate. now injection X as <-.
      - cbn in X. destruct j; try discriminate X. injection X as <-. unfold number_int. now destruct (fits_i64 _).
      - cbn in X. destruct (in_str_as_int _ _ _); discriminate X. }
    unfold into_i64 in IS. destruct (fits_i64 _); [discriminate|]. injection IS as <-. now apply (errs_val E label (A := unit)).
Qed.

(** ** Wrappers *)
Lemma nullable_tracks v : tracks v -> tracks (nullable v). Proof. intros T i s P. unfold nullable. destruct (is_none_input i); [exact I|now apply T]. Qed.
Lemma wd_ctracks n w : tracks (wd_inner w) -> wd_validate_default w = false -> ctracks (wd_cv n w).
Proof.
  intros T V.
  assert (D : forall val l s, match default_value val w l s with Some (VErr e, _) => plain_err e | _ => True end).
  { intros val l s. unfold default_value. destruct (stored_default _ _) as [[d|]|e] eqn:SD; [rewrite V; exact I|exact I|].
    unfold stored_default in SD. destruct (wd_default_kind w) as [|d|f td]; try discriminate. destruct (f _); [discriminate|]. now injection SD as <-. }
  split; cbn [wd_cv cv_validate cv_default].
  - intros i s P. destruct n as [|n]; [exact I|]. cbn [wd_validate]. cbv zeta.
    assert (U : forall e s', errs i (@VErr unit e) -> errs i (fst (match
        match default_value (wd_validate n w) w None s' with None => None | Some (VErr e', s') => Some (VErr e', s') | Some (VOk (Some v), s') => Some (VOk v, s') | Some (VOk None, s') => Some (VErr e, s') end
        with Some r => r | None => (VErr (A := pyval) Panic, s) end))).
    { intros e s' H. specialize (D (wd_validate n w) None s'). destruct (default_value _ _ _ _) as [[[[d|]|e'] s'']|]; try exact I; [exact H|]. now apply errs_plain. }
    destruct (is_undefined i); [now apply (U Panic)|]. pose proof (T i s P) as Q. destruct (wd_inner w i s) as [[v|e] s']; [exact I|]. cbn in Q.
    destruct e as [l| | | |]; try exact I; [|destruct (wd_on_error w); try exact I; now apply (U (InternalErr _))|destruct (wd_on_error w); try exact I; now apply (U Omit)|now apply (U UseDefault)].
    destruct (wd_on_error w); [exact Q|exact I|now apply (U (LineErrors l))].
  - intros l s e. specialize (D (wd_validate n w) l s). destruct (default_value _ _ _ _) as [[[d|e'] s'']|]; cbn; [discriminate|intros [= <-]; exact D|intros [= <-]; exact I].
Qed.
Lemma chain_tracks l : Forall tracks l -> length l <= 1 -> tracks (chain_validate l).
Proof.
  intros F L i s P. destruct F as [|v l T F]; [exact I|]. destruct l; [|cbn in L; lia]. cbn. pose proof (T i s P) as Q. destruct (v i s) as [[x|e] s']; [exact I|exact Q].
Qed.
Lemma jop_tracks j p : tracks j -> tracks p -> tracks (json_or_python j p). Proof. intros T1 T2 i s P. unfold json_or_python. destruct (x_input_type _); auto. Qed.
Lemma los_tracks st l t : tracks l -> tracks t -> tracks (lax_or_strict st l t).
Proof.
  intros T1 T2 i s P. unfold lax_or_strict. destruct (strict_or s st); [now apply T2|]. destruct (st_exactness s) as [ex|]; [|now apply T1]. pose proof (T2 i s P) as Q. destruct (t i s) as [[x|er] s1]; [exact I|].
  destruct er; try exact I; now apply T1.
Qed.
Lemma custom_tracks t v : tracks (custom_error t v).
Proof. intros i s P. unfold custom_error. destruct (v i s) as [[x|e] s']; [exact I|]. destruct e; try exact I; now apply (errs_val E label (A := pyval)). Qed.
Lemma convert_errs i e : (forall l, e <> XValidation l) -> errs i (@VErr pyval (convert_err e i)).
Proof. intros H. destruct e as [| |t| | |es| | |n]; cbn; try exact I; try now apply (errs_val E label (A := pyval)). now destruct (H es). Qed.
Lemma call_errs f own v i s : (forall v inf l, f v inf <> inr (XValidation l)) -> errs i (call_fun f own v i s).
Proof. intros H. unfold call_fun. destruct (f _ _) as [x|e] eqn:F; [exact I|]. apply convert_errs. intros l ->. exact (H _ _ _ F). Qed.
Lemma after_tracks f own v : (forall v inf l, f v inf <> inr (XValidation l)) -> tracks v -> tracks (function_after f own v).
Proof. intros H T i s P. unfold function_after. pose proof (T i s P) as Q. destruct (v i s) as [[x|e] s']; [now apply call_errs|exact Q]. Qed.
Lemma plain_tracks f own : (forall v inf l, f v inf <> inr (XValidation l)) -> tracks (function_plain f own).
Proof. intros H i s P. now apply call_errs. Qed.

(** ** Unions *)
Definition choice_at (c : choice) : Prop := tracks (ch_validator c) /\ label (LStr (ch_label c)).
Definition members_at (i : input) (es : member_errors) : Prop := Forall (fun e => label (LStr (fst e)) /\ Forall (located i) (snd e)) es.
Lemma push_at i custom es c l : choice_at c -> Forall (located i) l -> members_at i es -> members_at i (push_errors custom es c l).
Proof. intros [_ L] F M. unfold push_errors. destruct custom; [exact M|]. apply Forall_app. split; [exact M|]. constructor; [now split|constructor]. Qed.
Lemma into_at i custom es : members_at i es -> errs i (@VErr pyval (into_val_error custom es i)).
Proof.
  intros M. unfold into_val_error. destruct custom; [now apply (errs_val E label (A := pyval))|]. cbn. apply Forall_flat_map. eapply Forall_impl; [|exact M].
  intros [n l] [L F]. cbn in *. clear - L F. induction F; constructor; auto. now apply located_label.
Qed.
Lemma smart_at custom oe on i cs : python_or_json i -> Forall choice_at cs -> forall best es s, members_at i es ->
  match smart_loop custom oe on cs i best es s with Returned r _ => errs i r | Tried _ es' _ => members_at i es' end.
Proof.
  intros P X. induction X as [|c cs Y X IH]; intros best es s M; cbn [smart_loop]; [exact M|].
  pose proof (proj1 Y i (set_fields_set None (set_exactness (Some Exact) s)) P) as Q. destruct (ch_validator c i _) as [[v|e] s1].
  - destruct (st_exactness s1) as [[]|], (st_fields_set s1); cbv zeta; try exact I; now apply IH.
  - cbn in Q. destruct e as [l| | | |]; try exact I. apply IH. destruct best; [exact M|now apply push_at].
Qed.
Lemma smart_tracks custom cs : Forall choice_at cs -> tracks (validate_smart custom cs).
Proof.
  intros X i s P. unfold validate_smart. pose proof (smart_at custom (st_exactness s) (st_fields_set s) i cs P X None [] s (Forall_nil _)) as Q.
  destruct (smart_loop _ _ _ _ _ _ _ _) as [best es s1|r s1]; [|exact Q]. cbv zeta. destruct best as [[[v e] n]|]; [exact I|]. now apply into_at.
Qed.
Lemma ltr_tracks custom cs : Forall choice_at cs -> tracks (validate_left_to_right custom cs).
Proof.
  intros X i s P. unfold validate_left_to_right. assert (M : members_at i []) by constructor. revert M. generalize (@nil (str * list line_error)) as es. revert s.
  induction X as [|c cs Y X IH]; intros s es M; cbn [ltr_loop]; [now apply into_at|]. pose proof (proj1 Y i s P) as Q. destruct (ch_validator c i s) as [[v|e] s1]; [exact I|]. cbn in Q.
  destruct e as [l| | | |]; try exact I. apply IH. now apply push_at.
Qed.
Lemma outer_label i n l : label n -> Forall (located i) l -> Forall (located i) (map (with_outer n) l).
Proof. intros L F. induction F; constructor; auto. now apply located_label. Qed.
Lemma find_tracks ps fs md custom choices tag i s : python_or_json i -> Forall (fun c => tracks (snd c)) choices ->
  (forall t, In t (map fst choices) -> py_eq t tag = true -> label (py_loc (e_repr E) tag)) -> errs i (fst (find_call_validator (e_repr E) ps fs md custom choices tag i s)).
Proof.
  intros P X L. unfold find_call_validator. destruct (lk_validate _ _ _ _ _) as [[id|]|e] eqn:K; try (destruct custom; now apply (errs_val E label (A := pyval))).
  destruct (nth_error choices id) as [[t v]|] eqn:N; [|exact I]. rewrite Forall_forall in X. pose proof (X _ (nth_error_In _ _ N) i s P) as Q. cbn in Q.
  destruct (v i s) as [[r|e] s']; [exact I|]. cbn in Q. destruct e as [l| | | |]; try exact I. cbn. apply outer_label; [|exact Q].
  destruct (lookup_sound _ _ _ _ _ _ K) as (k & e & In1 & _ & EQ & _). exact (L _ In1 EQ).
Qed.
Lemma tagged_tracks ps fs md d fa custom choices : Forall (fun c => tracks (snd c)) choices ->
  (forall t v, In t (map fst choices) -> py_eq t v = true -> label (py_loc (e_repr E) v)) ->
  tracks (tagged_union_validate (e_repr E) (e_getattr E) ps fs md d fa custom choices).
Proof.
  intros X L i s P. unfold tagged_union_validate. destruct d as [k|f].
  - cbv zeta. destruct (validate_model_fields _ _ _ _ i) as [m|e] eqn:V.
    + pose proof (model_fields_at E label _ _ _ _ P V) as M. destruct (md_get m k) as [[[p x]|]|e] eqn:G.
      * apply find_tracks; [exact P|exact X|]. intros t. apply L.
      * unfold tag_not_found. destruct custom; now apply (errs_val E label (A := pyval)).
      * destruct (lookup_errs E label i m M _ _ G) as (l & -> & F & _). exact F.
    + destruct (mf_err _ _ _ _ _ V) as [t ->]. now apply (errs_val E label (A := pyval)).
  - destruct (f _) as [[]|e]; try exact I; try (apply find_tracks; [exact P|exact X|intros t0; apply L]). unfold tag_not_found. destruct custom; now apply (errs_val E label (A := pyval)).
Qed.

(** ** Classes *)
Lemma post_errs f inst i : (forall g, f = Some g -> no_validation_error g) -> errs i (call_post_init f inst i).
Proof. intros H. unfold call_post_init. destruct f as [g|]; [|exact I]. destruct (g inst) as [v|e] eqn:G; [exact I|]. apply convert_errs. intros l ->. exact (H _ eq_refl _ _ G). Qed.
Lemma model_tracks sub c v : mo_revalidate c = RNever -> mo_origin c = None -> (forall f, mo_custom_init c = Some f -> no_validation_error f) -> (forall f, mo_post_init c = Some f -> no_validation_error f) ->
  tracks v -> tracks (model_validate sub c v).
Proof.
  intros R O CI PI T i s P. unfold model_validate. rewrite R, O. cbn [should_revalidate orb].
  assert (K : forall s, errs i (fst (model_construct c v i None s))).
  { clear s. intros s. unfold model_construct. destruct (mo_custom_init c) as [f|] eqn:F; [destruct (as_kwargs i) as [kw|]; [destruct (f kw) as [x|e] eqn:FK; [exact I|]|]|].
    1: { apply convert_errs. intros l ->. exact (CI _ eq_refl _ _ FK). }
    all: destruct (mo_root c); [match goal with |- context [rebind ?a ?b ?d] => pose proof (rebind_errs E label i a b d (fun s => T i s P)) as Q; destruct (rebind a b d) as [[x|e] s'] end; [now apply post_errs|exact Q]
      | pose proof (T i s P) as Q; destruct (v i s) as [[x|e] s']; [|exact Q]; unfold build_model; cbn [fst]; repeat (brk; try exact I); now apply post_errs]. }
  unfold instance_input. destruct i; try apply K. destruct (is_instance _ _ _); [exact I|apply K].
Qed.
Lemma set_dict_errs c out i : (forall f, da_post_init c = Some f -> forall v l es, f v l <> inr (XValidation es)) -> errs i (set_dict_call c out i).
Proof.
  intros H. unfold set_dict_call. cbv zeta. destruct (da_post_init c) as [f|]; [specialize (H _ eq_refl)|]; repeat (brk; try exact I);
    (apply convert_errs; intros es ->; match goal with Q : f _ _ = inr _ |- _ => exact (H _ _ _ Q) end).
Qed.
Lemma dataclass_tracks sub c v : da_revalidate c = RNever -> da_origin c = None -> (forall f, da_post_init c = Some f -> forall v l es, f v l <> inr (XValidation es)) ->
  tracks v -> tracks (dataclass_validate sub c v).
Proof.
  intros R O PI T i s P. unfold dataclass_validate. rewrite R, O. cbn [should_revalidate orb].
  assert (K : errs i (fst (if strict_or s (da_strict c) && match x_input_type (st_extra s) with ITPython => true | _ => false end
      then (val_err (EOther 2) i, s) else match v i s with (VErr e, s') => (VErr e, s') | (VOk out, s') => (set_dict_call c out i, floor_exactness Strict s') end))).
  { destruct (_ && _); [now apply (errs_val E label (A := pyval))|]. pose proof (T i s P) as Q. destruct (v i s) as [[x|e] s']; [now apply set_dict_errs|exact Q]. }
  unfold instance_input. destruct i; try exact K. destruct (is_instance _ _ _); [exact I|exact K].
Qed.

(** ** Schemas *)
Lemma dict_err b i e : validate_dict (e_repr E) b i = VErr e -> exists t, e = LineErrors [new_error t i].
Proof. intros H. apply (mf_err E b false i). destruct i; exact H. Qed.
Lemma entries_read b i : python_or_json i -> errs i (dict_entries (e_repr E) b i) /\ forall es, dict_entries (e_repr E) b i = VOk es -> Forall (entry_at E i) es.
Proof.
  intros P. unfold dict_entries. destruct (validate_dict _ b i) as [md|e] eqn:V.
  - pose proof (dict_at_md E label _ _ _ P V) as M. split; [destruct (ma_iter_ok _ _ _ _ M) as [es ->]; exact I|]. intros es. exact (iter_entries _ _ _ _ _ M).
  - destruct (dict_err _ _ _ V) as [t ->]. split; [now apply (errs_val E label (A := list entry))|discriminate].
Qed.
Lemma eval_tracks ref : (forall k, ctracks (ref k)) -> forall sc, everywhere (locatable E label) sc -> ctracks (eval E ref sc).
Proof.
  intros RN. apply (schema_children_ind (fun sc => everywhere (locatable E label) sc -> ctracks (eval E ref sc))).
  intros sc IH W. destruct W as [sc U W].
  assert (C : forall c, In c (children sc) -> ctracks (eval E ref c)) by auto. clear IH W.
  assert (CV : forall c, In c (children sc) -> tracks (cv_validate (eval E ref c))) by (intros c Cc; apply C, Cc).
  assert (CO : forall o v, (forall x, In x (opt_list o) -> In x (children sc)) -> option_map (fun sc => cv_validate (eval E ref sc)) o = Some v -> tracks v).
  { intros [x|] v X; [|discriminate]. intros [= <-]. apply CV, X. now left. }
  destruct sc; cbn [eval children locatable] in *; try contradiction U; try apply nd_tracks.
  - apply any_tracks.
  - apply none_tracks.
  - apply bool_tracks.
  - apply int_tracks.
  - apply float_tracks.
  - apply str_tracks.
  - apply bytes_tracks.
  - intros i s P. unfold literal_validate. destruct (lk_validate _ _ _ _ i) as [[x|]|x] eqn:L; [destruct (nth_error _ x); exact I|now apply (errs_val E label (A := pyval))|]. exact (lk_errs _ _ _ _ _ _ P L).
  - apply is_instance_tracks.
  - apply list_tracks; [|apply list_reads]. intros v. apply CO. auto.
  - apply set_tracks; [apply CV; now left|]. destruct frozen; [apply frozenset_reads|apply set_reads].
  - apply tuple_tracks; [| |apply tuple_reads]; cbn; [apply forall_in; exact C|]. intros k K. rewrite K in U. now rewrite map_length.
  - apply dict_tracks; [apply CV; now left|apply CV; right; now left|]. intros b i P. now apply entries_read.
  - apply nullable_tracks, CV. now left.
  - apply wd_ctracks; [apply CV; now left|exact U].
  - apply chain_tracks; [apply forall_in; exact CV|now rewrite map_length].
  - apply jop_tracks; apply CV; [now left|right; now left].
  - apply los_tracks; apply CV; [now left|right; now left].
  - apply custom_tracks.
  - apply after_tracks; [exact U|]. apply CV. now left.
  - apply plain_tracks. exact U.
  - cbv zeta. assert (CH : Forall choice_at (map (fun cl => {| ch_validator := cv_validate (eval E ref (fst cl)); ch_label := snd cl |}) choices)).
    { apply forall_in. intros [x l] X. split; cbn; [|exact (U _ _ X)]. apply CV, in_map_iff. now exists (x, l). }
    destruct mode; [now apply smart_tracks|now apply ltr_tracks].
  - apply tagged_tracks.
    + apply forall_in. intros [t x] X. apply CV, in_map_iff. now exists (t, x).
    + intros t v. rewrite map_map. cbn. intros H. apply in_map_iff in H. destruct H as ([t' x] & <- & X). exact (U _ _ _ X).
  - destruct U as (U1 & -> & U3). rewrite Forall_forall in U3. apply model_fields_tracks; cbn; [exact U1|reflexivity| | |].
    + apply forall_in. intros [f x] X. split; [apply C, in_or_app; left; apply in_map_iff; now exists (f, x)|exact (U3 _ X)].
    + intros v. apply CO. intros x X. apply in_or_app. right. apply in_or_app. now left.
    + intros b fa i P. split; [intros md V; exact (model_fields_at E label _ _ _ _ P V)|apply mf_err].
  - destruct U as (U1 & U3). rewrite Forall_forall in U3. apply typed_dict_tracks; cbn; [exact U1| | |].
    + apply forall_in. intros [f x] X. split; [apply C, in_or_app; left; apply in_map_iff; now exists (f, x)|exact (U3 _ X)].
    + intros v. apply CO. intros x X. apply in_or_app. now right.
    + intros b i P. split; [intros md V; exact (dict_at_md E label _ _ _ P V)|apply dict_err].
  - destruct U as (U1 & U2 & U3). rewrite Forall_forall in U3. apply arguments_tracks; cbn; [exact U1|exact U2| | | |apply validate_args_at].
    + apply forall_in. intros [f x] X. split; [apply C, in_or_app; left; apply in_map_iff; now exists (f, x)|exact (U3 _ X)].
    + intros v. apply CO. intros x X. apply in_or_app. right. apply in_or_app. now left.
    + intros v. apply CO. intros x X. apply in_or_app. right. apply in_or_app. now right.
  - destruct U as (U1 & U3). rewrite Forall_forall in U3. apply dataclass_args_tracks; cbn; [exact U1| | |apply validate_dargs_at].
    + apply forall_in. intros [f x] X. split; [apply C, in_or_app; left; apply in_map_iff; now exists (f, x)|exact (U3 _ X)].
    + intros v. apply CO. intros x X. apply in_or_app. now right.
  - destruct U as (U1 & U2 & U3 & U4). apply model_tracks; auto. apply CV. now left.
  - destruct U as (U1 & U2 & U3). apply dataclass_tracks; auto. apply CV. now left.
  - apply RN.
Qed.

Variable defs : nat -> option schema.
Hypothesis D : forall k d, defs k = Some d -> everywhere (locatable E label) d.
Lemma refs_tracks : forall fuel depth k, ctracks (refs E defs fuel depth k).
Proof.
  assert (B : ctracks {| cv_validate := fun _ s => (VErr Panic, s); cv_default := fun _ s => (VErr Panic, s) |}) by (split; [intros i s P; exact I|cbn; intros l s e [= <-]; exact I]).
  induction fuel as [|fuel IH]; intros depth k; cbn [refs]; [exact B|].
  destruct (defs k) as [sc|] eqn:K; [|exact B].
  assert (V : forall d, ctracks (eval E (refs E defs fuel d) sc)) by (intros d; apply eval_tracks; [apply IH|exact (D _ _ K)]).
  split.
  - intros i s P. cbn [cv_validate]. cbv zeta. destruct i; try (destruct (_ <=? _); [now apply (errs_val E label (A := pyval))|]); now apply (proj1 (V _)).
  - cbn [cv_default]. exact (proj2 (V _)).
Qed.
Lemma run_tracks fuel sc : everywhere (locatable E label) sc -> tracks (run E defs fuel sc).
Proof. intros W. apply (eval_tracks (refs E defs fuel 0)); [apply refs_tracks|exact W]. Qed.
End Locate.

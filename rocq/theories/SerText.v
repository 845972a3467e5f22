(** Every JSON value the serializers write has well-formed strings, and the floats the
    ser_json_inf_nan modes allow. *)
From Coq Require Import List NArith ZArith Bool Lia.
From Verif Require Import Base Float64 Utf8 Decimal Values BytesCodec Filter LookupKey Classes JsonText SerBase Ser SerInd SerSpec SerPure.
Import ListNotations.
Open Scope nat_scope.

Lemma scalars_app a b : scalars a -> scalars b -> scalars (a ++ b).
Proof. intros. now apply Forall_app. Qed.
Lemma scalars_below s : Forall (fun c => (c < 55296)%N) s -> scalars s.
Proof. apply Forall_impl. intros c H. apply scalar_spec. now left. Qed.
Lemma scalars_b s : forallb scalar s = true -> scalars s.
Proof. intros H. apply Forall_forall. intros c I. exact (proj1 (forallb_forall _ _) H c I). Qed.
Lemma scalars_lossy s : scalars (lossy s).
Proof.
  induction s as [|c s IH]; [constructor|]. change (lossy (c :: s)) with ((if scalar c then [c] else [65533; 65533; 65533]%N) ++ lossy s).
  apply scalars_app; [|exact IH]. destruct (scalar c) eqn:S; repeat constructor. exact S.
Qed.
Lemma scalars_join l : Forall scalars l -> scalars (key_join l).
Proof.
  unfold key_join. assert (G : forall st, scalars (fst st) -> Forall scalars l -> scalars (fst (fold_left key_push l st))).
  { induction l as [|s l IH]; intros st A F; [exact A|]. inversion F; subst. apply IH; [|assumption]. unfold key_push. cbn [fst]. destruct (snd st); [now apply scalars_app|].
    apply scalars_app; [assumption|]. apply scalars_app; [|assumption]. repeat constructor. }
  apply G. constructor.
Qed.
Lemma hex_char_below n : (n < 16 -> hex_char n < 55296)%N.
Proof. unfold hex_char. destruct (N.ltb n 10); lia. Qed.
Lemma sym_below al n : (sym al n < 55296)%N.
Proof.
  unfold sym. destruct (N.ltb_spec n 26); [lia|]. destruct (N.ltb_spec n 52); [lia|]. destruct (N.ltb_spec n 62); [lia|]. destruct al; destruct (N.eqb n 62); lia.
Qed.
Lemma scalars_b64 al n : forall bs, length bs <= n -> Forall (fun c => (c < 55296)%N) (b64_encode al bs).
Proof.
  induction n as [|n IH]; intros [|x [|y [|z r]]] H; cbn [b64_encode]; cbn [length] in H; try (exfalso; lia);
    repeat (constructor; [first [apply sym_below|now unfold pad]|]); try (now constructor). apply IH. lia.
Qed.
Lemma scalars_bytes m b s : bytes_to_string m b = Some s -> scalars s.
Proof.
  destruct m; cbn [bytes_to_string]; [apply from_utf8_sound| |]; intros [= <-]; apply scalars_below.
  - now apply (scalars_b64 _ (length b)).
  - unfold hex_encode. apply Forall_forall. intros c I. apply in_flat_map in I. destruct I as [x [_ I]].
    destruct I as [<-|[<-|[]]]; apply hex_char_below; apply N.mod_lt; discriminate.
Qed.
Lemma scalars_dec z : scalars (dec_Z z).
Proof.
  assert (D : forall n, scalars (dec_N n)).
  { intros n. apply scalars_below. eapply Forall_impl; [|apply dec_N_digits]. intros c H. apply is_digit_spec in H. lia. }
  unfold dec_Z. destruct z; [repeat constructor|apply D|]. apply Forall_cons; [reflexivity|apply D].
Qed.

Section Text.
Variable E : env.
Variable F : f64 -> Prop.
Variable ok : inf_nan_mode -> bool.
Hypothesis Fok : forall m f, ok m = true -> nonfinite f = true -> m = IConstants -> F f.
Hypothesis Ffin : forall f, nonfinite f = false -> F f.
Variable q : ser -> bool.
Hypothesis Qfloat : forall m, q (SerFloat m) = true -> ok m = true.
Hypothesis Qnames : forall s, q s = true -> names_ok s = true.
Hypothesis QE : env_all q E.
Hypothesis QC : env_config ok E.

Definition XI (x : extra) : Prop := ok (c_inf_nan (x_config x)) = true.
Definition JO (l : list (str * json)) : Prop := Forall (fun kv => scalars (fst kv) /\ textual F (snd kv)) l.

Lemma text_float m f : ok m = true -> textual F (float_js m f).
Proof.
  intros H. unfold float_js. destruct (nonfinite f) eqn:N; [|constructor; auto]. destruct m; constructor; eauto. 
  destruct (f_is_nan f); [repeat constructor|]. destruct f as [| [] | |]; repeat constructor.
Qed.
Lemma post_filtered_js f inc exc len (e : pyval -> option fval -> option fval -> M json) l : forall i,
  (forall v a b, Post (e v a b) (textual F)) -> Post (filtered f inc exc len e i l) (Forall (textual F)).
Proof.
  induction l as [|v l IH]; intros i H; cbn [filtered]; [apply post_ret; constructor|]. apply post_then. intros [[a b]|]; [|auto].
  eapply post_bind; [apply H|intros]. eapply post_bind; [now apply IH|intros]. apply post_ret. fin.
Qed.
Lemma post_filtered_key f inc exc len (e : pyval -> option fval -> option fval -> M str) l : forall i,
  (forall v a b, Post (e v a b) scalars) -> Post (filtered f inc exc len e i l) (Forall scalars).
Proof.
  induction l as [|v l IH]; intros i H; cbn [filtered]; [apply post_ret; constructor|]. apply post_then. intros [[a b]|]; [|auto].
  eapply post_bind; [apply H|intros]. eapply post_bind; [now apply IH|intros]. apply post_ret. fin.
Qed.
Lemma post_mapM' {A B} (e : A -> M B) (P : B -> Prop) l : (forall v, Post (e v) P) -> Post (mapM e l) (Forall P).
Proof.
  intros H. induction l as [|v l IH]; cbn [mapM]; [apply post_ret; constructor|].
  eapply post_bind; [apply H|intros]. eapply post_bind; [exact IH|intros]. apply post_ret. fin.
Qed.
Lemma post_pairs_js f inc exc key e l :
  (forall k, Post (key k) scalars) -> (forall v a b, Post (e v a b) (textual F)) -> Post (pairs_js f inc exc key e l) JO.
Proof.
  intros HK H. induction l as [|[k v] l IH]; cbn [pairs_js]; [apply post_ret; constructor|]. apply post_then. intros w. apply post_then. intros [[a b]|]; [|auto].
  eapply post_bind; [apply HK|intros]. eapply post_bind; [apply H|intros]. eapply post_bind; [exact IH|intros]. apply post_ret. constructor; auto.
Qed.
Lemma post_zip' {A} (P : A -> Prop) f inc exc len (e : sz -> pyval -> option fval -> option fval -> M A) ss : forall i l,
  Forall (fun s => forall v a b, Post (e s v a b) P) ss -> Post (zip_items f inc exc len e i ss l) (Forall P).
Proof.
  induction ss as [|s ss IH]; intros i l H; cbn [zip_items]; [apply post_ret; constructor|]. inversion H; subst. destruct l as [|v l]; [apply post_ret; constructor|].
  apply post_then. intros [[a b]|]; [|auto].
  eapply post_bind; [apply H2|intros]. eapply post_bind; [now apply IH|intros]. apply post_ret. fin.
Qed.
Lemma post_filtered' {A} (P : A -> Prop) f inc exc len (e : pyval -> option fval -> option fval -> M A) l : forall i,
  (forall v a b, Post (e v a b) P) -> Post (filtered f inc exc len e i l) (Forall P).
Proof.
  induction l as [|v l IH]; intros i H; cbn [filtered]; [apply post_ret; constructor|]. apply post_then. intros [[a b]|]; [|auto].
  eapply post_bind; [apply H|intros]. eapply post_bind; [now apply IH|intros]. apply post_ret. fin.
Qed.
Lemma post_tuple_each' {A} (P : A -> Prop) L f ss vr (e : sz -> pyval -> option fval -> option fval -> M A) inc exc x l :
  Forall (fun s => forall v a b, Post (e s v a b) P) (any_ser L :: ss) -> Post (tuple_each L f ss vr e inc exc x l) (Forall P).
Proof.
  intros H. inversion H as [|? ? HA HS]; subst. unfold tuple_each. destruct vr as [k|].
  - apply post_zip'. unfold tuple_serializers. apply Forall_app; split; [now apply Forall_firstn|]. apply Forall_app; split.
    + apply Forall_forall. intros s I. apply repeat_spec in I. subst. destruct (nth_in_or_default k ss (any_ser L)) as [I|I]; [|now rewrite I].
      now apply (proj1 (Forall_forall _ _) HS).
    + now apply Forall_skipn.
  - destruct (_ && _); [apply post_fail|]. eapply post_bind; [apply post_zip', HS|]. intros r R. destruct (skipn _ l) eqn:Sk; [now apply post_ret|].
    apply post_then. intros _. eapply post_bind; [apply post_filtered', HA|]. intros r' R'. apply post_ret. now apply Forall_app.
Qed.

Lemma post_to_str s : Post (to_str s) scalars.
Proof. unfold to_str. destruct (forallb scalar s) eqn:H; [apply post_ret; now apply scalars_b|apply post_fail]. Qed.
Lemma post_key_str k : Post (key_str k) scalars.
Proof. unfold key_str. apply post_then. intros. apply post_to_str. Qed.
Lemma post_str_key v : Post (str_key E v) scalars.
Proof. unfold str_key. apply post_then. intros. apply post_ret. apply scalars_lossy. Qed.
Lemma post_bytes m b : Post (opt (bytes_to_string m b)) scalars.
Proof. destruct (bytes_to_string m b) eqn:H; [apply post_ret; eauto using scalars_bytes|apply post_fail]. Qed.
Lemma post_js_str (m : M str) : Post m scalars -> Post (s <- m ;; ret (JStr s)) (textual F).
Proof. intros H. eapply post_bind; [exact H|]. intros. apply post_ret. now constructor. Qed.
Lemma scalars_bool v : scalars (bool_key v).
Proof. unfold bool_key. destruct (base v) as [|[]| | | | | | | | | | |]; repeat constructor. Qed.
Lemma scalars_none : scalars none_key.
Proof. repeat constructor. Qed.
Lemma scalars_unknown v : scalars (unknown_text E v).
Proof. unfold unknown_text. destruct (py_str E v); [apply scalars_lossy|repeat constructor]. Qed.
Lemma post_json_text m : Post (json_text_of E m) scalars.
Proof.
  unfold json_text_of. apply post_then. intros j. destruct (to_json_text _ _ j) as [b|]; [|apply post_fail]. destruct (from_utf8 b) as [s|] eqn:U; [|apply post_fail].
  apply post_ret. exact (proj2 (from_utf8_sound _ _ U)).
Qed.

Definition text_main (f : fmain) : Prop :=
  (forall l inc exc x, XI x -> Post (m_js f l inc exc x) JO) /\
  (forall m inc exc x, XI x -> Post (m_comp_js f m inc exc x) JO).
Definition text_sz (s : sz) : Prop :=
  (forall v inc exc x, XI x -> Post (z_js s v inc exc x) (textual F)) /\
  (forall v x, XI x -> Post (z_key s v x) scalars) /\ on_opt text_main (z_main s).
Definition text_level (L : level) : Prop :=
  (forall v inc exc x, XI x -> Post (l_js L v inc exc x) (textual F)) /\
  (forall v x, XI x -> Post (l_key L v x) scalars) /\
  (forall k v inc exc x, XI x -> Post (l_def_js L k v inc exc x) (textual F)) /\
  (forall k v x, XI x -> Post (l_def_key L k v x) scalars).

Section Build.
Variable L : level.
Hypothesis PL : text_level L.
Let Ljs : forall v inc exc x, XI x -> Post (l_js L v inc exc x) (textual F). Proof. apply PL. Qed.
Let Lk : forall v x, XI x -> Post (l_key L v x) scalars. Proof. apply PL. Qed.

Lemma text_fall v inc exc x : XI x -> Post (fall_js L v inc exc x) (textual F).
Proof. intros. apply post_then. auto. Qed.
Lemma text_fall_key v x : XI x -> Post (fall_key L v x) scalars.
Proof. intros. apply post_then. auto. Qed.
Lemma text_invalid v x : XI x -> Post (invalid_key L v x) scalars.
Proof. intros. unfold invalid_key. destruct v; try (apply post_then; auto). apply post_fail. Qed.
Lemma text_any : text_sz (any_ser L).
Proof. split; [apply Ljs|split; [apply Lk|exact I]]. Qed.
Lemma text_simple py js key r : (forall v inc exc x, XI x -> Post (js v inc exc x) (textual F)) -> (forall v x, XI x -> Post (key v x) scalars) ->
  text_sz (simple py js key r).
Proof. intros A B. exact (conj A (conj B I)). Qed.

Section FieldsText.
Variable mode : fields_mode.
Variable fields : list (str * field sz).
Variable comp : list (computed sz).
Hypothesis AF : forallb (fun kf => match f_alias (snd kf) with Some a => name_ok a | None => true end) fields = true.
Hypothesis AC : forallb (fun c => name_ok (cf_name c) && name_ok (cf_alias c)) comp = true.
Hypothesis QF : Forall (fun kf => on_opt text_sz (f_ser (snd kf))) fields.
Hypothesis QCm : Forall (fun c => text_sz (cf_ser c)) comp.

Lemma text_field n f : assoc n fields = Some f -> on_opt text_sz (f_ser f) /\ on_opt (fun a => name_ok a = true) (f_alias f).
Proof.
  clear - QF AF. induction fields as [|[k g] l IH]; cbn [assoc]; [discriminate|]. inversion QF; subst. cbn [forallb snd] in AF. apply andb_prop in AF.
  destruct AF as [A1 A2]. destruct (str_eqb _ _); [|auto]. intros [= <-]. split; [assumption|]. destruct (f_alias g); [exact A1|exact I].
Qed.
Lemma post_main_js l inc exc x : XI x -> Post (main_to_json L mode fields l inc exc x) JO.
Proof.
  intros J. induction l as [|[k v] l IH]; cbn [main_to_json]; [apply post_ret; constructor|]. apply post_then. intros w.
  destruct (_ && _); [exact IH|]. eapply post_bind; [apply post_key_str|]. intros ks S. apply post_then. intros [[ni ne]|]; [|exact IH].
  destruct (assoc ks fields) as [f|] eqn:A.
  - apply text_field in A. destruct A as [A B]. destruct (f_ser f) as [s|]; [|exact IH]. destruct (is_default w x s); [exact IH|].
    eapply post_bind; [now apply (proj1 A)|intros p Hp]. eapply post_bind; [exact IH|intros r R]. apply post_ret. constructor; [split; [|exact Hp]|exact R]. cbn [fst].
    unfold out_key. destruct (by_alias_or _ _); [|exact S]. destruct (f_alias f); [now apply scalars_b|exact S].
  - destruct (is_td_allow mode); [|exact IH].
    eapply post_bind; [now apply Lk|intros k' Hk]. eapply post_bind; [now apply Ljs|intros p Hp]. eapply post_bind; [exact IH|intros r R]. apply post_ret. now repeat constructor.
Qed.
Lemma post_extras_js l inc exc x : XI x -> Post (extras_js L l inc exc x) JO.
Proof.
  intros J. induction l as [|[k v] l IH]; cbn [extras_js]; [apply post_ret; constructor|]. destruct (_ && _); [exact IH|]. apply post_then. intros [[ni ne]|]; [|exact IH].
  eapply post_bind; [now apply Lk|intros k' Hk]. eapply post_bind; [now apply Ljs|intros p Hp]. eapply post_bind; [exact IH|intros r R]. apply post_ret. now repeat constructor.
Qed.
Lemma post_comp_js m inc exc x : XI x -> Post (comp_to_json E comp m inc exc x) JO.
Proof.
  intros J. unfold comp_to_json. destruct m as [m|]; [|apply post_ret; constructor]. destruct (x_round_trip x); [apply post_ret; constructor|].
  revert AC QCm. induction comp as [|c l IH]; intros A Q; cbn [comp_js_loop]; [apply post_ret; constructor|]. cbn [forallb] in A. apply andb_prop in A. destruct A as [A1 A2].
  inversion Q; subst. specialize (IH A2 H2). apply post_then. intros [[ni ne]|]; [|exact IH]. apply post_then. intros w. destruct (x_exclude_none x && _); [exact IH|].
  eapply post_bind; [now apply (proj1 H1)|intros p Hp]. eapply post_bind; [exact IH|intros r R]. apply post_ret. constructor; [split; [|exact Hp]|exact R]. cbn [fst].
  apply andb_prop in A1. unfold comp_key. destruct (by_alias_or _ _); now apply scalars_b.
Qed.
Lemma text_fields extras : text_sz (fields_ser E L mode fields extras comp).
Proof.
  split; [|split; [apply text_invalid|exact (conj post_main_js post_comp_js)]]. intros v inc exc x J. cbn [z_js fields_ser].
  destruct (extract_dicts mode v) as [[main ext]|]; [|now apply text_fall]. destruct (td_inferred x); [now apply Ljs|].
  eapply post_bind; [now apply post_main_js|intros a A]. eapply post_bind with (Q := JO).
  - destruct ext; [now apply post_extras_js|apply post_ret; constructor].
  - intros b B. eapply post_bind; [now apply post_comp_js|intros c C]. apply post_ret. constructor. repeat (apply Forall_app; split); assumption.
Qed.
End FieldsText.

Lemma text_build s : all_ser q s = true -> text_sz (build E L s).
Proof.
  assert (AllF : forall l, Forall (fun s => all_ser q s = true -> text_sz (build E L s)) l -> forallb (all_ser q) l = true -> Forall text_sz (map (build E L) l)).
  { intros l G. induction G as [|s0 l H G IH]; cbn; intros Hq; [constructor|]. apply andb_prop in Hq. constructor; [now apply H|now apply IH]. }
  assert (AnyF : forall l, Forall text_sz l -> Forall text_sz (any_ser L :: l)) by (intros; constructor; [apply text_any|assumption]).
  induction s using ser_ind'; cbn [build all_ser]; intros Hq; try (apply andb_prop in Hq; destruct Hq as [Hq1 Hq]); try discriminate.
  - apply text_any.
  - apply text_simple; [intros v inc exc x J; destruct v; try (now apply text_fall); apply post_ret; constructor|].
    intros v x J. destruct v; try (now apply text_fall_key). apply post_ret. apply scalars_none.
  - apply text_simple; [intros v inc exc x J; destruct (get_int v); [apply post_ret; constructor|now apply text_fall]|].
    intros v x J. destruct (is_int_type v); [apply post_str_key|apply post_str_key|now apply text_fall_key].
  - apply text_simple; [intros v inc exc x J; destruct v; try (now apply text_fall); apply post_ret; constructor|].
    intros v x J. destruct (is_bool_type v); [apply post_ret; apply scalars_bool|now apply text_fall_key|now apply text_fall_key].
  - apply text_simple; [intros v inc exc x J; destruct (get_float v); [apply post_ret; apply text_float; auto|now apply text_fall]|].
    intros v x J. destruct (is_float_type v); [apply post_str_key|apply post_str_key|now apply text_fall_key].
  - apply text_simple; [intros v inc exc x J; destruct (down_str v); [apply post_js_str, post_to_str|now apply text_fall]|].
    intros v x J. destruct (down_str v); [apply post_ret, scalars_lossy|now apply text_fall_key].
  - apply text_simple; [intros v inc exc x J; destruct (down_bytes v); [apply post_js_str, post_bytes|now apply text_fall]|].
    intros v x J. destruct (down_bytes v); [apply post_bytes|now apply text_fall_key].
  - destruct (IHs Hq) as [A [B _]]. apply text_simple; [intros v inc exc x J; destruct v; try (now apply A); apply post_ret; constructor|].
    intros v x J. destruct v; try (now apply B). apply post_ret. apply scalars_none.
  - destruct (IHs Hq) as [A [B _]]. split; [exact A|split; [exact B|exact I]].
  - destruct (IHs Hq) as [A [B _]]. apply text_simple; [intros v inc exc x J|intros; now apply text_invalid]. destruct (down_list v); [|now apply text_fall].
    eapply post_bind; [apply post_filtered'; intros; now apply A|]. intros r R. apply post_ret. now constructor.
  - destruct (IHs Hq) as [A [B _]]. apply text_simple; [intros v inc exc x J|intros; now apply text_invalid]. destruct (down_set v); [|now apply text_fall].
    eapply post_bind; [apply post_mapM'; intros; now apply A|]. intros r R. apply post_ret. now constructor.
  - destruct (IHs Hq) as [A [B _]]. apply text_simple; [intros v inc exc x J|intros; now apply text_invalid]. destruct (down_frozenset v); [|now apply text_fall].
    eapply post_bind; [apply post_mapM'; intros; now apply A|]. intros r R. apply post_ret. now constructor.
  - pose proof (AnyF _ (AllF _ H Hq)) as A. apply text_simple; [intros v' inc exc x J|intros v' x J].
    + destruct (down_tuple v'); [|now apply text_fall]. eapply post_bind; [apply post_tuple_each'|intros r R; apply post_ret; constructor; exact R].
      eapply Forall_impl; [|exact A]. intros ? Hs; intros. now apply Hs.
    + destruct (down_tuple v'); [|now apply text_fall_key]. eapply post_bind; [apply post_tuple_each'|intros r R; apply post_ret; apply scalars_join; exact R].
      eapply Forall_impl; [|exact A]. intros ? Hs; intros. now apply Hs.
  - apply andb_prop in Hq. destruct Hq as [Hk Hv]. destruct (IHs1 Hk) as [_ [B _]]. destruct (IHs2 Hv) as [A _].
    apply text_simple; [intros v inc exc x J|intros; now apply text_invalid]. destruct (down_dict v); [|now apply text_fall].
    eapply post_bind; [apply post_pairs_js; [intros; now apply B|intros; now apply A]|]. intros r R. apply post_ret. now constructor.
  - apply andb_prop in Hq. destruct Hq as [Hq Hc]. apply andb_prop in Hq. destruct Hq as [Hf He]. apply Qnames in Hq1. cbn [names_ok] in Hq1. apply andb_prop in Hq1. destruct Hq1 as [N1 N2].
    apply text_fields.
    + clear - N1. induction fs as [|[k f] l IH]; cbn in *; [reflexivity|]. apply andb_prop in N1. destruct N1 as [A B]. apply andb_true_intro. split; [exact A|auto].
    + clear - N2. induction c as [|c l IH]; cbn in *; [reflexivity|]. apply andb_prop in N2. destruct N2 as [A B]. apply andb_true_intro. split; [exact A|auto].
    + clear - H Hf. induction H as [|[k f] l H G IH]; cbn; [constructor|]. cbn in Hf. apply andb_prop in Hf. constructor; [|now apply IH].
      cbn in *. destruct (f_ser f); [|exact I]. now apply H.
    + clear - H1 Hc. induction H1 as [|c l H G IH]; cbn; [constructor|]. cbn in Hc. apply andb_prop in Hc. constructor; [|now apply IH]. now apply H.
  - destruct (IHs Hq) as [A [B _]]. apply text_simple; cbv zeta; [intros v inc exc x J|intros v x J].
    + destruct (is_inferred _); [now apply Ljs|]. destruct r; [apply post_then; intros; now apply A|].
      destruct (class_allows _ _ _ _ _); [|now apply text_fall]. apply post_then. intros i. now apply A.
    + destruct (class_allows _ _ _ _ _); [|now apply text_fall_key]. unfold hashed_key. destruct (e_hash E v); [apply post_str_key|apply post_fail].
  - destruct (IHs Hq) as [A [B Mn]]. apply text_simple; cbv zeta; [intros v inc exc x J|intros v x J].
    + destruct (is_inferred _); [now apply Ljs|]. destruct (class_allows _ _ _ _ _); [|now apply text_fall]. destruct (z_main (build E L s)) as [fm|].
      * destruct Mn as [M1 M2]. eapply post_bind; [now apply M1|intros d D]. eapply post_bind; [now apply M2|intros d' D']. apply post_ret. constructor. now apply Forall_app.
      * apply post_then. intros i. now apply A.
    + destruct (class_allows _ _ _ _ _); [|now apply text_fall_key]. unfold hashed_key. destruct (e_hash E v); [apply post_str_key|apply post_fail].
  - apply text_simple; [intros v inc exc x J; apply post_then; intros [w|]; now apply Ljs|]. intros v x J. unfold or_infer. eapply post_bind.
    + apply post_union with (P := scalars). eapply Forall_impl; [|exact (AllF _ H Hq)]. intros ? Hs; intros. now apply Hs.
    + intros [b|] Hb; [now apply post_ret|now apply Lk].
  - apply text_simple; [intros v inc exc x J; apply post_then; intros [w|]; now apply Ljs|]. intros v x J. unfold or_infer. eapply post_bind.
    + apply post_tagged with (P := scalars). eapply Forall_impl; [|exact (AllF _ H Hq)]. intros ? Hs; intros. now apply Hs.
    + intros [b|] Hb; [now apply post_ret|now apply Lk].
  - assert (LC : forall v x, Post (lit_check l v x) (fun a => match a with LStr s => scalars s | _ => True end)).
    { intros v x. unfold lit_check. destruct (check_enabled _); [|now apply post_ret]. destruct (lit_int v).
      - destruct (existsb _ _); [now apply post_ret|]. apply post_ret. now destruct (existsb _ _).
      - destruct (down_str v) as [t|]; [|apply post_ret; now destruct (existsb _ _)]. destruct (is_nil _); [apply post_ret; now destruct (existsb _ _)|].
        eapply post_bind; [apply post_to_str|]. intros u U. apply post_ret. destruct (mem_str _ _); [exact U|now destruct (existsb _ _)]. }
    apply text_simple; [intros v inc exc x J|intros v x J]; (eapply post_bind; [apply LC|]).
    + intros [z|s| |] HA; [apply post_ret; constructor|apply post_ret; now constructor|now apply Ljs|now apply text_fall].
    + intros [z|s| |] HA; [apply post_ret; apply scalars_dec|apply post_ret; exact HA|now apply Lk|now apply text_fall_key].
  - apply text_simple; [intros v inc exc x J|intros v x J].
    + destruct (exact_instance v c); [|now apply text_fall]. apply post_then. intros w. destruct o as [s|]; [now apply H|now apply Ljs].
    + destruct (exact_instance v c); [|now apply text_fall_key]. apply post_then. intros w. destruct o as [s|]; [now apply H|now apply Lk].
  - apply text_simple; [intros v inc exc x J|intros v x J].
    + destruct (should_use_json w v); [|apply post_ret; constructor]. apply post_then. intros s. apply post_js_str, post_to_str.
    + destruct (should_use_json w v); [apply post_str_key|apply post_ret; apply scalars_none].
  - apply andb_prop in Hq. destruct Hq as [Hj Hp]. destruct (IHs1 Hj) as [A [B _]]. now apply text_simple.
  - destruct (IHs Hq) as [A [B _]]. apply text_simple; [intros v inc exc x J|intros v x J]; destruct (x_round_trip x); auto using post_js_str, post_json_text.
  - apply text_simple; apply PL.
  - apply andb_prop in Hq. destruct Hq as [Hr Hf]. destruct (IHs Hr) as [A [B _]]. apply text_simple; cbv zeta; [intros v inc exc x J|intros v x J]; destruct (should_use w v x).
    + destruct (if i then _ else _) as [o|e]; [now apply A|]. apply post_then. intros _. now apply Ljs.
    + destruct fb as [s'|]; [now apply H|apply post_fail].
    + destruct (if i then _ else _) as [o|e]; [now apply B|]. apply post_then. intros _. now apply Lk.
    + destruct fb as [s'|]; [now apply H|apply post_fail].
Qed.

Lemma text_infer_key again v x : XI x -> (forall v x, XI x -> Post (again v x) scalars) -> Post (infer_key_body E again v x) scalars.
Proof.
  intros J H. unfold infer_key_body. destruct (get_type E v); try apply post_fail; try apply post_str_key.
  - apply post_ret, scalars_none.
  - apply post_ret, scalars_bool.
  - apply post_then. intros f. destruct (_ && _); [apply post_ret, scalars_none|apply post_str_key].
  - apply post_then. intros f. destruct (_ && _); [apply post_ret, scalars_none|apply post_str_key].
  - apply post_then. intros s. apply post_to_str.
  - apply post_then. intros s. apply post_to_str.
  - apply post_then. intros b. apply post_bytes.
  - apply post_then. intros l. eapply post_bind; [apply post_mapM'; intros; now apply H|]. intros ks K. apply post_ret. now apply scalars_join.
  - unfold hashed_key. destruct (e_hash E v); [apply post_str_key|apply post_fail].
  - unfold hashed_key. destruct (e_hash E v); [apply post_str_key|apply post_fail].
  - apply post_then. intros w. now apply H.
  - destruct (x_fallback x); [apply post_then; intros; now apply H|]. destruct (x_serialize_unknown x); [apply post_ret, scalars_unknown|apply post_fail].
Qed.
Lemma text_infer v inc exc x : XI x -> Post (infer_js_body E L (fun s => z_js (build E L s)) v inc exc x) (textual F).
Proof.
  intros J. unfold infer_js_body. cbv zeta. 
  assert (P : forall l, Post (d <- pairs_js any_filter inc exc (fun k => l_key L k x) (fun e i e' => l_js L e i e' x) l ;; ret (JObj d)) (textual F)).
  { intros l. eapply post_bind; [apply post_pairs_js; intros; [now apply Lk|now apply Ljs]|]. intros d D. apply post_ret. now constructor. }
  assert (S : forall l, Post (r <- filtered any_filter inc exc (zlen l) (fun e i e' => l_js L e i e' x) 0 l ;; ret (JArr r)) (textual F)).
  { intros l. eapply post_bind; [apply post_filtered'; intros; now apply Ljs|]. intros d D. apply post_ret. now constructor. }
  assert (M : forall l, Post (r <- mapM (fun e => l_js L e inc exc x) l ;; ret (JArr r)) (textual F)).
  { intros l. eapply post_bind; [apply post_mapM'; intros; now apply Ljs|]. intros d D. apply post_ret. now constructor. }
  destruct (get_type E v); try (apply post_then; intros l; solve [apply P|apply S|apply M]).
  - apply post_ret. constructor.
  - apply post_then. intros. apply post_ret. constructor.
  - apply post_then. intros. apply post_ret. constructor.
  - apply post_ret. constructor.
  - apply post_then. intros. apply post_ret. now apply text_float.
  - apply post_then. intros. apply post_ret. now apply text_float.
  - apply post_then. intros. apply post_js_str, post_to_str.
  - apply post_then. intros. apply post_js_str, post_to_str.
  - apply post_then. intros. apply post_js_str, post_bytes.
  - unfold own_serializer. destruct (class_of v) as [c|]; [|apply post_fail]. destruct (ci_ser _) as [sc|] eqn:C; [|apply post_fail].
    pose proof (proj1 QE _ _ C) as C'. destruct sc as [s g]. apply QC in C. eapply post_bind with (Q := fun a => a = (s, g)); [apply post_ret; reflexivity|]. intros a ->. now apply (text_build s).
  - apply P.
  - apply post_then. intros w. now apply Ljs.
  - destruct (x_fallback x); [apply post_then; intros; now apply Ljs|]. destruct (x_serialize_unknown x); [apply post_ret; constructor; apply scalars_unknown|apply post_fail].
Qed.
End Build.

Lemma text_keyed P n : (forall v inc exc x, XI x -> Post (l_js P v inc exc x) (textual F)) ->
  (forall k v inc exc x, XI x -> Post (l_def_js P k v inc exc x) (textual F)) -> text_level (keyed E P n).
Proof.
  intros A B. induction n as [|n IH].
  - cbn [keyed]. split; [exact A|split; [|split; [exact B|]]]; intros; cbn; apply post_fail.
  - cbn [keyed]. split; [exact A|split; [|split; [exact B|]]]; cbn; intros.
    + apply text_infer_key; [assumption|apply IH].
    + destruct (e_def E k) as [s|] eqn:D; [|apply post_fail]. apply text_build; [exact IH|exact (proj2 QE _ _ D)|assumption].
Qed.
Lemma enter_config v k x x' : enter v k x = Some x' -> x_config x' = x_config x.
Proof. unfold enter. destruct (existsb _ _); [discriminate|]. now intros [= <-]. Qed.
Lemma text_levels n : text_level (levels E n).
Proof.
  induction n as [|n IH]; cbn [levels]; apply text_keyed; cbn [l_js l_def_js]; intros.
  - unfold guard_failed_js. destruct (x_serialize_unknown x); [apply post_ret; repeat constructor|apply post_fail].
  - apply post_fail.
  - destruct (enter v None x) as [x'|] eqn:N; [apply text_infer; [exact IH|]|unfold guard_failed_js; destruct (x_serialize_unknown x); [apply post_ret; repeat constructor|apply post_fail]].
    unfold XI. now rewrite (enter_config _ _ _ _ N).
  - destruct (e_def E k) as [s|] eqn:D; [|apply post_fail]. destruct (enter v _ x) as [x'|] eqn:N; [|apply post_fail].
    apply text_build; [exact IH|exact (proj2 QE _ _ D)|]. unfold XI. now rewrite (enter_config _ _ _ _ N).
Qed.
Lemma text_top n s v inc exc x : all_ser q s = true -> XI x -> Post (z_js (build E (levels E n) s) v inc exc x) (textual F).
Proof. intros Q J. apply text_build; auto. apply text_levels. Qed.
End Text.

(** In JSON mode [to_python] gives JSON values. *)
From Coq Require Import List NArith ZArith Bool.
From Verif Require Import Base Float64 Utf8 Decimal Values BytesCodec Filter LookupKey Classes JsonText SerBase Ser SerInd SerSpec.
Import ListNotations.
Open Scope nat_scope.

(** What holds of the result of a call, if it returns one. *)
Definition Post {A} (m : M A) (P : A -> Prop) : Prop := forall a, snd m = Good a -> P a.
Lemma post_ret {A} (a : A) (P : A -> Prop) : P a -> Post (ret a) P.
Proof. intros H b [= <-]. exact H. Qed.
Lemma post_fail {A} e (P : A -> Prop) : Post (fail e) P.
Proof. intros b [=]. Qed.
Lemma post_bind {A B} (m : M A) (f : A -> M B) Q P : Post m Q -> (forall a, Q a -> Post (f a) P) -> Post (bind m f) P.
Proof. intros H F b E. unfold bind in E. destruct (snd m) as [a|e] eqn:S; [|discriminate]. exact (F a (H a S) b E). Qed.
Lemma post_any {A} (m : M A) : Post m (fun _ => True).
Proof. intros a _. exact I. Qed.
Lemma post_then {A B} (m : M A) (f : A -> M B) P : (forall a, Post (f a) P) -> Post (bind m f) P.
Proof. intros F. apply post_bind with (fun _ => True); [apply post_any|auto]. Qed.
Lemma post_weaken {A} (m : M A) (P Q : A -> Prop) : Post m P -> (forall a, P a -> Q a) -> Post m Q.
Proof. intros H F a E. auto. Qed.
Lemma post_attempt {A} (m : M A) P : Post m P -> Post (attempt m) (on_opt P).
Proof. intros H a [= <-]. destruct (snd m) as [b|e] eqn:E; [exact (H b E)|exact I]. Qed.

Ltac fin := first [solve [constructor; assumption] | solve [eauto]].
Section Pure.
Variable E : env.
Variable K : pyval -> Prop.
Variable am : fields_mode -> bool.
Hypothesis Kstr : forall s, K (PStr s).
Hypothesis Ktd : am TypedDictAllow = true -> forall k s, down_str k = Some s -> K k.
Hypothesis Kmodel : am ModelExtra = true -> forall k, K k.
Variable q : ser -> bool.
Hypothesis Hmode : forall m fs ex c, q (SerFields m fs ex c) = true -> am m = true.
Hypothesis QE : env_all q E.

Definition JD (d : list (pyval * pyval)) : Prop := distinct_keys d /\ Forall (fun kv => K (fst kv) /\ jsonable K (snd kv)) d.

Lemma dict_set_keys (P : pyval -> Prop) k v d : P k -> Forall (fun kv => P (fst kv)) d -> Forall (fun kv => P (fst kv)) (dict_set k v d).
Proof.
  intros H F. induction F as [|[k' v'] d H' F IH]; cbn [dict_set]; [repeat constructor; assumption|]. destruct (py_eq k' k); constructor; auto.
Qed.
Lemma distinct_set k v d : distinct_keys d -> distinct_keys (dict_set k v d).
Proof.
  unfold distinct_keys. induction d as [|[k' v'] d IH]; intros H; cbn [dict_set]; [repeat constructor|]. inversion H as [|? ? A B]; subst.
  destruct (py_eq k' k) eqn:Q; constructor; auto. exact (dict_set_keys (fun z => py_eq k' z = false) k v d Q A).
Qed.
Lemma jd_set k v d : K k -> jsonable K v -> JD d -> JD (dict_set k v d).
Proof.
  intros HK HV [D H]. split; [now apply distinct_set|]. clear D. induction d as [|[k' v'] d IH]; cbn [dict_set]; [repeat constructor; assumption|].
  inversion H as [|? ? [H1 H2] H3]; subst. destruct (py_eq k' k); constructor; auto.
Qed.
Lemma jd_dict d : JD d -> jsonable K (PDict d).
Proof. intros [A B]. now constructor. Qed.
Lemma jd_nil : JD [].
Proof. split; constructor. Qed.
Lemma post_put k v d : K k -> jsonable K v -> JD d -> Post (put k v d) JD.
Proof. intros A B C. unfold put. destruct (hashable k); [apply post_ret; now apply jd_set|apply post_fail]. Qed.

Lemma post_filtered f inc exc len (e : pyval -> option fval -> option fval -> M pyval) l : forall i,
  (forall v a b, Post (e v a b) (jsonable K)) -> Post (filtered f inc exc len e i l) (Forall (jsonable K)).
Proof.
  induction l as [|v l IH]; intros i H; cbn [filtered]; [apply post_ret; constructor|]. apply post_then. intros [[a b]|]; [|auto].
  eapply post_bind; [apply H|intros]. eapply post_bind; [now apply IH|intros]. apply post_ret. fin.
Qed.
Lemma post_mapM (e : pyval -> M pyval) l : (forall v, Post (e v) (jsonable K)) -> Post (mapM e l) (Forall (jsonable K)).
Proof.
  intros H. induction l as [|v l IH]; cbn [mapM]; [apply post_ret; constructor|].
  eapply post_bind; [apply H|intros]. eapply post_bind; [exact IH|intros]. apply post_ret. fin.
Qed.
Lemma post_pairs f inc exc key e l : forall d, JD d ->
  (forall k, Post (key k) K) -> (forall v a b, Post (e v a b) (jsonable K)) -> Post (pairs_py f inc exc key e l d) JD.
Proof.
  induction l as [|[k v] l IH]; intros d D HK H; cbn [pairs_py]; [now apply post_ret|]. apply post_then. intros w. apply post_then. intros [[a b]|]; [|auto].
  eapply post_bind; [apply HK|intros]. eapply post_bind; [apply H|intros]. eapply post_bind; [now apply post_put|intros]. now apply IH.
Qed.
Lemma post_zip f inc exc len (e : sz -> pyval -> option fval -> option fval -> M pyval) ss : forall i l,
  Forall (fun s => forall v a b, Post (e s v a b) (jsonable K)) ss -> Post (zip_items f inc exc len e i ss l) (Forall (jsonable K)).
Proof.
  induction ss as [|s ss IH]; intros i l H; cbn [zip_items]; [apply post_ret; constructor|]. inversion H; subst. destruct l as [|v l]; [apply post_ret; constructor|].
  apply post_then. intros [[a b]|]; [|auto].
  eapply post_bind; [apply H2|intros]. eapply post_bind; [now apply IH|intros]. apply post_ret. fin.
Qed.
Lemma post_first_ok {A B} (e : A -> M B) P l : Forall (fun s => Post (e s) P) l -> Post (first_ok e l) (on_opt P).
Proof.
  induction 1 as [|s l H F IH]; cbn [first_ok]; [apply post_ret; exact I|]. eapply post_bind; [apply post_attempt, H|]. intros [b|] Hb; [now apply post_ret|exact IH].
Qed.

Definition pure_main (f : fmain) : Prop :=
  (forall l inc exc x, x_json x = true -> Post (m_py f l inc exc x) JD) /\
  (forall m d inc exc x, x_json x = true -> JD d -> Post (m_comp_py f m d inc exc x) JD).
Definition pure_sz (s : sz) : Prop :=
  (forall v inc exc x, x_json x = true -> Post (z_py s v inc exc x) (jsonable K)) /\ on_opt pure_main (z_main s).
Definition pure_level (L : level) : Prop :=
  (forall v inc exc x, x_json x = true -> Post (l_py L v inc exc x) (jsonable K)) /\
  (forall k v inc exc x, x_json x = true -> Post (l_def_py L k v inc exc x) (jsonable K)).

Hint Resolve jd_dict : core.
Section Build.
Variable L : level.
Hypothesis PL : pure_level L.
Let Lpy : forall v inc exc x, x_json x = true -> Post (l_py L v inc exc x) (jsonable K). Proof. apply PL. Qed.

Lemma post_fall v inc exc x : x_json x = true -> Post (fall_py L v inc exc x) (jsonable K).
Proof. intros. apply post_then. auto. Qed.
Lemma pure_any : pure_sz (any_ser L).
Proof. split; [apply PL|exact I]. Qed.
Lemma pure_simple py js key r : (forall v inc exc x, x_json x = true -> Post (py v inc exc x) (jsonable K)) -> pure_sz (simple py js key r).
Proof. intros A. exact (conj A I). Qed.
Lemma post_subclass c v inc exc x : x_json x = true -> (forall w, c v = Some w -> jsonable K w) -> Post (subclass_py L c v inc exc x) (jsonable K).
Proof. intros J H. unfold subclass_py. rewrite J. destruct (is_strict _); [apply post_fail|]. destruct (c v); [apply post_ret; auto|apply post_fail]. Qed.
Lemma post_str (m : M str) : Post (s <- m ;; ret (PStr s)) (jsonable K).
Proof. apply post_then. intros. apply post_ret. constructor. Qed.
Lemma post_k (m : M str) : Post (s <- m ;; ret (PStr s)) K.
Proof. apply post_then. intros. apply post_ret. auto. Qed.

Lemma post_tuple_each f ss vr (e : sz -> pyval -> option fval -> option fval -> M pyval) inc exc x l :
  Forall (fun s => forall v a b, Post (e s v a b) (jsonable K)) (any_ser L :: ss) ->
  Post (tuple_each L f ss vr e inc exc x l) (Forall (jsonable K)).
Proof.
  intros H. inversion H as [|? ? HA HS]; subst. unfold tuple_each. destruct vr as [k|].
  - apply post_zip. unfold tuple_serializers. apply Forall_app; split; [now apply Forall_firstn|]. apply Forall_app; split.
    + apply Forall_forall. intros s I. apply repeat_spec in I. subst. destruct (nth_in_or_default k ss (any_ser L)) as [I|I]; [|now rewrite I].
      now apply (proj1 (Forall_forall _ _) HS).
    + now apply Forall_skipn.
  - destruct (_ && _); [apply post_fail|]. eapply post_bind; [apply post_zip, HS|]. intros r R. destruct (skipn _ l) eqn:Sk; [now apply post_ret|].
    apply post_then. intros _. eapply post_bind; [apply post_filtered, HA|]. intros r' R'. apply post_ret. now apply Forall_app.
Qed.
Lemma post_union {A B} (sel : A -> extra -> M B) P x l r : Forall (fun s => forall c, Post (sel s (set_check c x)) P) l ->
  Post (union_serialize sel x l r) (on_opt P).
Proof.
  intros H. unfold union_serialize. eapply post_bind; [apply post_first_ok; eapply Forall_impl; [|exact H]; intros s Hs; apply Hs|].
  intros [b|] Hb; [now apply post_ret|]. eapply post_bind with (Q := on_opt P).
  - destruct (_ && _); [|apply post_ret; exact I]. apply post_first_ok. eapply Forall_impl; [|exact H]. intros s Hs. apply Hs.
  - intros [b|] Hb'; [now apply post_ret|]. destruct (check_enabled _); [destruct l; [apply post_ret; exact I|apply post_fail]|].
    apply post_then. intros _. apply post_ret. exact I.
Qed.
Lemma post_tagged {B} d t l r (sel : sz -> extra -> M B) P v x : Forall (fun s => forall c, Post (sel s (set_check c x)) P) l ->
  Post (tagged_serialize E d t l r sel v x) (on_opt P).
Proof.
  intros H. pose proof (post_union sel P x l r H) as U. unfold tagged_serialize. cbv zeta.
  destruct (tag_of E d v); [|destruct (check_enabled _); [exact U|apply post_then; intros _; exact U]].
  destruct (match py_str E p with Some s => assoc s t | None => None end) as [i|]; [|exact U].
  destruct (nth_error l i) as [s|] eqn:N; [|apply post_fail]. apply nth_error_In in N. pose proof (proj1 (Forall_forall _ _) H _ N) as Hs. cbv beta in Hs.
  eapply post_bind; [apply post_attempt, Hs|]. intros [b|] Hb; [now apply post_ret|]. destruct r; [|exact U].
  eapply post_bind; [apply post_attempt, Hs|]. intros [b|] Hb'; [now apply post_ret|exact U].
Qed.

Section FieldsPure.
Variable mode : fields_mode.
Variable fields : list (str * field sz).
Variable extras : option sz.
Variable comp : list (computed sz).
Hypothesis AM : am mode = true.
Hypothesis QF : Forall (fun kf => on_opt pure_sz (f_ser (snd kf))) fields.
Hypothesis QX : on_opt pure_sz extras.
Hypothesis QC : Forall (fun c => pure_sz (cf_ser c)) comp.

Lemma pure_field n f : assoc n fields = Some f -> on_opt pure_sz (f_ser f).
Proof.
  clear - QF. induction fields as [|[k g] l IH]; cbn [assoc]; [discriminate|]. inversion QF; subst. destruct (str_eqb _ _); [intros [= <-]; assumption|auto].
Qed.
Lemma post_extra v inc exc x : x_json x = true ->
  Post (match extras with Some s => z_py s v inc exc x | None => l_py L v inc exc x end) (jsonable K).
Proof. intros J. destruct extras as [s|]; [now apply QX|now apply Lpy]. Qed.

Lemma post_main_loop inc exc x l : x_json x = true -> forall d n, JD d ->
  Post (main_py_loop L mode fields extras inc exc x l d n) (fun r => JD (fst r)).
Proof.
  intros J. induction l as [|[k v] l IH]; intros d n D; cbn [main_py_loop]; [now apply post_ret|]. apply post_then. intros w.
  assert (KS : Post (key_str k) (fun _ => exists s, down_str k = Some s)).
  { unfold key_str. destruct (down_str k) as [s|]; [|apply post_fail]. intros a _. now exists s. }
  eapply post_bind; [exact KS|]. intros ks [s0 S0]. cbv zeta.
  destruct (_ && _); [now apply IH|]. apply post_then. intros [[ni ne]|]; [|now apply IH].
  destruct (assoc ks fields) as [f|] eqn:A.
  - apply pure_field in A. destruct (f_ser f) as [s|]; [|now apply IH]. destruct (is_default w x s); [now apply IH|].
    eapply post_bind; [now apply A|intros p Hp]. eapply post_bind; [apply post_put; auto|intros; now apply IH].
  - destruct (is_td_allow mode) eqn:T.
    + eapply post_bind; [now apply post_extra|intros p Hp]. eapply post_bind with (Q := JD); [|intros; now apply IH]. apply post_put; auto.
      assert (TD : am TypedDictAllow = true) by (destruct mode; (discriminate || exact AM)). exact (Ktd TD k s0 S0).
    + destruct (is_strict _); [apply post_fail|now apply IH].
Qed.
Lemma post_main l inc exc x : x_json x = true -> Post (main_to_python L mode fields extras l inc exc x) JD.
Proof.
  intros J. unfold main_to_python. eapply post_bind; [apply post_main_loop; [exact J|apply jd_nil]|]. intros r R. destruct (_ && _ && _); [apply post_fail|now apply post_ret].
Qed.
Lemma post_extras_py l inc exc x : x_json x = true -> (forall k, K k) -> forall d, JD d -> Post (extras_py L extras l inc exc x d) JD.
Proof.
  intros J KK. induction l as [|[k v] l IH]; intros d D; cbn [extras_py]; [now apply post_ret|]. destruct (_ && _); [now apply IH|]. apply post_then. intros [[ni ne]|]; [|now apply IH].
  eapply post_bind; [now apply post_extra|intros p Hp]. eapply post_bind with (Q := JD); [|intros; now apply IH]. now apply post_put.
Qed.
Lemma post_comp m d inc exc x : x_json x = true -> JD d -> Post (comp_to_python E comp m d inc exc x) JD.
Proof.
  intros J D. unfold comp_to_python. destruct m as [m|]; [|now apply post_ret]. destruct (x_round_trip x); [now apply post_ret|].
  assert (J' : x_json (set_model (Some m) x) = true) by exact J. revert J'. generalize (set_model (Some m) x). clear x J. intros x J. revert d D.
  revert QC; intros Q; induction Q as [|c l H F IH]; intros d D; cbn [comp_py_loop]; [now apply post_ret|]. apply post_then. intros [[ni ne]|]; [|now apply IH].
  apply post_then. intros v. eapply post_bind; [now apply H|intros p Hp]. destruct (_ && _); [now apply IH|]. eapply post_bind; [now apply post_put|intros; now apply IH].
Qed.
Lemma pure_fields : pure_sz (fields_ser E L mode fields extras comp).
Proof.
  split; cbn [z_py z_main fields_ser]; [|exact (conj post_main post_comp)]. intros v inc exc x J. destruct (td_inferred x); [now apply Lpy|].
  destruct (extract_dicts mode v) as [[main ext]|] eqn:X; [|now apply post_fall]. eapply post_bind; [now apply post_main|intros d D].
  eapply post_bind with (Q := JD).
  - destruct ext as [e|]; [|now apply post_ret]. apply post_extras_py; auto. apply Kmodel. unfold extract_dicts in X.
    destruct mode; [| |]; try exact AM; destruct (down_dict v); discriminate.
  - intros d' D'. eapply post_bind; [now apply post_comp|intros d'' D'']. apply post_ret. fin.
Qed.
End FieldsPure.

Lemma pure_build s : all_ser q s = true -> pure_sz (build E L s).
Proof.
  assert (AllF : forall l, Forall (fun s => all_ser q s = true -> pure_sz (build E L s)) l -> forallb (all_ser q) l = true -> Forall pure_sz (map (build E L) l)).
  { intros l F. induction F as [|s0 l H F IH]; cbn; intros Hq; [constructor|]. apply andb_prop in Hq. constructor; [now apply H|now apply IH]. }
  induction s using ser_ind'; cbn [build all_ser]; intros Hq; try (apply andb_prop in Hq; destruct Hq as [Hq1 Hq]); try discriminate.
  - apply pure_any.
  - apply pure_simple. intros v inc exc x J. destruct v; try (now apply post_fall). apply post_ret. constructor.
  - apply pure_simple. intros v inc exc x J. destruct (is_int_type v) eqn:T; [|apply post_subclass; [exact J|]|now apply post_fall].
    + apply post_ret. destruct v as [| | | | | | | | | | | |c []]; try discriminate T. constructor.
    + intros w. destruct (get_int v); [|discriminate]. intros [= <-]. constructor.
  - apply pure_simple. intros v inc exc x J. destruct (is_bool_type v) eqn:T; try (now apply post_fall). apply post_ret. destruct v; try discriminate T. constructor.
  - apply pure_simple. intros v inc exc x J. destruct (is_float_type v) eqn:T; [|apply post_subclass; [exact J|]|now apply post_fall].
    + apply post_ret. destruct v as [| | | | | | | | | | | |c []]; try discriminate T. constructor.
    + intros w. destruct (get_float v); [|discriminate]. intros [= <-]. constructor.
  - apply pure_simple. intros v inc exc x J. rewrite J. destruct (is_str_type v) eqn:T; [| |now apply post_fall].
    + apply post_ret. destruct v as [| | | | | | | | | | | |c []]; try discriminate T. constructor.
    + apply post_then. intros s. apply post_str.
  - apply pure_simple. intros v inc exc x J. rewrite J. destruct (down_bytes v); [apply post_str|now apply post_fall].
  - apply pure_simple. intros v inc exc x J. destruct v; try (now apply IHs). apply post_ret. constructor.
  - split; [now apply IHs|exact I].
  - apply pure_simple. intros v inc exc x J. destruct (down_list v); [|now apply post_fall].
    eapply post_bind; [apply post_filtered; intros; now apply IHs|]. intros r R. apply post_ret. fin.
  - apply pure_simple. intros v inc exc x J. rewrite J. destruct (down_set v); [|now apply post_fall].
    eapply post_bind; [apply post_mapM; intros; now apply IHs|]. intros r R. apply post_ret. fin.
  - apply pure_simple. intros v inc exc x J. rewrite J. destruct (down_frozenset v); [|now apply post_fall].
    eapply post_bind; [apply post_mapM; intros; now apply IHs|]. intros r R. apply post_ret. fin.
  - apply pure_simple. intros v' inc exc x J. rewrite J. destruct (down_tuple v'); [|now apply post_fall].
    eapply post_bind; [apply post_tuple_each|intros r R; apply post_ret; fin].
    constructor; [intros; now apply pure_any|]. eapply Forall_impl; [|exact (AllF _ H Hq)]. intros ? Hs; intros. now apply Hs.
  - apply andb_prop in Hq. destruct Hq as [Hk Hv]. apply pure_simple. intros v inc exc x J. rewrite J. destruct (down_dict v); [|now apply post_fall].
    eapply post_bind; [apply post_pairs; [apply jd_nil|intros; apply post_k|intros; now apply IHs2]|]. intros r R. apply post_ret. fin.
  - apply andb_prop in Hq. destruct Hq as [Hq Hc]. apply andb_prop in Hq. destruct Hq as [Hf He]. apply pure_fields.
    + exact (Hmode _ _ _ _ Hq1).
    + clear - H Hf. induction H as [|[k f] l H F IH]; cbn; [constructor|]. cbn in Hf. apply andb_prop in Hf. constructor; [|now apply IH].
      cbn in *. destruct (f_ser f); [|exact I]. now apply H.
    + destruct ex; [|exact I]. now apply H0.
    + clear - H1 Hc. induction H1 as [|c l H F IH]; cbn; [constructor|]. cbn in Hc. apply andb_prop in Hc. constructor; [|now apply IH]. now apply H.
  - apply pure_simple. cbv zeta. intros v inc exc x J. destruct (is_inferred _); [now apply Lpy|]. destruct r.
    + destruct (get_attr E v _); [now apply IHs|apply post_fail].
    + destruct (class_allows _ _ _ _ _); [|now apply post_fall]. apply post_then. intros i. now apply IHs.
  - apply pure_simple. cbv zeta. intros v inc exc x J. destruct (is_inferred _); [now apply Lpy|].
    destruct (class_allows _ _ _ _ _); [|now apply post_fall]. destruct (IHs Hq) as [P Mn]. destruct (z_main (build E L s)) as [fm|].
    + destruct Mn as [A B]. eapply post_bind; [now apply A|intros d D]. eapply post_bind; [now apply B|intros d' D']. apply post_ret. fin.
    + apply post_then. intros i. now apply P.
  - apply pure_simple. intros v inc exc x J. unfold or_infer. eapply post_bind.
    + apply post_union. eapply Forall_impl; [|exact (AllF _ H Hq)]. intros ? Hs; intros. now apply Hs.
    + intros [b|] Hb; [now apply post_ret|now apply Lpy].
  - apply pure_simple. intros v inc exc x J. unfold or_infer. eapply post_bind.
    + apply post_tagged. eapply Forall_impl; [|exact (AllF _ H Hq)]. intros ? Hs; intros. now apply Hs.
    + intros [b|] Hb; [now apply post_ret|now apply Lpy].
  - apply pure_simple. intros v inc exc x J. rewrite J. apply post_then. intros [z|s| |]; [apply post_ret; constructor|apply post_ret; constructor|now apply Lpy|now apply post_fall].
  - apply pure_simple. intros v inc exc x J. rewrite J. destruct (exact_instance v c); [|now apply post_fall]. apply post_then. intros w.
    destruct o as [s|]; [now apply H|now apply Lpy].
  - apply pure_simple. intros v inc exc x J. destruct (should_use w v x) eqn:U; [apply post_str|]. apply post_ret. unfold should_use in U. rewrite J in U.
    destruct w, v; try discriminate U; constructor.
  - apply andb_prop in Hq. destruct Hq as [Hj Hp]. apply pure_simple. intros. now apply IHs2.
  - apply pure_simple. intros v inc exc x J. destruct (x_round_trip x); [apply post_str|now apply IHs].
  - apply pure_simple. apply PL.
  - apply andb_prop in Hq. destruct Hq as [Hr Hf]. apply pure_simple. cbv zeta. intros v inc exc x J. destruct (should_use w v x).
    + destruct (if i then _ else _) as [o|e]; [now apply IHs|]. apply post_then. intros _. now apply Lpy.
    + destruct fb as [s'|]; [now apply H|apply post_fail].
Qed.

Lemma post_infer v inc exc x : x_json x = true -> Post (infer_py_body E L (fun s => z_py (build E L s)) v inc exc x) (jsonable K).
Proof.
  intros J. unfold infer_py_body. cbv zeta. rewrite J. destruct (get_type E v) eqn:T.
  - apply post_ret. destruct v; try discriminate T; cbn in T; try constructor; unfold class_kind in T;
      repeat match type of T with (if ?b then _ else _) = _ => destruct b; try discriminate T end. destruct v; discriminate T.
  - apply post_ret. destruct v; try discriminate T; cbn in T; try constructor; unfold class_kind in T;
      repeat match type of T with (if ?b then _ else _) = _ => destruct b; try discriminate T end. destruct v; discriminate T.
  - apply post_then. intros. apply post_ret. constructor.
  - apply post_ret. destruct v; try discriminate T; cbn in T; try constructor; unfold class_kind in T;
      repeat match type of T with (if ?b then _ else _) = _ => destruct b; try discriminate T end. destruct v; discriminate T.
  - apply post_then. intros. apply post_ret. destruct (_ && _); constructor.
  - apply post_then. intros. apply post_ret. destruct (_ && _); constructor.
  - apply post_ret. destruct v; try discriminate T; cbn in T; try constructor; unfold class_kind in T;
      repeat match type of T with (if ?b then _ else _) = _ => destruct b; try discriminate T end. destruct v; discriminate T.
  - apply post_then. intros. apply post_str.
  - apply post_then. intros. apply post_str.
  - apply post_then. intros l. eapply post_bind; [apply post_filtered; intros; now apply Lpy|]. intros r R. apply post_ret. fin.
  - apply post_then. intros l. eapply post_bind; [apply post_filtered; intros; now apply Lpy|]. intros r R. apply post_ret. fin.
  - apply post_then. intros l. eapply post_bind; [apply post_mapM; intros; now apply Lpy|]. intros r R. apply post_ret. fin.
  - apply post_then. intros l. eapply post_bind; [apply post_mapM; intros; now apply Lpy|]. intros r R. apply post_ret. fin.
  - apply post_then. intros l. eapply post_bind; [apply post_pairs; [apply jd_nil|intros; apply post_k|intros; now apply Lpy]|]. intros r R. apply post_ret. fin.
  - unfold own_serializer. destruct (class_of v) as [c|]; [|apply post_fail]. destruct (ci_ser _) as [sc|] eqn:C; [|apply post_fail].
    apply (proj1 QE) in C. eapply post_bind with (Q := fun a => a = sc); [apply post_ret; reflexivity|]. intros a ->. now apply (pure_build (fst sc)).
  - eapply post_bind; [apply post_pairs; [apply jd_nil|intros; apply post_k|intros; now apply Lpy]|]. intros r R. apply post_ret. fin.
  - apply post_then. intros w. now apply Lpy.
  - destruct (x_fallback x); [apply post_then; intros; now apply Lpy|]. destruct (x_serialize_unknown x); [apply post_ret; constructor|apply post_fail].
Qed.
End Build.

Lemma pure_keyed P n : pure_level P -> pure_level (keyed E P n).
Proof. intros [A B]. destruct n; split; cbn [keyed l_py l_def_py]; assumption. Qed.
Lemma pure_levels n : pure_level (levels E n).
Proof.
  induction n as [|n IH]; cbn [levels]; apply pure_keyed; split; cbn [l_py l_def_py]; intros.
  - unfold guard_failed_py. rewrite H. apply post_fail.
  - apply post_fail.
  - destruct (enter v None x) as [x'|] eqn:N; [apply post_infer; [exact IH|]|unfold guard_failed_py; rewrite H; apply post_fail].
    unfold enter in N. destruct (existsb _ _); [discriminate|]. now injection N as <-.
  - destruct (e_def E k) as [s|] eqn:D; [|apply post_fail]. destruct (enter v _ x) as [x'|] eqn:N; [|apply post_fail].
    apply pure_build; [exact IH|exact (proj2 QE _ _ D)|]. unfold enter in N. destruct (existsb _ _); [discriminate|]. now injection N as <-.
Qed.
Lemma pure_top n s v inc exc x : all_ser q s = true -> x_json x = true -> Post (z_py (build E (levels E n) s) v inc exc x) (jsonable K).
Proof. intros Q J. apply pure_build; auto. apply pure_levels. Qed.
End Pure.

(** The result of a serializer does not depend on whether warnings are collected. *)
From Coq Require Import List NArith ZArith Bool.
From Verif Require Import Base Float64 Utf8 Decimal Values BytesCodec Filter LookupKey Classes JsonText SerBase Ser SerInd.
Import ListNotations.
Open Scope nat_scope.

Definition quiet (x : extra) : extra :=
  {| x_json := x_json x; x_by_alias := x_by_alias x; x_exclude_unset := x_exclude_unset x;
     x_exclude_defaults := x_exclude_defaults x; x_exclude_none := x_exclude_none x; x_round_trip := x_round_trip x;
     x_config := x_config x; x_check := x_check x; x_model := x_model x; x_serialize_unknown := x_serialize_unknown x;
     x_fallback := x_fallback x; x_duck := x_duck x; x_collect := false; x_guard := x_guard x |}.

Lemma q_json x : x_json (quiet x) = x_json x. Proof. reflexivity. Qed.
Lemma q_exclude_unset x : x_exclude_unset (quiet x) = x_exclude_unset x. Proof. reflexivity. Qed.
Lemma q_exclude_defaults x : x_exclude_defaults (quiet x) = x_exclude_defaults x. Proof. reflexivity. Qed.
Lemma q_exclude_none x : x_exclude_none (quiet x) = x_exclude_none x. Proof. reflexivity. Qed.
Lemma q_round_trip x : x_round_trip (quiet x) = x_round_trip x. Proof. reflexivity. Qed.
Lemma q_config x : x_config (quiet x) = x_config x. Proof. reflexivity. Qed.
Lemma q_check x : x_check (quiet x) = x_check x. Proof. reflexivity. Qed.
Lemma q_model x : x_model (quiet x) = x_model x. Proof. reflexivity. Qed.
Lemma q_unknown x : x_serialize_unknown (quiet x) = x_serialize_unknown x. Proof. reflexivity. Qed.
Lemma q_fallback x : x_fallback (quiet x) = x_fallback x. Proof. reflexivity. Qed.
Lemma q_duck x : x_duck (quiet x) = x_duck x. Proof. reflexivity. Qed.
Lemma q_guard x : x_guard (quiet x) = x_guard x. Proof. reflexivity. Qed.
Lemma q_set_check c x : set_check c (quiet x) = quiet (set_check c x). Proof. reflexivity. Qed.
Lemma q_set_model m x : set_model m (quiet x) = quiet (set_model m x). Proof. reflexivity. Qed.
Lemma q_set_duck d x : set_duck d (quiet x) = quiet (set_duck d x). Proof. reflexivity. Qed.
Lemma q_nested c x : nested_extra c (quiet x) = quiet (nested_extra c x). Proof. reflexivity. Qed.
Lemma q_alias x o : by_alias_or (quiet x) o = by_alias_or x o. Proof. reflexivity. Qed.
Lemma q_should w v x : should_use w v (quiet x) = should_use w v x. Proof. reflexivity. Qed.
Lemma q_out_key {S} n (f : field S) x : out_key n f (quiet x) = out_key n f x. Proof. reflexivity. Qed.
Lemma q_default v x s : is_default v (quiet x) s = is_default v x s. Proof. reflexivity. Qed.
Lemma q_comp_key c x : comp_key c (quiet x) = comp_key c x. Proof. reflexivity. Qed.
Lemma q_model_or v x : model_or v (quiet x) = model_or v x. Proof. reflexivity. Qed.
Lemma q_td x : td_inferred (quiet x) = td_inferred x. Proof. reflexivity. Qed.
Lemma q_allows E c a v x : class_allows E c a v (quiet x) = class_allows E c a v x. Proof. reflexivity. Qed.
Lemma q_enter v k x : enter v k (quiet x) = option_map quiet (enter v k x).
Proof. unfold enter. rewrite q_guard. destruct (existsb _ _); reflexivity. Qed.
Create HintDb qx.
#[global] Hint Rewrite q_json q_exclude_unset q_exclude_defaults q_exclude_none q_round_trip q_config q_check q_model q_unknown
  q_fallback q_duck q_set_check q_set_model q_set_duck q_nested q_alias q_should @q_out_key q_default q_comp_key q_model_or q_td q_allows q_enter : qx.

(** The second call gives the result of the first and records nothing. *)
Definition hush {A} (m m' : M A) : Prop := snd m' = snd m /\ fst m' = [].
Lemma hush_ret {A} (a : A) : hush (ret a) (ret a).
Proof. now split. Qed.
Lemma hush_fail {A} e : hush (@fail A e) (fail e).
Proof. now split. Qed.
Lemma hush_opt {A} (o : option A) : hush (opt o) (opt o).
Proof. now destruct o. Qed.
Lemma hush_res {A} (o : res A) : hush (res_opt o) (res_opt o).
Proof. now destruct o. Qed.
Lemma hush_register w x : hush (register w x) (register w (quiet x)).
Proof. now split. Qed.
Lemma hush_bind {A B} (m m' : M A) (f f' : A -> M B) :
  hush m m' -> (forall a, hush (f a) (f' a)) -> hush (bind m f) (bind m' f').
Proof.
  intros [S W] F. unfold hush, bind. rewrite S. destruct (snd m) as [a|e]; [|now split]. cbn. destruct (F a) as [S' W']. now rewrite S', W, W'.
Qed.
Lemma hush_attempt {A} (m m' : M A) : hush m m' -> hush (attempt m) (attempt m').
Proof. intros [S W]. unfold hush, attempt. cbn. now rewrite S, W. Qed.
Lemma hush_to_str s : hush (to_str s) (to_str s).
Proof. unfold to_str. now destruct (forallb _ _). Qed.
Lemma hush_fallback v x : hush (on_fallback v x) (on_fallback v (quiet x)).
Proof. unfold on_fallback. autorewrite with qx. destruct v; try apply hush_ret; (destruct (check_enabled _); [apply hush_fail|apply hush_register]). Qed.
Lemma hush_put k v d : hush (put k v d) (put k v d).
Proof. unfold put. now destruct (hashable k). Qed.
Lemma hush_new_set l : hush (new_set l) (new_set l).
Proof. unfold new_set. now destruct (forallb _ _). Qed.
Lemma hush_key_str k : hush (key_str k) (key_str k).
Proof. apply hush_bind; [apply hush_opt|intros; apply hush_to_str]. Qed.
Lemma hush_str_key E k : hush (str_key E k) (str_key E k).
Proof. apply hush_bind; [apply hush_opt|intros; apply hush_ret]. Qed.
Lemma hush_hashed E k : hush (hashed_key E k) (hashed_key E k).
Proof. unfold hashed_key. destruct (e_hash _ _); [apply hush_str_key|apply hush_fail]. Qed.
Create HintDb hush.
#[global] Hint Resolve hush_ret hush_fail hush_opt hush_res hush_register hush_attempt hush_to_str hush_fallback hush_put hush_new_set
  hush_key_str hush_str_key hush_hashed : hush.

Ltac hs :=
  repeat match goal with
  | |- hush (bind _ _) (bind _ _) => apply hush_bind; [|intros]
  | |- hush (match ?a with _ => _ end) (match ?a with _ => _ end) => destruct a
  | |- hush (if ?a then _ else _) (if ?a then _ else _) => destruct a
  | |- hush (let '(_, _) := ?a in _) _ => destruct a
  | |- _ => progress autorewrite with qx
  | |- _ => solve [auto with hush]
  end.

Lemma hush_filtered {A} f inc exc len (e e' : pyval -> option fval -> option fval -> M A) l : forall i,
  (forall v a b, hush (e v a b) (e' v a b)) -> hush (filtered f inc exc len e i l) (filtered f inc exc len e' i l).
Proof. induction l as [|v l IH]; intros i H; cbn [filtered]; hs. Qed.
Lemma hush_mapM {A B} (e e' : A -> M B) l : (forall v, hush (e v) (e' v)) -> hush (mapM e l) (mapM e' l).
Proof. induction l as [|v l IH]; intros H; cbn [mapM]; hs. Qed.
Lemma hush_pairs_py f inc exc key key' e e' l : forall d,
  (forall k, hush (key k) (key' k)) -> (forall v a b, hush (e v a b) (e' v a b)) ->
  hush (pairs_py f inc exc key e l d) (pairs_py f inc exc key' e' l d).
Proof. induction l as [|[k v] l IH]; intros d K H; cbn [pairs_py]; hs. Qed.
Lemma hush_pairs_js f inc exc key key' e e' l :
  (forall k, hush (key k) (key' k)) -> (forall v a b, hush (e v a b) (e' v a b)) ->
  hush (pairs_js f inc exc key e l) (pairs_js f inc exc key' e' l).
Proof. induction l as [|[k v] l IH]; intros K H; cbn [pairs_js]; hs. Qed.
Lemma hush_zip {A} f inc exc len (e e' : sz -> pyval -> option fval -> option fval -> M A) ss : forall i l,
  Forall (fun s => forall v a b, hush (e s v a b) (e' s v a b)) ss ->
  hush (zip_items f inc exc len e i ss l) (zip_items f inc exc len e' i ss l).
Proof. induction ss as [|s ss IH]; intros i l H; cbn [zip_items]; [hs|]. inversion H; subst. hs. Qed.
Lemma hush_first_ok {A B} (e e' : A -> M B) l : Forall (fun s => hush (e s) (e' s)) l -> hush (first_ok e l) (first_ok e' l).
Proof. induction 1 as [|s l H F IH]; cbn [first_ok]; hs. Qed.
Lemma hush_register_all {A} (l : list A) x : hush (register_all l x) (register_all l (quiet x)).
Proof. induction l as [|a l IH]; cbn [register_all]; hs. Qed.
#[global] Hint Resolve hush_filtered hush_mapM hush_pairs_py hush_pairs_js hush_zip hush_first_ok hush_register_all : hush.

Definition quiet_main (f : fmain) : Prop :=
  (forall l inc exc x, hush (m_py f l inc exc x) (m_py f l inc exc (quiet x))) /\
  (forall l inc exc x, hush (m_js f l inc exc x) (m_js f l inc exc (quiet x))) /\
  (forall m d inc exc x, hush (m_comp_py f m d inc exc x) (m_comp_py f m d inc exc (quiet x))) /\
  (forall m inc exc x, hush (m_comp_js f m inc exc x) (m_comp_js f m inc exc (quiet x))).
Definition quiet_sz (s : sz) : Prop :=
  (forall v inc exc x, hush (z_py s v inc exc x) (z_py s v inc exc (quiet x))) /\
  (forall v inc exc x, hush (z_js s v inc exc x) (z_js s v inc exc (quiet x))) /\
  (forall v x, hush (z_key s v x) (z_key s v (quiet x))) /\ on_opt quiet_main (z_main s).
Definition quiet_level (L : level) : Prop :=
  (forall v inc exc x, hush (l_py L v inc exc x) (l_py L v inc exc (quiet x))) /\
  (forall v inc exc x, hush (l_js L v inc exc x) (l_js L v inc exc (quiet x))) /\
  (forall v x, hush (l_key L v x) (l_key L v (quiet x))) /\
  (forall k v inc exc x, hush (l_def_py L k v inc exc x) (l_def_py L k v inc exc (quiet x))) /\
  (forall k v inc exc x, hush (l_def_js L k v inc exc x) (l_def_js L k v inc exc (quiet x))) /\
  (forall k v x, hush (l_def_key L k v x) (l_def_key L k v (quiet x))).

Section Quiet.
Variable E : env.

Lemma hush_key_body again v x : (forall v x, hush (again v x) (again v (quiet x))) ->
  hush (infer_key_body E again v x) (infer_key_body E again v (quiet x)).
Proof. intros H. unfold infer_key_body. destruct (get_type E v); hs; apply hush_mapM; intros; hs. Qed.

Section Build.
Variable L : level.
Hypothesis QL : quiet_level L.
Let Lpy : forall v inc exc x, hush (l_py L v inc exc x) (l_py L v inc exc (quiet x)). Proof. apply QL. Qed.
Let Ljs : forall v inc exc x, hush (l_js L v inc exc x) (l_js L v inc exc (quiet x)). Proof. apply QL. Qed.
Let Lkey : forall v x, hush (l_key L v x) (l_key L v (quiet x)). Proof. apply QL. Qed.
Hint Resolve Lpy Ljs Lkey : hush.

Lemma hush_fall_py v inc exc x : hush (fall_py L v inc exc x) (fall_py L v inc exc (quiet x)).
Proof. unfold fall_py; hs. Qed.
Lemma hush_fall_js v inc exc x : hush (fall_js L v inc exc x) (fall_js L v inc exc (quiet x)).
Proof. unfold fall_js; hs. Qed.
Lemma hush_fall_key v x : hush (fall_key L v x) (fall_key L v (quiet x)).
Proof. unfold fall_key; hs. Qed.
Lemma hush_invalid v x : hush (invalid_key L v x) (invalid_key L v (quiet x)).
Proof. unfold invalid_key; hs. Qed.
Hint Resolve hush_fall_py hush_fall_js hush_fall_key hush_invalid : hush.
Lemma hush_subclass c v inc exc x : hush (subclass_py L c v inc exc x) (subclass_py L c v inc exc (quiet x)).
Proof. unfold subclass_py; hs. Qed.
Hint Resolve hush_subclass : hush.

Lemma quiet_any : quiet_sz (any_ser L).
Proof. repeat split; try apply QL. Qed.

Lemma quiet_simple py js key r :
  (forall v inc exc x, hush (py v inc exc x) (py v inc exc (quiet x))) ->
  (forall v inc exc x, hush (js v inc exc x) (js v inc exc (quiet x))) ->
  (forall v x, hush (key v x) (key v (quiet x))) -> quiet_sz (simple py js key r).
Proof. intros A B C. exact (conj A (conj B (conj C I))). Qed.

Lemma hush_tuple_each {A} f ss vr (e e' : sz -> pyval -> option fval -> option fval -> M A) inc exc x l :
  Forall (fun s => forall v a b, hush (e s v a b) (e' s v a b)) (any_ser L :: ss) ->
  hush (tuple_each L f ss vr e inc exc x l) (tuple_each L f ss vr e' inc exc (quiet x) l).
Proof.
  intros H. inversion H as [|? ? HA HS]; subst. unfold tuple_each. autorewrite with qx. destruct vr as [k|].
  - apply hush_zip. unfold tuple_serializers. apply Forall_app; split; [now apply Forall_firstn|]. apply Forall_app; split.
    + apply Forall_forall. intros s I. apply repeat_spec in I. subst. destruct (nth_in_or_default k ss (any_ser L)) as [I|I]; [|now rewrite I].
      now apply (proj1 (Forall_forall _ _) HS).
    + now apply Forall_skipn.
  - hs.
Qed.

Lemma hush_inner h v x : hush (inner_value E h v x) (inner_value E h v (quiet x)).
Proof. unfold inner_value; hs. Qed.
Hint Resolve hush_inner : hush.

Lemma hush_dc_inner n v : hush (dataclass_inner E n v) (dataclass_inner E n v).
Proof. unfold dataclass_inner; hs. Qed.
Hint Resolve hush_dc_inner : hush.

Lemma hush_union {A B} (sel : A -> extra -> M B) x l r :
  Forall (fun s => forall x, hush (sel s x) (sel s (quiet x))) l ->
  hush (union_serialize sel x l r) (union_serialize sel (quiet x) l r).
Proof.
  intros H. unfold union_serialize. autorewrite with qx.
  apply hush_bind; [apply hush_first_ok; eapply Forall_impl; [|exact H]; intros s Hs; autorewrite with qx; apply Hs|intros [b|]; [hs|]].
  apply hush_bind; [|intros; hs; destruct l; hs].
  destruct (negb _ && r); [|hs]. apply hush_first_ok; eapply Forall_impl; [|exact H]; intros s Hs; autorewrite with qx; apply Hs.
Qed.
Lemma hush_tagged {B} d t l r (sel : sz -> extra -> M B) v x :
  Forall (fun s => forall x, hush (sel s x) (sel s (quiet x))) l ->
  hush (tagged_serialize E d t l r sel v x) (tagged_serialize E d t l r sel v (quiet x)).
Proof.
  intros H. pose proof (hush_union sel x l r H) as U. unfold tagged_serialize. cbv zeta. autorewrite with qx.
  destruct (tag_of E d v); [|hs].
  destruct (match py_str E p with Some s => assoc s t | None => None end) as [i|]; [|hs].
  destruct (nth_error l i) as [s|] eqn:N; [|hs]. apply nth_error_In in N. pose proof (proj1 (Forall_forall _ _) H _ N) as Hs.
  hs; autorewrite with qx; apply hush_attempt, Hs.
Qed.

Lemma hush_lit ex v x : hush (lit_check ex v x) (lit_check ex v (quiet x)).
Proof. unfold lit_check; hs. Qed.
Hint Resolve hush_lit : hush.

Section FieldsQuiet.
Variable mode : fields_mode.
Variable fields : list (str * field sz).
Variable extras : option sz.
Variable comp : list (computed sz).
Hypothesis QF : Forall (fun kf => on_opt quiet_sz (f_ser (snd kf))) fields.
Hypothesis QE : on_opt quiet_sz extras.
Hypothesis QC : Forall (fun c => quiet_sz (cf_ser c)) comp.

Lemma quiet_field n f : assoc n fields = Some f -> on_opt quiet_sz (f_ser f).
Proof.
  clear - QF. induction fields as [|[k g] l IH]; cbn [assoc]; [discriminate|]. inversion QF; subst. destruct (str_eqb _ _); [intros [= <-]; assumption|auto].
Qed.
Lemma hush_extras v inc exc x :
  hush (match extras with Some s => z_py s v inc exc x | None => l_py L v inc exc x end)
       (match extras with Some s => z_py s v inc exc (quiet x) | None => l_py L v inc exc (quiet x) end).
Proof. destruct extras as [s|]; [apply QE|apply Lpy]. Qed.
Hint Resolve hush_extras : hush.

Lemma hush_main_py_loop inc exc x l : forall d n,
  hush (main_py_loop L mode fields extras inc exc x l d n) (main_py_loop L mode fields extras inc exc (quiet x) l d n).
Proof.
  induction l as [|[k v] l IH]; intros d n; cbn [main_py_loop]; [hs|]. apply hush_bind; [hs|intros w]. apply hush_bind; [hs|intros ks]. cbv zeta.
  destruct (assoc ks fields) as [f|] eqn:A; [|hs; apply QE].
  apply quiet_field in A. autorewrite with qx. destruct (_ && _); [apply IH|]. apply hush_bind; [hs|intros [[ni ne]|]; [|apply IH]].
  destruct (f_ser f) as [s|]; [|apply IH]. autorewrite with qx. destruct (is_default w x s); [apply IH|].
  apply hush_bind; [apply A|intros]. apply hush_bind; [hs|intros; apply IH].
Qed.
Lemma hush_main_py l inc exc x : hush (main_to_python L mode fields extras l inc exc x) (main_to_python L mode fields extras l inc exc (quiet x)).
Proof. unfold main_to_python. apply hush_bind; [apply hush_main_py_loop|intros]. hs. Qed.
Lemma hush_main_js l inc exc x : hush (main_to_json L mode fields l inc exc x) (main_to_json L mode fields l inc exc (quiet x)).
Proof.
  induction l as [|[k v] l IH]; cbn [main_to_json]; [hs|]. apply hush_bind; [hs|intros w]. autorewrite with qx. destruct (_ && _); [apply IH|].
  apply hush_bind; [hs|intros ks]. apply hush_bind; [hs|intros [[ni ne]|]; [|apply IH]].
  destruct (assoc ks fields) as [f|] eqn:A; [|hs]. apply quiet_field in A.
  destruct (f_ser f) as [s|]; [|apply IH]. autorewrite with qx. destruct (is_default w x s); [apply IH|].
  apply hush_bind; [apply A|intros]. hs.
Qed.
Lemma hush_extras_py l inc exc x : forall d, hush (extras_py L extras l inc exc x d) (extras_py L extras l inc exc (quiet x) d).
Proof. induction l as [|[k v] l IH]; intros d; cbn [extras_py]; hs; apply QE. Qed.
Lemma hush_extras_js l inc exc x : hush (extras_js L l inc exc x) (extras_js L l inc exc (quiet x)).
Proof. induction l as [|[k v] l IH]; cbn [extras_js]; hs. Qed.
Lemma hush_comp_py m d inc exc x : hush (comp_to_python E comp m d inc exc x) (comp_to_python E comp m d inc exc (quiet x)).
Proof.
  unfold comp_to_python. destruct m as [m|]; [|hs]. autorewrite with qx. destruct (x_round_trip x); [hs|]. generalize (set_model (Some m) x). clear x. intros x. revert d.
  revert QC; intros Q; induction Q as [|c l H F IH]; intros d; cbn [comp_py_loop]; [hs|]. apply hush_bind; [hs|intros [[ni ne]|]; [|apply IH]].
  apply hush_bind; [hs|intros]. apply hush_bind; [apply H|intros]. hs.
Qed.
Lemma hush_comp_js m inc exc x : hush (comp_to_json E comp m inc exc x) (comp_to_json E comp m inc exc (quiet x)).
Proof.
  unfold comp_to_json. destruct m as [m|]; [|hs]. autorewrite with qx. destruct (x_round_trip x); [hs|].
  revert QC; intros Q; induction Q as [|c l H F IH]; cbn [comp_js_loop]; [hs|]. apply hush_bind; [hs|intros [[ni ne]|]; [|apply IH]].
  apply hush_bind; [hs|intros]. autorewrite with qx. destruct (_ && _); [apply IH|]. apply hush_bind; [apply H|intros]. hs.
Qed.
Lemma quiet_fields : quiet_sz (fields_ser E L mode fields extras comp).
Proof.
  split; [|split; [|split]]; cbn [z_py z_js z_key z_main fields_ser].
  - intros. autorewrite with qx. destruct (td_inferred x); [hs|]. destruct (extract_dicts mode v) as [[main ext]|]; [|hs].
    apply hush_bind; [apply hush_main_py|intros]. apply hush_bind; [destruct ext; [apply hush_extras_py|hs]|intros].
    apply hush_bind; [apply hush_comp_py|intros; hs].
  - intros. autorewrite with qx. destruct (extract_dicts mode v) as [[main ext]|]; [|hs]. destruct (td_inferred x); [hs|].
    apply hush_bind; [apply hush_main_js|intros]. apply hush_bind; [destruct ext; [apply hush_extras_js|hs]|intros].
    apply hush_bind; [apply hush_comp_js|intros; hs].
  - apply hush_invalid.
  - exact (conj hush_main_py (conj hush_main_js (conj hush_comp_py hush_comp_js))).
Qed.
End FieldsQuiet.

Lemma zp s : quiet_sz s -> forall v inc exc x, hush (z_py s v inc exc x) (z_py s v inc exc (quiet x)). Proof. intros H; apply H. Qed.
Lemma zj s : quiet_sz s -> forall v inc exc x, hush (z_js s v inc exc x) (z_js s v inc exc (quiet x)). Proof. intros H; apply H. Qed.
Lemma zk s : quiet_sz s -> forall v x, hush (z_key s v x) (z_key s v (quiet x)). Proof. intros H; apply H. Qed.
Hint Resolve zp zj zk : hush.

Lemma quiet_build s : quiet_sz (build E L s).
Proof.
  induction s using ser_ind'; cbn [build].
  - apply quiet_any.
  - apply quiet_simple; intros; hs.
  - apply quiet_simple; intros; hs.
  - apply quiet_simple; intros; hs.
  - apply quiet_simple; intros; hs.
  - apply quiet_simple; intros; hs.
  - apply quiet_simple; intros; hs.
  - apply quiet_simple; intros; hs.
  - split; [apply IHs|split; [apply IHs|split; [apply IHs|exact I]]].
  - apply quiet_simple; intros; hs; apply hush_filtered; intros; hs.
  - apply quiet_simple; intros; hs; apply hush_mapM; intros; hs.
  - apply quiet_simple; intros; hs; apply hush_mapM; intros; hs.
  - assert (Q : Forall quiet_sz (any_ser L :: map (build E L) l)) by (constructor; [apply quiet_any|now apply Forall_map_in]).
    apply quiet_simple; intros; hs; apply hush_tuple_each; (eapply Forall_impl; [|exact Q]); intros; hs.
  - apply quiet_simple; intros; hs; (apply hush_pairs_py || apply hush_pairs_js); intros; hs.
  - apply quiet_fields.
    + apply Forall_map_in. eapply Forall_impl; [|exact H]. intros [k f]. cbn. destruct (f_ser f); auto.
    + destruct ex; auto.
    + apply Forall_map_in. eapply Forall_impl; [|exact H1]. auto.
  - apply quiet_simple; intros; cbv zeta; autorewrite with qx; hs.
  - destruct IHs as (P & J & K & Mn). destruct (z_main (build E L s)) as [fm|] eqn:Z.
    + destruct Mn as (A & B & C & D). apply quiet_simple; intros; cbv zeta; rewrite ?Z; autorewrite with qx; hs.
    + apply quiet_simple; intros; cbv zeta; rewrite ?Z; autorewrite with qx; hs.
  - assert (Q : Forall quiet_sz (map (build E L) l)) by now apply Forall_map_in.
    assert (R : forall v inc exc x, hush (union_serialize (fun s x' => z_py s v inc exc x') x (map (build E L) l) (existsb z_retry (map (build E L) l)))
       (union_serialize (fun s x' => z_py s v inc exc x') (quiet x) (map (build E L) l) (existsb z_retry (map (build E L) l))))
      by (intros; apply hush_union; eapply Forall_impl; [|exact Q]; intros; hs).
    apply quiet_simple; intros; unfold or_infer; hs. apply hush_union; eapply Forall_impl; [|exact Q]; intros; hs.
  - assert (Q : Forall quiet_sz (map (build E L) l)) by now apply Forall_map_in.
    apply quiet_simple; intros; unfold or_infer; (apply hush_bind; [|intros; hs]); apply hush_tagged; (eapply Forall_impl; [|exact Q]); intros; hs.
  - apply quiet_simple; intros; hs.
  - destruct o; cbn in H; apply quiet_simple; intros; hs.
  - apply quiet_simple; intros; hs.
  - split; [apply IHs2|split; [apply IHs1|split; [apply IHs1|exact I]]].
  - apply quiet_simple; intros; unfold json_text_of; hs.
  - apply quiet_simple; intros; apply QL.
  - destruct fb; cbn in H; apply quiet_simple; intros; cbv zeta; autorewrite with qx; hs.
Qed.

Lemma hush_infer_py v inc exc x :
  hush (infer_py_body E L (fun s => z_py (build E L s)) v inc exc x) (infer_py_body E L (fun s => z_py (build E L s)) v inc exc (quiet x)).
Proof.
  unfold infer_py_body. cbv zeta. destruct (get_type E v); hs; try apply hush_filtered; try apply hush_mapM; try apply hush_pairs_py; intros; hs.
  apply quiet_build.
Qed.
Lemma hush_infer_js v inc exc x :
  hush (infer_js_body E L (fun s => z_js (build E L s)) v inc exc x) (infer_js_body E L (fun s => z_js (build E L s)) v inc exc (quiet x)).
Proof.
  unfold infer_js_body. cbv zeta. destruct (get_type E v); hs; try apply hush_filtered; try apply hush_mapM; try apply hush_pairs_js; intros; hs.
  apply quiet_build.
Qed.
End Build.

Definition half_quiet (P : level) : Prop :=
  (forall v inc exc x, hush (l_py P v inc exc x) (l_py P v inc exc (quiet x))) /\
  (forall v inc exc x, hush (l_js P v inc exc x) (l_js P v inc exc (quiet x))) /\
  (forall k v inc exc x, hush (l_def_py P k v inc exc x) (l_def_py P k v inc exc (quiet x))) /\
  (forall k v inc exc x, hush (l_def_js P k v inc exc x) (l_def_js P k v inc exc (quiet x))).
Lemma quiet_keyed P n : half_quiet P -> quiet_level (keyed E P n).
Proof.
  intros (A & B & C & D). induction n as [|n IH]; cbn [keyed]; repeat split; cbn [l_py l_js l_key l_def_py l_def_js l_def_key];
    try apply A; try apply B; try apply C; try apply D; try apply hush_fail.
  - apply hush_key_body. apply IH.
  - apply hush_key_body. apply IH.
  - destruct (e_def E k); [|apply hush_fail]. now apply quiet_build.
  - destruct (e_def E k); [|apply hush_fail]. now apply quiet_build.
Qed.
Lemma quiet_levels n : quiet_level (levels E n).
Proof.
  induction n as [|n IH]; cbn [levels]; apply quiet_keyed; repeat apply conj; cbn [l_py l_js l_key l_def_py l_def_js l_def_key]; intros; try apply hush_fail.
  - unfold guard_failed_py. hs.
  - unfold guard_failed_js. hs.
  - autorewrite with qx. destruct (enter v None x); cbn [option_map]; [now apply hush_infer_py|unfold guard_failed_py; hs].
  - autorewrite with qx. destruct (enter v None x); cbn [option_map]; [now apply hush_infer_js|unfold guard_failed_js; hs].
  - destruct (e_def E k); [|hs]. autorewrite with qx. destruct (enter v _ x); cbn [option_map]; [now apply quiet_build|hs].
  - destruct (e_def E k); [|hs]. autorewrite with qx. destruct (enter v _ x); cbn [option_map]; [now apply quiet_build|hs].
Qed.
End Quiet.

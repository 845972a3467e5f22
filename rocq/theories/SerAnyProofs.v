(** With serialize_as_any the classes that a schema names do not matter. *)
From Coq Require Import List NArith ZArith Bool.
From Verif Require Import Base Float64 Utf8 Decimal Values BytesCodec Filter LookupKey Classes JsonText SerBase Ser SerInd SerAnySpec.
Import ListNotations.
Open Scope nat_scope.

(** The modes a serializer runs in: before inference; after it, for the schema of the
    value's own class. *)
Definition ok (own : bool) (x : extra) : Prop :=
  match x_duck x with NeedsInference => True | Inferred => own = true | SchemaBased => False end.
Lemma ok_true own x : ok own x -> ok true x.
Proof. unfold ok. now destruct (x_duck x). Qed.
Lemma ok_any own x : ok false x -> ok own x.
Proof. unfold ok. destruct (x_duck x); [auto|auto|discriminate]. Qed.
Lemma ok_check own c x : ok own x -> ok own (set_check c x). Proof. exact (fun H => H). Qed.
Lemma ok_model own m x : ok own x -> ok own (set_model m x). Proof. exact (fun H => H). Qed.
Lemma ok_nested own c x : ok own x -> ok own (nested_extra c x). Proof. exact (fun H => H). Qed.
Lemma ok_next own x : ok own x -> ok true (set_duck (next_mode (x_duck x)) x).
Proof. unfold ok. cbn. now destruct (x_duck x). Qed.
Lemma ok_enter own v k x x' : enter v k x = Some x' -> ok own x -> ok own x'.
Proof. unfold enter. destruct (existsb _ _); [discriminate|intros [= <-] H]. exact H. Qed.
Create HintDb anyx.
#[global] Hint Resolve ok_check ok_model ok_nested ok_next : anyx.
#[global] Hint Extern 2 (ok true _) => (eapply ok_true; eassumption) : anyx.

Lemma bind_eq {A B} (m m' : M A) (f f' : A -> M B) : m = m' -> (forall a, f a = f' a) -> bind m f = bind m' f'.
Proof. intros <- F. unfold bind. destruct (snd m); [now rewrite F|reflexivity]. Qed.
Lemma bind_none {A B} (f g : A -> M B) : bind (opt None) f = bind (opt None) g. Proof. reflexivity. Qed.
Lemma attempt_eq {A} (m m' : M A) : m = m' -> attempt m = attempt m'. Proof. now intros <-. Qed.

Ltac ae :=
  repeat match goal with
  | |- ?a = ?a => reflexivity
  | |- bind _ _ = bind _ _ => apply bind_eq; [|intros]
  | |- (match ?a with _ => _ end) = (match ?a with _ => _ end) => destruct a
  | |- (if ?a then _ else _) = (if ?a then _ else _) => destruct a
  | |- attempt _ = attempt _ => apply attempt_eq
  | |- _ => solve [auto with anyx]
  end.

Lemma filtered_eq {A} f inc exc len (e e' : pyval -> option fval -> option fval -> M A) l : forall i,
  (forall v a b, e v a b = e' v a b) -> filtered f inc exc len e i l = filtered f inc exc len e' i l.
Proof. induction l as [|v l IH]; intros i H; cbn [filtered]; ae. Qed.
Lemma mapM_eq {A B} (e e' : A -> M B) l : (forall v, e v = e' v) -> mapM e l = mapM e' l.
Proof. induction l as [|v l IH]; intros H; cbn [mapM]; ae. Qed.
Lemma pairs_py_eq f inc exc key key' e e' l : forall d,
  (forall k, key k = key' k) -> (forall v a b, e v a b = e' v a b) -> pairs_py f inc exc key e l d = pairs_py f inc exc key' e' l d.
Proof. induction l as [|[k v] l IH]; intros d K H; cbn [pairs_py]; ae. Qed.
Lemma pairs_js_eq f inc exc key key' e e' l :
  (forall k, key k = key' k) -> (forall v a b, e v a b = e' v a b) -> pairs_js f inc exc key e l = pairs_js f inc exc key' e' l.
Proof. induction l as [|[k v] l IH]; intros K H; cbn [pairs_js]; ae. Qed.
Lemma zip_eq {A} f inc exc len (e e' : sz -> pyval -> option fval -> option fval -> M A) ss ss' :
  Forall2 (fun s s' => forall v a b, e s v a b = e' s' v a b) ss ss' -> forall i l,
  zip_items f inc exc len e i ss l = zip_items f inc exc len e' i ss' l.
Proof. induction 1 as [|s s' ss ss' H F IH]; intros i l; cbn [zip_items]; ae. Qed.
Lemma first_ok_eq {A B} (e e' : A -> M B) l l' : Forall2 (fun s s' => e s = e' s') l l' -> first_ok e l = first_ok e' l'.
Proof. induction 1 as [|s s' l l' H F IH]; cbn [first_ok]; ae. Qed.
Lemma register_all_eq {A} (R : A -> A -> Prop) (l l' : list A) x : Forall2 R l l' -> register_all l x = register_all l' x.
Proof. induction 1 as [|s s' l l' H F IH]; cbn [register_all]; ae. Qed.

Definition same_main (own : bool) (f f' : fmain) : Prop :=
  (forall l inc exc x, ok own x -> m_py f l inc exc x = m_py f' l inc exc x) /\
  (forall l inc exc x, ok own x -> m_js f l inc exc x = m_js f' l inc exc x) /\
  (forall m d inc exc x, ok true x -> m_comp_py f m d inc exc x = m_comp_py f' m d inc exc x) /\
  (forall m inc exc x, ok true x -> m_comp_js f m inc exc x = m_comp_js f' m inc exc x).
Definition both {A} (R : A -> A -> Prop) (o o' : option A) : Prop :=
  match o, o' with Some a, Some a' => R a a' | None, None => True | _, _ => False end.
Record same_sz (own : bool) (z z' : sz) : Prop := {
  same_py : forall v inc exc x, ok own x -> z_py z v inc exc x = z_py z' v inc exc x;
  same_js : forall v inc exc x, ok own x -> z_js z v inc exc x = z_js z' v inc exc x;
  same_key : own = true -> forall v x, ok true x -> z_key z v x = z_key z' v x;
  same_retry : z_retry z = z_retry z';
  same_default : z_default z = z_default z';
  same_mains : both (same_main own) (z_main z) (z_main z') }.
Record same_level (L L' : level) : Prop := {
  level_py : forall v inc exc x, ok true x -> l_py L v inc exc x = l_py L' v inc exc x;
  level_js : forall v inc exc x, ok true x -> l_js L v inc exc x = l_js L' v inc exc x;
  level_key : forall v x, ok true x -> l_key L v x = l_key L' v x;
  level_def_py : forall k v inc exc x, ok true x -> l_def_py L k v inc exc x = l_def_py L' k v inc exc x;
  level_def_js : forall k v inc exc x, ok true x -> l_def_js L k v inc exc x = l_def_js L' k v inc exc x;
  level_def_key : forall k v x, ok true x -> l_def_key L k v x = l_def_key L' k v x }.

Lemma F2_map {A B} (R : B -> B -> Prop) (f f' : A -> B) (S : A -> A -> Prop) l l' :
  (forall a a', In a l -> S a a' -> R (f a) (f' a')) -> Forall2 S l l' -> Forall2 R (map f l) (map f' l').
Proof. intros H F. induction F; cbn; constructor; [apply H; [now left|assumption]|apply IHF; intros; apply H; [now right|assumption]]. Qed.
Lemma F2_impl {A B} (R S : A -> B -> Prop) l l' : (forall a b, R a b -> S a b) -> Forall2 R l l' -> Forall2 S l l'.
Proof. intros H F. induction F; constructor; auto. Qed.
Lemma F2_nth {A} (R : A -> A -> Prop) l l' i : Forall2 R l l' -> both R (nth_error l i) (nth_error l' i).
Proof. intros F. revert i. induction F; intros [|i]; cbn; auto. Qed.
Lemma F2_nth_d {A} (R : A -> A -> Prop) l l' i d d' : R d d' -> Forall2 R l l' -> R (nth i l d) (nth i l' d').
Proof. intros D F. revert i. induction F; intros [|i]; cbn; auto. Qed.
Lemma F2_firstn {A} (R : A -> A -> Prop) n l l' : Forall2 R l l' -> Forall2 R (firstn n l) (firstn n l').
Proof. intros F. revert n. induction F; intros [|n]; cbn; constructor; auto. Qed.
Lemma F2_skipn {A} (R : A -> A -> Prop) n l l' : Forall2 R l l' -> Forall2 R (skipn n l) (skipn n l').
Proof. intros F. revert n. induction F; intros [|n]; cbn; auto. Qed.
Lemma F2_repeat {A} (R : A -> A -> Prop) a a' n : R a a' -> Forall2 R (repeat a n) (repeat a' n).
Proof. intros H. induction n; cbn; auto. Qed.

Lemma F2_length {A} {R : A -> A -> Prop} {l l'} : Forall2 R l l' -> length l = length l'.
Proof. induction 1; cbn; congruence. Qed.

Lemma union_eq {A B} (R : A -> A -> Prop) own (sel sel' : A -> extra -> M B) x l l' r : ok own x ->
  (forall s s', R s s' -> forall x, ok own x -> sel s x = sel' s' x) -> Forall2 R l l' ->
  union_serialize sel x l r = union_serialize sel' x l' r.
Proof.
  intros O H F. unfold union_serialize.
  assert (G : forall c, Forall2 (fun s s' => sel s (set_check c x) = sel' s' (set_check c x)) l l') by (intros c; eapply F2_impl; [|exact F]; intros; apply H; auto with anyx).
  apply bind_eq; [apply first_ok_eq, G|intros [b|]; [reflexivity|]].
  apply bind_eq; [destruct (_ && _); [apply first_ok_eq, G|reflexivity]|intros [b|]; [reflexivity|]].
  destruct (check_enabled _); [inversion F; reflexivity|]. apply bind_eq; [now apply register_all_eq with R|reflexivity].
Qed.

Section Alike.
Variable E : env.
Variable own_of : N -> option (ser * config).
Variable defs : nat -> option ser.
Hypothesis OWN : own_alike E own_of.
Hypothesis DEFS : defs_alike E defs.
Definition E' : env := with_schemas E own_of defs.

Lemma e_attr : get_attr E' = get_attr E. Proof. reflexivity. Qed.
Lemma e_py_str : py_str E' = py_str E. Proof. reflexivity. Qed.
Lemma e_str_key : str_key E' = str_key E. Proof. reflexivity. Qed.
Lemma e_unknown : unknown_text E' = unknown_text E. Proof. reflexivity. Qed.
Lemma e_hashed : hashed_key E' = hashed_key E. Proof. reflexivity. Qed.
Lemma e_items : dataclass_items E' = dataclass_items E. Proof. reflexivity. Qed.
Lemma e_enum : enum_value E' = enum_value E. Proof. reflexivity. Qed.
Lemma e_allows : class_allows E' = class_allows E. Proof. reflexivity. Qed.
Lemma e_inner : inner_value E' = inner_value E. Proof. reflexivity. Qed.
Lemma e_dcf : has_dataclass_fields E' = has_dataclass_fields E. Proof. reflexivity. Qed.
Lemma e_dcin : dataclass_inner E' = dataclass_inner E. Proof. reflexivity. Qed.
Lemma e_known : known_items E' = known_items E. Proof. reflexivity. Qed.
Lemma e_tag : tag_of E' = tag_of E. Proof. reflexivity. Qed.
Lemma e_jtext : json_text_of E' = json_text_of E. Proof. reflexivity. Qed.
Lemma e_type v : get_type E' v = get_type E v.
Proof.
  assert (K : forall n d, class_kind E' n d = class_kind E n d).
  { intros n d. unfold class_kind, E', with_schemas. cbn. specialize (OWN n). destruct (ci_ser (e_class E n)) as [[s c]|], (own_of n) as [[s' c']|]; now try contradiction. }
  destruct v; cbn [get_type]; try reflexivity; apply K.
Qed.
Ltac ee := try rewrite e_attr; try rewrite e_py_str; try rewrite e_str_key; try rewrite e_unknown; try rewrite e_hashed; try rewrite e_items; try rewrite e_enum; try rewrite e_allows; try rewrite e_inner; try rewrite e_dcf; try rewrite e_dcin; try rewrite e_known; try rewrite e_tag; try rewrite e_jtext.

Lemma key_body_eq again again' v x : ok true x -> (forall v x, ok true x -> again v x = again' v x) ->
  infer_key_body E again v x = infer_key_body E' again' v x.
Proof. intros O H. unfold infer_key_body. rewrite e_type. ee. destruct (get_type E v); ae. apply mapM_eq. intros; auto. Qed.

Section Build.
Variables L L' : level.
Hypothesis SL : same_level L L'.
Let Lpy : forall v inc exc x, ok true x -> l_py L v inc exc x = l_py L' v inc exc x. Proof. apply SL. Qed.
Let Ljs : forall v inc exc x, ok true x -> l_js L v inc exc x = l_js L' v inc exc x. Proof. apply SL. Qed.
Let Lkey : forall v x, ok true x -> l_key L v x = l_key L' v x. Proof. apply SL. Qed.
Hint Resolve Lpy Ljs Lkey : anyx.

Lemma fall_py_eq v inc exc x : ok true x -> fall_py L v inc exc x = fall_py L' v inc exc x.
Proof. intros. unfold fall_py; ae. Qed.
Lemma fall_js_eq v inc exc x : ok true x -> fall_js L v inc exc x = fall_js L' v inc exc x.
Proof. intros. unfold fall_js; ae. Qed.
Lemma fall_key_eq v x : ok true x -> fall_key L v x = fall_key L' v x.
Proof. intros. unfold fall_key; ae. Qed.
Lemma invalid_eq v x : ok true x -> invalid_key L v x = invalid_key L' v x.
Proof. intros. unfold invalid_key; ae. Qed.
Hint Resolve fall_py_eq fall_js_eq fall_key_eq invalid_eq : anyx.
Lemma subclass_eq c v inc exc x : ok true x -> subclass_py L c v inc exc x = subclass_py L' c v inc exc x.
Proof. intros. unfold subclass_py; ae. Qed.
Hint Resolve subclass_eq : anyx.

Lemma same_simple own py py' js js' key key' r :
  (forall v inc exc x, ok own x -> py v inc exc x = py' v inc exc x) ->
  (forall v inc exc x, ok own x -> js v inc exc x = js' v inc exc x) ->
  (own = true -> forall v x, ok true x -> key v x = key' v x) -> same_sz own (simple py js key r) (simple py' js' key' r).
Proof. intros A B C. constructor; try assumption; try reflexivity. Qed.
Lemma same_any own : same_sz own (any_ser L) (any_ser L').
Proof. apply same_simple; intros; auto with anyx. Qed.

Lemma tuple_serializers_eq own ss ss' vr n : Forall2 (same_sz own) ss ss' ->
  Forall2 (same_sz own) (tuple_serializers L ss vr n) (tuple_serializers L' ss' vr n).
Proof.
  intros F. unfold tuple_serializers. destruct vr as [k|]; [|assumption]. rewrite <- (F2_length F).
  apply Forall2_app; [now apply F2_firstn|]. apply Forall2_app; [|now apply F2_skipn].
  apply F2_repeat. apply F2_nth_d; [apply same_any|assumption].
Qed.
Lemma tuple_each_eq {A} own f ss ss' vr (e e' : sz -> pyval -> option fval -> option fval -> M A) inc exc x l :
  Forall2 (same_sz own) ss ss' -> (forall z z', same_sz own z z' -> forall v a b, e z v a b = e' z' v a b) ->
  tuple_each L f ss vr e inc exc x l = tuple_each L' f ss' vr e' inc exc x l.
Proof.
  intros F H. unfold tuple_each. cbv zeta. destruct vr as [k|].
  - apply zip_eq. eapply F2_impl; [exact H|]. now apply tuple_serializers_eq.
  - rewrite <- (F2_length F). destruct (_ && _); [reflexivity|]. apply bind_eq; [apply zip_eq; eapply F2_impl; [exact H|assumption]|intros].
    destruct (skipn _ l); [reflexivity|]. apply bind_eq; [reflexivity|intros]. apply bind_eq; [|reflexivity].
    apply filtered_eq. intros. apply H. apply same_any.
Qed.
Lemma tagged_eq {B} own d t l l' r (sel sel' : sz -> extra -> M B) v x : ok own x ->
  (forall z z', same_sz own z z' -> forall x, ok own x -> sel z x = sel' z' x) -> Forall2 (same_sz own) l l' ->
  tagged_serialize E d t l r sel v x = tagged_serialize E' d t l' r sel' v x.
Proof.
  intros O H F. pose proof (union_eq (same_sz own) own sel sel' x l l' r O H F) as U. unfold tagged_serialize. cbv zeta. ee.
  destruct (tag_of E d v); [|ae]. destruct (match py_str E p with Some s => assoc s t | None => None end) as [i|]; [|assumption].
  pose proof (F2_nth _ _ _ i F) as N. destruct (nth_error l i) as [z|], (nth_error l' i) as [z'|]; try contradiction; [|reflexivity].
  ae; apply H; auto with anyx.
Qed.

Section FieldsAlike.
Variable own : bool.
Variable mode : fields_mode.
Variables fields fields' : list (str * field sz).
Variables extras extras' : option sz.
Variables comp comp' : list (computed sz).
Definition same_field (f f' : field sz) : Prop :=
  f_alias f = f_alias f' /\ f_required f = f_required f' /\ f_by_alias f = f_by_alias f' /\ both (same_sz own) (f_ser f) (f_ser f').
Definition same_comp (c c' : computed sz) : Prop :=
  cf_name c = cf_name c' /\ cf_alias c = cf_alias c' /\ cf_by_alias c = cf_by_alias c' /\ same_sz true (cf_ser c) (cf_ser c').
Hypothesis SF : Forall2 (fun kf kf' => fst kf = fst kf' /\ same_field (snd kf) (snd kf')) fields fields'.
Hypothesis SE : both (same_sz own) extras extras'.
Hypothesis SC : Forall2 same_comp comp comp'.

Lemma field_eq n : both same_field (assoc n fields) (assoc n fields').
Proof.
  clear - SF. revert SF. intros Q. induction Q as [|[k f] [k' f'] l l' [H1 H2] F IH]; cbn [assoc]; [exact I|]. cbn in H1, H2. subst k'. destruct (str_eqb _ _); [exact H2|exact IH].
Qed.
Lemma required_eq : required_fields fields = required_fields fields'.
Proof.
  clear - SF. unfold required_fields. revert SF. intros Q. induction Q as [|[k f] [k' f'] l l' [H1 (H2 & H3 & H4 & H5)] F IH]; [reflexivity|]. cbn [List.filter snd] in *. rewrite H3.
  destruct (f_required f'); cbn [length]; now rewrite IH.
Qed.
Lemma used_eq o o' : both same_field o o' -> used o = used o'.
Proof. destruct o as [f|], o' as [f'|]; cbn; try contradiction; [|reflexivity]. intros (_ & -> & _). reflexivity. Qed.
Lemma out_key_eq n f f' x : same_field f f' -> out_key n f x = out_key n f' x.
Proof. intros (A & _ & B & _). unfold out_key. now rewrite A, B. Qed.
Lemma default_eq v x s s' : same_sz own s s' -> is_default v x s = is_default v x s'.
Proof. intros H. unfold is_default. now rewrite (same_default _ _ _ H). Qed.
Lemma comp_key_eq c c' x : same_comp c c' -> comp_key c x = comp_key c' x.
Proof. intros (A & B & C & _). unfold comp_key. now rewrite A, B, C. Qed.
Lemma extra_eq v inc exc x : ok own x ->
  match extras with Some s => z_py s v inc exc x | None => l_py L v inc exc x end = match extras' with Some s => z_py s v inc exc x | None => l_py L' v inc exc x end.
Proof. intros O. destruct extras, extras'; try contradiction; [now apply SE|auto with anyx]. Qed.

Lemma main_py_loop_eq inc exc x l : ok own x -> forall d n,
  main_py_loop L mode fields extras inc exc x l d n = main_py_loop L' mode fields' extras' inc exc x l d n.
Proof.
  intros O. induction l as [|[k v] l IH]; intros d n; cbn [main_py_loop]; [reflexivity|]. apply bind_eq; [reflexivity|intros w]. apply bind_eq; [reflexivity|intros ks].
  cbv zeta. pose proof (field_eq ks) as A. rewrite (used_eq _ _ A). destruct (_ && _); [apply IH|]. apply bind_eq; [reflexivity|intros [[ni ne]|]; [|apply IH]].
  destruct (assoc ks fields) as [f|], (assoc ks fields') as [f'|]; cbn in A; try contradiction.
  - pose proof A as (_ & _ & _ & S). destruct (f_ser f) as [s|], (f_ser f') as [s'|]; cbn in S; try contradiction; [|apply IH].
    rewrite (default_eq w x _ _ S), (out_key_eq ks f f' x A). destruct (is_default w x s'); [apply IH|].
    apply bind_eq; [now apply S|intros]. apply bind_eq; [reflexivity|intros; apply IH].
  - destruct (is_td_allow mode); [|destruct (is_strict _); [reflexivity|apply IH]].
    apply bind_eq; [now apply extra_eq|intros]. apply bind_eq; [reflexivity|intros; apply IH].
Qed.
Lemma main_py_eq l inc exc x : ok own x -> main_to_python L mode fields extras l inc exc x = main_to_python L' mode fields' extras' l inc exc x.
Proof. intros O. unfold main_to_python. rewrite required_eq. apply bind_eq; [now apply main_py_loop_eq|reflexivity]. Qed.
Lemma main_js_eq l inc exc x : ok own x -> main_to_json L mode fields l inc exc x = main_to_json L' mode fields' l inc exc x.
Proof.
  intros O. induction l as [|[k v] l IH]; cbn [main_to_json]; [reflexivity|]. apply bind_eq; [reflexivity|intros w]. destruct (_ && _); [apply IH|].
  apply bind_eq; [reflexivity|intros ks]. apply bind_eq; [reflexivity|intros [[ni ne]|]; [|apply IH]]. pose proof (field_eq ks) as A.
  destruct (assoc ks fields) as [f|], (assoc ks fields') as [f'|]; cbn in A; try contradiction.
  - pose proof A as (_ & _ & _ & S). destruct (f_ser f) as [s|], (f_ser f') as [s'|]; cbn in S; try contradiction; [|apply IH].
    rewrite (default_eq w x _ _ S), (out_key_eq ks f f' x A). destruct (is_default w x s'); [apply IH|].
    apply bind_eq; [now apply S|intros]. ae.
  - destruct (is_td_allow mode); [|apply IH]. ae.
Qed.
Lemma extras_py_eq l inc exc x : ok own x -> forall d, extras_py L extras l inc exc x d = extras_py L' extras' l inc exc x d.
Proof. intros O. induction l as [|[k v] l IH]; intros d; cbn [extras_py]; ae. now apply extra_eq. Qed.
Lemma extras_js_eq l inc exc x : ok true x -> extras_js L l inc exc x = extras_js L' l inc exc x.
Proof. intros O. induction l as [|[k v] l IH]; cbn [extras_js]; ae. Qed.
Lemma comp_py_eq m d inc exc x : ok true x -> comp_to_python E comp m d inc exc x = comp_to_python E' comp' m d inc exc x.
Proof.
  intros O. unfold comp_to_python. destruct m as [m|]; [|reflexivity]. destruct (x_round_trip x); [reflexivity|].
  assert (O' : ok true (set_model (Some m) x)) by auto with anyx. revert O'. generalize (set_model (Some m) x). clear O x. intros x O. revert d.
  revert SC; intros Q; induction Q as [|c c' l l' H F IH]; intros d; cbn [comp_py_loop]; [reflexivity|]. ee. rewrite (comp_key_eq c c' x H).
  destruct H as (N & _ & _ & S). rewrite N. ae. now apply S.
Qed.
Lemma comp_js_eq m inc exc x : ok true x -> comp_to_json E comp m inc exc x = comp_to_json E' comp' m inc exc x.
Proof.
  intros O. unfold comp_to_json. destruct m as [m|]; [|reflexivity]. destruct (x_round_trip x); [reflexivity|].
  revert SC; intros Q; induction Q as [|c c' l l' H F IH]; cbn [comp_js_loop]; [reflexivity|]. ee. rewrite (comp_key_eq c c' x H).
  destruct H as (N & _ & _ & S). rewrite N. ae. now apply S.
Qed.
Lemma same_fields : same_sz own (fields_ser E L mode fields extras comp) (fields_ser E' L' mode fields' extras' comp').
Proof.
  constructor; try reflexivity; cbn [z_py z_js z_key z_main fields_ser].
  - intros v inc exc x O. destruct (td_inferred x); [apply Lpy; exact (ok_next _ _ O)|]. destruct (extract_dicts mode v) as [[main ext]|]; [|ae].
    apply bind_eq; [apply main_py_eq; auto with anyx|intros]. apply bind_eq; [destruct ext; [now apply extras_py_eq|reflexivity]|intros].
    apply bind_eq; [apply comp_py_eq; auto with anyx|reflexivity].
  - intros v inc exc x O. destruct (extract_dicts mode v) as [[main ext]|]; [|ae]. destruct (td_inferred x); [apply Ljs; exact (ok_next _ _ O)|].
    apply bind_eq; [apply main_js_eq; auto with anyx|intros]. apply bind_eq; [destruct ext; [apply extras_js_eq; auto with anyx|reflexivity]|intros].
    apply bind_eq; [apply comp_js_eq; auto with anyx|reflexivity].
  - intros _ v x O. now apply invalid_eq.
  - exact (conj main_py_eq (conj main_js_eq (conj comp_py_eq comp_js_eq))).
Qed.
End FieldsAlike.

Lemma all_F2 own l : forall l',
  (fix all (l l' : list ser) : Prop := match l, l' with [], [] => True | a :: r, a' :: r' => alike own a a' /\ all r r' | _, _ => False end) l l' ->
  Forall2 (alike own) l l'.
Proof. induction l as [|a l IH]; intros [|a' l']; try contradiction; [constructor|]. intros [H F]. constructor; [assumption|now apply IH]. Qed.
Lemma retry_eq own l l' : Forall2 (same_sz own) l l' -> existsb z_retry l = existsb z_retry l'.
Proof. induction 1 as [|z z' l l' H F IH]; [reflexivity|]. cbn. now rewrite (same_retry _ _ _ H), IH. Qed.
Lemma sp own z z' : same_sz own z z' -> forall v inc exc x, ok own x -> z_py z v inc exc x = z_py z' v inc exc x. Proof. intros H; apply H. Qed.
Lemma sj own z z' : same_sz own z z' -> forall v inc exc x, ok own x -> z_js z v inc exc x = z_js z' v inc exc x. Proof. intros H; apply H. Qed.
Lemma sk z z' : same_sz true z z' -> forall v x, ok true x -> z_key z v x = z_key z' v x. Proof. intros H; now apply H. Qed.
Lemma sjt z z' : same_sz true z z' -> forall v inc exc x, ok true x -> z_js z v inc exc x = z_js z' v inc exc x. Proof. intros H; apply H. Qed.

Ltac simp H := cbn [alike] in H; try contradiction.
Ltac st := apply same_simple; [intros u inc exc x O|intros u inc exc x O|let Y := fresh in intros Y u x O; try (match type of Y with ?o = true => is_var o; subst o end)].
Lemma same_build s : forall own s', alike own s s' -> same_sz own (build E L s) (build E' L' s').
Proof.
  induction s using ser_ind'; intros own [] A; simp A; cbn [build].
  - apply same_any.
  - st; ae.
  - st; ae.
  - st; ae.
  - subst. st; ae.
  - st; ae.
  - subst. st; ae.
  - apply IHs in A. unfold nullable_ser. rewrite (same_retry _ _ _ A). st; ae; now apply A.
  - destruct A as [<- A]. apply IHs in A. constructor; cbn; try apply A; reflexivity.
  - destruct A as [<- A]. apply IHs in A. unfold list_ser. rewrite (same_retry _ _ _ A). st; ae; apply filtered_eq; intros; now apply A.
  - apply IHs in A. st; ae; apply mapM_eq; intros; now apply A.
  - apply IHs in A. st; ae; apply mapM_eq; intros; now apply A.
  - destruct A as (<- & <- & A). apply all_F2 in A.
    assert (Q : Forall2 (same_sz own) (map (build E L) l) (map (build E' L') items)).
    { eapply F2_map; [|exact A]. intros a a' I. exact (proj1 (Forall_forall _ _) H a I own a'). }
    st; ae; apply tuple_each_eq with own || apply tuple_each_eq with true; auto; intros; match goal with Z : same_sz _ _ _ |- _ => now apply Z end.
  - destruct A as (<- & K & A). apply IHs1 in K. apply IHs2 in A.
    st; ae; (apply pairs_py_eq || apply pairs_js_eq); intros; ae; try (now apply A); try (apply K; auto with anyx).
  - destruct A as (<- & F & X & C). apply same_fields.
    + revert fields F. induction fs as [|[n f] fs IHf]; intros [|[n' f'] fs']; try contradiction; [constructor|]. intros [(-> & A1 & A2 & A3 & A4) F].
      inversion H; subst. constructor; [|now apply IHf]. split; [reflexivity|]. cbn [snd]. unfold same_field, map_field. cbn [f_alias f_ser f_required f_by_alias].
      repeat (split; [assumption|]). cbn [snd] in *. destruct (f_ser f), (f_ser f'); cbn in *; try contradiction; auto.
    + destruct ex, extras; cbn in *; try contradiction; auto.
    + revert comp C. induction c as [|a c IHc]; intros [|a' c']; try contradiction; [constructor|]. intros [(A1 & A2 & A3 & A4) F0].
      inversion H1; subst. constructor; [|now apply IHc]. unfold same_comp, map_computed. cbn. auto.
  - destruct own.
    + destruct (A eq_refl) as (<- & <- & <- & B). apply IHs in B. unfold model_ser. cbv zeta. ee. st.
      * cbn [x_duck set_duck set_model]. unfold ok in O. destruct (x_duck x) eqn:D; [contradiction| |]; cbn [next_mode is_inferred].
        -- apply Lpy. unfold ok. cbn. reflexivity.
        -- assert (O' : ok false (set_duck NeedsInference (set_model (Some u) x))) by exact I. ae; now apply B.
      * cbn [x_duck set_duck set_model]. unfold ok in O. destruct (x_duck x) eqn:D; [contradiction| |]; cbn [next_mode is_inferred].
        -- apply Ljs. unfold ok. cbn. reflexivity.
        -- assert (O' : ok false (set_duck NeedsInference (set_model (Some u) x))) by exact I. ae; now apply B.
      * ae.
    + unfold model_ser. cbv zeta. apply same_simple; [intros u inc exc x O|intros u inc exc x O|discriminate];
        unfold ok in O; cbn [x_duck set_duck set_model]; destruct (x_duck x); try contradiction; try discriminate; cbn [next_mode is_inferred]; [apply Lpy|apply Ljs]; reflexivity.
  - subst own. unfold model_ser, dataclass_ser. cbv zeta. apply same_simple; [intros u inc exc x O|intros u inc exc x O|discriminate];
        unfold ok in O; cbn [x_duck set_duck set_model]; destruct (x_duck x); try contradiction; try discriminate; cbn [next_mode is_inferred]; [apply Lpy|apply Ljs]; reflexivity.
  - subst own. unfold model_ser, dataclass_ser. cbv zeta. apply same_simple; [intros u inc exc x O|intros u inc exc x O|discriminate];
        unfold ok in O; cbn [x_duck set_duck set_model]; destruct (x_duck x); try contradiction; try discriminate; cbn [next_mode is_inferred]; [apply Lpy|apply Ljs]; reflexivity.
  - destruct own.
    + destruct (A eq_refl) as (<- & <- & B). apply IHs in B. unfold dataclass_ser. cbv zeta. ee.
      pose proof (same_mains _ _ _ B) as Mn. st.
      * cbn [x_duck set_duck set_model]. unfold ok in O. destruct (x_duck x) eqn:D; [contradiction| |]; cbn [next_mode is_inferred].
        -- apply Lpy. unfold ok. cbn. reflexivity.
        -- assert (O' : ok false (set_duck NeedsInference (set_model (Some u) x))) by exact I. assert (O1 : ok true x) by (unfold ok; now rewrite D).
           destruct (class_allows _ _ _ _ _); [|ae]. destruct (z_main (build E L s)), (z_main (build E' L' inner)); try contradiction.
           ++ destruct Mn as (M1 & M2 & M3 & M4). ae.
           ++ ae. now apply B.
      * cbn [x_duck set_duck set_model]. unfold ok in O. destruct (x_duck x) eqn:D; [contradiction| |]; cbn [next_mode is_inferred].
        -- apply Ljs. unfold ok. cbn. reflexivity.
        -- assert (O' : ok false (set_duck NeedsInference (set_model (Some u) x))) by exact I. assert (O1 : ok true x) by (unfold ok; now rewrite D).
           destruct (class_allows _ _ _ _ _); [|ae]. destruct (z_main (build E L s)), (z_main (build E' L' inner)); try contradiction.
           ++ destruct Mn as (M1 & M2 & M3 & M4). ae.
           ++ ae. now apply B.
      * ae.
    + unfold dataclass_ser. cbv zeta. apply same_simple; [intros u inc exc x O|intros u inc exc x O|discriminate];
        unfold ok in O; cbn [x_duck set_duck set_model]; destruct (x_duck x); try contradiction; try discriminate; cbn [next_mode is_inferred]; [apply Lpy|apply Ljs]; reflexivity.
  - apply all_F2 in A.
    assert (Q : Forall2 (same_sz own) (map (build E L) l) (map (build E' L') choices)).
    { eapply F2_map; [|exact A]. intros a a' I. exact (proj1 (Forall_forall _ _) H a I own a'). }
    unfold union_ser, or_infer. cbv zeta. rewrite (retry_eq _ _ _ Q). st; (apply bind_eq; [|intros; ae]).
    + apply (union_eq (same_sz own) own); auto. intros; match goal with Z : same_sz _ _ _ |- _ => now apply Z end.
    + apply (union_eq (same_sz own) own); auto. intros; match goal with Z : same_sz _ _ _ |- _ => now apply Z end.
    + apply (union_eq (same_sz true) true); auto. intros; match goal with Z : same_sz _ _ _ |- _ => now apply Z end.
  - destruct A as (<- & <- & A). apply all_F2 in A.
    assert (Q : Forall2 (same_sz own) (map (build E L) l) (map (build E' L') choices)).
    { eapply F2_map; [|exact A]. intros a a' I. exact (proj1 (Forall_forall _ _) H a I own a'). }
    unfold tagged_ser, or_infer. cbv zeta. rewrite (retry_eq _ _ _ Q). st; (apply bind_eq; [|intros; ae]).
    + apply (tagged_eq own); auto. intros; match goal with Z : same_sz _ _ _ |- _ => now apply Z end.
    + apply (tagged_eq own); auto. intros; match goal with Z : same_sz _ _ _ |- _ => now apply Z end.
    + apply (tagged_eq true); auto. intros; match goal with Z : same_sz _ _ _ |- _ => now apply Z end.
  - subst. st; ae.
  - destruct A as [<- A]. unfold enum_ser. ee. destruct o, sub; cbn in A, H; try contradiction.
    + apply H in A. rewrite (same_retry _ _ _ A). st; ae; now apply A.
    + st; ae.
  - subst. unfold to_string_ser. ee. st; ae.
  - destruct A as [A1 A2]. apply IHs1 in A1. apply IHs2 in A2. unfold json_or_python_ser. apply same_simple; [apply A2|apply A1|apply A1].
  - apply IHs in A. unfold json_ser. ee. st; ae.
    + f_equal. now apply A.
    + now apply A.
    + f_equal. now apply A.
    + now apply A.
    + f_equal. now apply A.
  - destruct A as [<- <-]. st; [apply SL|apply SL|apply SL]; auto with anyx.
  - destruct A as (<- & <- & <- & A & B). apply IHs in A. unfold function_ser. cbv zeta.
    destruct fb, fb0; cbn in B, H; try contradiction.
    + apply H in B. rewrite (same_retry _ _ _ A), (same_retry _ _ _ B). st; ae; try (now apply A); now apply B.
    + rewrite (same_retry _ _ _ A). st; ae; now apply A.
Qed.

Lemma own_eq v : both (fun a b => snd a = snd b /\ alike true (fst a) (fst b)) (own_serializer E v) (own_serializer E' v).
Proof.
  unfold own_serializer. destruct (class_of v) as [n|]; [|exact I]. cbn [E' with_schemas e_class ci_ser]. specialize (OWN n).
  destruct (ci_ser (e_class E n)) as [[s c]|], (own_of n) as [[s' c']|]; try contradiction; [exact OWN|exact I].
Qed.
Lemma infer_py_eq v inc exc x : ok true x ->
  infer_py_body E L (fun s => z_py (build E L s)) v inc exc x = infer_py_body E' L' (fun s => z_py (build E' L' s)) v inc exc x.
Proof.
  intros O. pose proof (own_eq v) as W. unfold infer_py_body. cbv zeta. rewrite e_type. ee.
  destruct (own_serializer E v) as [[s c]|], (own_serializer E' v) as [[s' c']|]; try contradiction.
  - destruct W as [W1 W2]. cbn in W1, W2. subst c'. pose proof (same_build s true s' W2) as B.
    assert (P : bind (opt (Some (s, c))) (fun sc => z_py (build E L (fst sc)) v inc exc (nested_extra (snd sc) x))
              = bind (opt (Some (s', c))) (fun sc => z_py (build E' L' (fst sc)) v inc exc (nested_extra (snd sc) x)))
      by (unfold bind; cbn; now rewrite (same_py _ _ _ B) by auto with anyx).
    destruct (get_type E v); try exact P; ae; try (apply filtered_eq; intros; ae); try (apply mapM_eq; intros; ae); try (apply pairs_py_eq; intros; ae).
  - destruct (get_type E v); try apply bind_none; ae; try (apply filtered_eq; intros; ae); try (apply mapM_eq; intros; ae); try (apply pairs_py_eq; intros; ae).
Qed.
Lemma infer_js_eq v inc exc x : ok true x ->
  infer_js_body E L (fun s => z_js (build E L s)) v inc exc x = infer_js_body E' L' (fun s => z_js (build E' L' s)) v inc exc x.
Proof.
  intros O. pose proof (own_eq v) as W. unfold infer_js_body. cbv zeta. rewrite e_type. ee.
  destruct (own_serializer E v) as [[s c]|], (own_serializer E' v) as [[s' c']|]; try contradiction.
  - destruct W as [W1 W2]. cbn in W1, W2. subst c'. pose proof (same_build s true s' W2) as B.
    assert (P : bind (opt (Some (s, c))) (fun sc => z_js (build E L (fst sc)) v inc exc (nested_extra (snd sc) x))
              = bind (opt (Some (s', c))) (fun sc => z_js (build E' L' (fst sc)) v inc exc (nested_extra (snd sc) x)))
      by (unfold bind; cbn; now rewrite (same_js _ _ _ B) by auto with anyx).
    destruct (get_type E v); try exact P; ae; try (apply filtered_eq; intros; ae); try (apply mapM_eq; intros; ae); try (apply pairs_js_eq; intros; ae).
  - destruct (get_type E v); try apply bind_none; ae; try (apply filtered_eq; intros; ae); try (apply mapM_eq; intros; ae); try (apply pairs_js_eq; intros; ae).
Qed.
End Build.

Record half (P P' : level) : Prop := {
  half_py : forall v inc exc x, ok true x -> l_py P v inc exc x = l_py P' v inc exc x;
  half_js : forall v inc exc x, ok true x -> l_js P v inc exc x = l_js P' v inc exc x;
  half_def_py : forall k v inc exc x, ok true x -> l_def_py P k v inc exc x = l_def_py P' k v inc exc x;
  half_def_js : forall k v inc exc x, ok true x -> l_def_js P k v inc exc x = l_def_js P' k v inc exc x }.
Lemma same_keyed P P' n : half P P' -> same_level (keyed E P n) (keyed E' P' n).
Proof.
  intros [A B C D]. induction n as [|n IH]; cbn [keyed]; constructor; cbn [l_py l_js l_key l_def_py l_def_js l_def_key]; auto.
  - intros v x O. apply key_body_eq; [assumption|apply IH].
  - intros k v x O. specialize (DEFS k). cbn [E' with_schemas e_def]. destruct (e_def E k), (defs k); try contradiction; [|reflexivity].
    apply (same_key _ _ _ (same_build _ _ IH _ _ _ DEFS)); auto.
Qed.
Lemma same_levels n : same_level (levels E n) (levels E' n).
Proof.
  induction n as [|n IH]; cbn [levels]; unfold no_level, next_level; apply same_keyed; constructor; cbn [l_py l_js l_key l_def_py l_def_js l_def_key]; auto.
  - intros v inc exc x O. destruct (enter v None x) as [x'|] eqn:En; [|reflexivity]. apply infer_py_eq; [assumption|eapply ok_enter; eassumption].
  - intros v inc exc x O. destruct (enter v None x) as [x'|] eqn:En; [|reflexivity]. apply infer_js_eq; [assumption|eapply ok_enter; eassumption].
  - intros k v inc exc x O. specialize (DEFS k). cbn [E' with_schemas e_def]. destruct (e_def E k), (defs k); try contradiction; [|reflexivity].
    destruct (enter v _ x) as [x'|] eqn:En; [|reflexivity]. apply (same_py _ _ _ (same_build _ _ IH _ _ _ DEFS)). eapply ok_enter; eassumption.
  - intros k v inc exc x O. specialize (DEFS k). cbn [E' with_schemas e_def]. destruct (e_def E k), (defs k); try contradiction; [|reflexivity].
    destruct (enter v _ x) as [x'|] eqn:En; [|reflexivity]. apply (same_js _ _ _ (same_build _ _ IH _ _ _ DEFS)). eapply ok_enter; eassumption.
Qed.
End Alike.

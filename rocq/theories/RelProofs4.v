From Coq Require Import List NArith ZArith Bool Lia.
From Verif Require Import Base Float64 Float64Proofs IntParse Numbers NumbersProofs BytesCodec Values VState LookupKey LookupKeyProofs Collections Child Inputs Scalars Literal LiteralProofs Wrappers Union TaggedUnion Tuple ModelFields TypedDict Assign Arguments Classes Interp InterpSpec InterpProofs RelSpec RelProofs RelProofs2 RelProofs3.
Import ListNotations.
Open Scope nat_scope.

Section Nodes.
Context {mrg : Merge}.
Variable b : bool.
Variable m : rmode.
Hypothesis HB : m <> Same -> b = false.

(** ** Unions *)
Lemma Rex_eq x1 x2 : Rex true x1 x2 -> x1 = x2.
Proof. intros []. destruct x1, x2; cbn in *. rewrite rx_type by reflexivity. congruence. Qed.
Lemma smart_loop_same custom o1 n1 o2 n2 cs i best errs s1 s2 : st_extra s1 = st_extra s2 -> st_partial s1 = st_partial s2 -> is_some o1 = is_some o2 ->
  is_some (st_exactness s1) = is_some (st_exactness s2) ->
  match smart_loop custom o1 n1 cs i best errs s1, smart_loop custom o2 n2 cs i best errs s2 with
  | Tried b1 e1 t1, Tried b2 e2 t2 => b1 = b2 /\ e1 = e2 /\ st_extra t1 = st_extra t2 /\ st_partial t1 = st_partial t2 /\ is_some (st_exactness t1) = is_some (st_exactness t2)
  | Returned r1 t1, Returned r2 t2 => r1 = r2 /\ st_extra t1 = st_extra t2 /\ st_partial t1 = st_partial t2 /\ is_some (st_exactness t1) = is_some (st_exactness t2)
  | _, _ => False
  end.
Proof.
  intros X P O E. destruct cs as [|c cs]; cbn [smart_loop]; [repeat split; assumption|].
  replace (set_fields_set None (set_exactness (Some Exact) s1)) with (set_fields_set None (set_exactness (Some Exact) s2)) by (unfold set_fields_set, set_exactness; cbn; congruence).
  destruct (ch_validator c i _) as [r t]. clear s1 s2 X P E. revert best errs r t c. induction cs as [|c' cs IH]; intros best errs r t c.
  all: destruct r as [v|[l| | | |]]; cbn [smart_loop]; try (repeat split; reflexivity).
  all: try (destruct (st_exactness t) as [[]|] eqn:ET, (st_fields_set t) as [n|] eqn:FT; cbv zeta; cbn; try (repeat split; first [reflexivity|assumption])).
  all: destruct (ch_validator c' i _) as [r' t']; apply IH.
Qed.
Lemma smart_rel custom cs : b = true -> m = Same -> rv b m (validate_smart custom cs) (validate_smart custom cs).
Proof.
  intros B M i1 i2 s1 s2 I S. rewrite B in *. destruct (Rin_cases _ _ _ I) as [<-|N]; [|easy]. pose proof (Rex_eq _ _ (rs_ex _ _ _ S)) as X.
  unfold validate_smart. pose proof (smart_loop_same custom (st_exactness s1) (st_fields_set s1) (st_exactness s2) (st_fields_set s2) cs i1 None [] s1 s2 X (rs_partial _ _ _ S) (rs_exact _ _ _ S) (rs_exact _ _ _ S)) as L.
  assert (T : forall t1 t2, st_extra t1 = st_extra t2 -> st_partial t1 = st_partial t2 -> is_some (st_exactness t1) = is_some (st_exactness t2) -> Rst true t1 t2).
  { intros t1 t2 E1 E2 E3. split; [rewrite E1; apply Rst_refl|assumption|assumption]. }
  destruct (smart_loop _ _ _ _ _ _ _ s1) as [b1 e1 t1|r1 t1], (smart_loop _ _ _ _ _ _ _ s2) as [b2 e2 t2|r2 t2]; try easy.
  - destruct L as (-> & -> & E1 & E2 & E3).
    assert (T' : Rst true (set_fields_set (st_fields_set s1) (set_exactness (st_exactness s1) t1)) (set_fields_set (st_fields_set s2) (set_exactness (st_exactness s2) t2))).
    { apply Rst_fields, Rst_exact; [apply S|now apply T]. }
    destruct b2 as [[[v e] [n|]]|]; [constructor; [rr|]; now apply Rst_add, Rst_floor|constructor; [rr|]; now apply Rst_floor|constructor; [|exact T']; constructor; apply Rerr_refl].
  - destruct L as (-> & E1 & E2 & E3). constructor; [apply Rr_refl|now apply T].
Qed.

Inductive Rch : choice -> choice -> Prop :=
| RCh l v1 v2 : rv b m v1 v2 -> Rch {| ch_validator := v1; ch_label := l |} {| ch_validator := v2; ch_label := l |}.
Definition Rmember (e1 e2 : str * list line_error) : Prop := fst e1 = fst e2 /\ Rlines (snd e1) (snd e2).
Lemma into_val_rel custom e1 e2 i1 i2 : Rin m i1 i2 -> Forall2 Rmember e1 e2 -> Rerr (into_val_error custom e1 i1) (into_val_error custom e2 i2).
Proof.
  intros I F. unfold into_val_error. destruct custom; constructor; [eapply Rlines_one; exact I|].
  induction F as [|[l1 x1] [l2 x2] f1 f2 [A B] F IH]; cbn [flat_map]; [reflexivity|]. cbn in A, B. subst l2. cbn [fst snd]. apply Rlines_app; [|exact IH]. apply Rlines_map; [apply rel_outer|exact B].
Qed.
Lemma ltr_rel custom c1 c2 : Forall2 Rch c1 c2 -> rv b m (validate_left_to_right custom c1) (validate_left_to_right custom c2).
Proof.
  intros F i1 i2 s1 s2 I S. unfold validate_left_to_right.
  assert (G : forall e1 e2 s1 s2, Forall2 Rmember e1 e2 -> Rst b s1 s2 -> RP b eq (ltr_loop custom c1 i1 e1 s1) (ltr_loop custom c2 i2 e2 s2)); [|apply G; [constructor|exact S]].
  clear s1 s2 S. induction F as [|x1 x2 c1 c2 X F IH]; intros e1 e2 s1 s2 M S; cbn [ltr_loop].
  - constructor; [|exact S]. constructor. now apply into_val_rel.
  - destruct X as [l v1 v2 V]. cbn [ch_validator]. destruct (V _ _ _ _ I S) as [r1 r2 t1 t2 R T]. destruct R as [a1 a2 ->|y1 y2 Q]; [rp|].
    destruct Q as [l1 l2 L| | | |]; try rp. apply IH; [|exact T]. unfold push_errors. destruct custom; [exact M|]. cbn [ch_label]. apply Forall2_app; [exact M|].
    constructor; [|constructor]. split; [reflexivity|exact L].
Qed.

(** ** Tagged unions *)
Definition Rtag (c1 c2 : pyval * validator) : Prop := fst c1 = fst c2 /\ rv b m (snd c1) (snd c2).
Lemma find_call_rel repr py f2s md custom c1 c2 tag : Forall2 Rtag c1 c2 -> rv b m (find_call_validator repr py f2s md custom c1 tag) (find_call_validator repr py f2s md custom c2 tag).
Proof.
  intros F i1 i2 s1 s2 I S. unfold find_call_validator.
  assert (K : map fst c1 = map fst c2) by (clear -F; induction F as [|x1 x2 l1 l2 [A B] F IH]; cbn; congruence). rewrite K.
  destruct (lk_validate _ _ _ _ _) as [[id|]|]; try (destruct custom; rp).
  assert (N : Ropt Rtag (nth_error c1 id) (nth_error c2 id)). { clear -F. revert id. induction F as [|x1 x2 l1 l2 A F IH]; intros [|id]; cbn; try constructor; auto. }
  destruct N as [|[t1 v1] [t2 v2] [A V]]; [rp|]. cbn in V. destruct (V _ _ _ _ I S) as [r1 r2 u1 u2 R U]. destruct R as [a1 a2 ->|e1 e2 Q]; [rp|].
  constructor; [|exact U]. constructor. now apply Rerr_outer.
Qed.
Lemma tagged_rel repr ga py f2s md d fa custom c1 c2 : (b = false -> merge = false -> fa = false) -> Forall2 Rtag c1 c2 ->
  rv b m (tagged_union_validate repr ga py f2s md d fa custom c1) (tagged_union_validate repr ga py f2s md d fa custom c2).
Proof.
  intros FA F i1 i2 s1 s2 I S. unfold tagged_union_validate, tag_not_found. destruct d as [k|f].
  - assert (V : Rr (Rmd m) (validate_model_fields repr ga (strict_or s1 false) (unwrap_or (x_from_attributes (st_extra s1)) fa) i1) (validate_model_fields repr ga (strict_or s2 false) (unwrap_or (x_from_attributes (st_extra s2)) fa) i2)).
    { rewrite (strict_rel _ _ _ _ S), (fa_rel _ _ _ _ S). apply (validate_mf_rel b m HB); [|exact I]. intros B. rewrite B in S. split; [exact (strict_false _ _ _ S)|intros ME; exact (fa_false _ _ _ S (FA B ME))]. }
    destruct V as [d1 d2 M|]; [|rp]. destruct (rm_get _ _ _ M k) as [a1 a2 G|]; [|rp]. destruct G as [|[p1 t1] [p2 t2] [A G]]; [destruct custom; rp|].
    cbn in G. rewrite (Rin_obj _ _ _ G). now apply find_call_rel.
  - rewrite (Rin_obj _ _ _ I). destruct (f _) as [t|]; [|rp].
    assert (H : RP b eq (find_call_validator repr py f2s md custom c1 t i1 s1) (find_call_validator repr py f2s md custom c2 t i2 s2)) by now apply find_call_rel.
    destruct t; try exact H. destruct custom; rp.
Qed.

(** ** Classes *)
Lemma kwargs_rel i1 i2 : m <> Strs -> Rin m i1 i2 -> as_kwargs i1 = as_kwargs i2.
Proof. intros NS I. docs I; try reflexivity; now destruct (NS K). Qed.
Lemma post_init_rel f v i1 i2 : Rin m i1 i2 -> Rr eq (call_post_init f v i1) (call_post_init f v i2).
Proof. intros I. unfold call_post_init. destruct f as [f|]; [|rr]. destruct (f v); [rr|]. constructor. eapply convert_rel; exact I. Qed.
Lemma instance_rel sub cls og i1 i2 : Rin m i1 i2 -> instance_input sub cls og i1 = instance_input sub cls og i2.
Proof.
  intros I. docs I; try reflexivity; rewrite ?(json_dict _ U); cbn; destruct og; reflexivity.
Qed.
Lemma construct_rel c v1 v2 ex : m <> Strs \/ mo_custom_init c = None -> rv b m v1 v2 -> forall i1 i2 s1 s2, Rin m i1 i2 -> Rst b s1 s2 ->
  RP b eq (model_construct c v1 i1 ex s1) (model_construct c v2 i2 ex s2).
Proof.
  intros NS H i1 i2 s1 s2 I S. unfold model_construct.
  assert (KW : match mo_custom_init c with Some f => match as_kwargs i1 with Some kw => Some (f kw) | None => None end | None => None end =
    match mo_custom_init c with Some f => match as_kwargs i2 with Some kw => Some (f kw) | None => None end | None => None end).
  { destruct NS as [NS| ->]; [now rewrite (kwargs_rel _ _ NS I)|reflexivity]. }
  rewrite KW. clear KW.
  destruct (match mo_custom_init c with Some _ => _ | None => _ end) as [[v|e]|]; [rp|constructor; [constructor; eapply convert_rel; exact I|exact S]|].
  destruct (mo_root c).
  - assert (R : RP b eq (rebind (set_field_name (Some root_name)) s1 (v1 i1)) (rebind (set_field_name (Some root_name)) s2 (v2 i2))) by rel_child.
    destruct R as [r1 r2 t1 t2 R T]. destruct R as [a1 a2 ->|]; [|rp]. constructor; [|exact T]. unfold root_fields_set. rewrite (Rin_undefined _ _ _ I). now apply post_init_rel.
  - destruct (H _ _ _ _ I S) as [r1 r2 t1 t2 R T]. destruct R as [a1 a2 ->|]; [|rp]. constructor; [|exact T]. destruct (build_model c ex a2); [now apply post_init_rel|rr].
Qed.
Lemma model_rel sub c v1 v2 : m <> Strs \/ mo_custom_init c = None -> rv b m v1 v2 -> rv b m (model_validate sub c v1) (model_validate sub c v2).
Proof.
  intros NS H i1 i2 s1 s2 I S. unfold model_validate. rewrite (instance_rel _ _ _ _ _ I). destruct (instance_input _ _ _ i2) as [[v f]|]; [|apply construct_rel; [exact NS|exact H|exact I|rst]].
  destruct (_ || f); [|rp]. destruct (inst_attr v _); [|rp]. destruct (model_data _ v); [|rp]. apply construct_rel; [exact NS|exact H|apply Rin_eq|exact S].
Qed.
Lemma set_dict_rel c out i1 i2 : Rin m i1 i2 -> Rr eq (set_dict_call c out i1) (set_dict_call c out i2).
Proof.
  intros I. unfold set_dict_call.
  repeat first [ solve [rr] | solve [constructor; eapply convert_rel; exact I] | match goal with |- Rr _ ?x ?y => match x with context [match ?z with _ => _ end] => lazymatch z with context [match _ with _ => _ end] => fail | _ => destruct z end end end ].
Qed.
Lemma dataclass_rel sub c v1 v2 : rv b m v1 v2 -> rv b m (dataclass_validate sub c v1) (dataclass_validate sub c v2).
Proof.
  intros H i1 i2 s1 s2 I S. unfold dataclass_validate. rewrite (instance_rel _ _ _ _ _ I). destruct (instance_input _ _ _ i2) as [[v f]|].
  - destruct (_ || f); [|rp]. destruct (inst_to_dict _ v _); [|rp]. destruct (H _ _ _ _ (Rin_eq m (IPy (PDict a))) S) as [r1 r2 t1 t2 R T].
    destruct R as [a1 a2 ->|]; [|rp]. constructor; [now apply set_dict_rel|exact T].
  - rewrite (strict_rel _ _ _ _ S).
    assert (Q : (strict_or s2 (da_strict c) && match x_input_type (st_extra s1) with ITPython => true | _ => false end) =
                (strict_or s2 (da_strict c) && match x_input_type (st_extra s2) with ITPython => true | _ => false end)).
    { destruct b; [now rewrite (rx_type _ _ _ (rs_ex _ _ _ S) eq_refl)|]. now rewrite (strict_false _ _ _ S). }
    rewrite Q. clear Q. destruct (_ && _).
    { constructor; [eapply Rr_val_err; exact I|exact S]. } destruct (H _ _ _ _ I S) as [r1 r2 t1 t2 R T]. destruct R as [a1 a2 ->|]; [|rp].
    constructor; [now apply set_dict_rel|now apply Rst_floor].
Qed.
End Nodes.

(** ** Whole schemas *)
Definition fit {mrg : Merge} (m : rmode) : schema -> Prop := match m with Same => fun _ => True | Docs => json_native (negb merge) | Keys => native_key (negb merge) | Strs => strings_native (negb merge) end.
Definition fit_native {mrg : Merge} m sc : of_json m -> fit m sc -> native (negb merge) sc.
Proof. intros [-> | ->] H; apply H. Qed.

Lemma F2_map_in A B (f g : A -> B) (R : B -> B -> Prop) l : (forall x, In x l -> R (f x) (g x)) -> Forall2 R (map f l) (map g l).
Proof. induction l as [|x l IH]; intros H; cbn; constructor; [apply H; now left|apply IH; intros y Y; apply H; now right]. Qed.
Lemma Ropt_map_in (f g : schema -> cv) (R : validator -> validator -> Prop) o : (forall x, In x (opt_list o) -> R (cv_validate (f x)) (cv_validate (g x))) ->
  Ropt R (option_map (fun sc => cv_validate (f sc)) o) (option_map (fun sc => cv_validate (g sc)) o).
Proof. destruct o as [x|]; cbn; intros H; constructor. apply H. now left. Qed.

Section Eval.
Context {mrg : Merge}.
Variable E : env.
Variable b : bool.
Variables ref1 ref2 : nat -> cv.
Hypothesis SAME : b = true -> ref1 = ref2.

Lemma eval_rel sc : forall m, (m = Same -> b = true /\ merge = false) -> (m <> Same -> b = false) -> (m <> Keys -> forall k, rcv b m (ref1 k) (ref2 k)) -> everywhere (fit m) sc ->
  rcv b m (eval E ref1 sc) (eval E ref2 sc).
Proof.
  induction sc as [sc IH] using schema_children_ind. intros m MB0 HB R W. assert (MB : m = Same -> b = true) by (intros O; apply MB0, O). destruct W as [sc P W].
  assert (C : forall c, In c (children sc) -> rcv b m (eval E ref1 c) (eval E ref2 c)) by (intros c I; apply IH; auto).
  assert (CV : forall c, In c (children sc) -> rv b m (cv_validate (eval E ref1 c)) (cv_validate (eval E ref2 c))) by (intros c I; apply C, I).
  assert (K : forall c, In c (key_schemas sc) -> In c (children sc) -> rv b (key_mode m) (cv_validate (eval E ref1 c)) (cv_validate (eval E ref2 c))).
  { intros c I J. destruct m; [now apply CV| |now apply CV..]. cbn [key_mode]. apply IH; try easy; [intros _; apply HB; discriminate|]. apply P, I. }
  assert (F : forall A (f : pyval -> info -> A), (m <> Same -> ignores_mode f) -> b = true \/ ignores_mode f).
  { intros A f H. destruct m; [left; now apply MB|right; now apply H..]. }
  assert (NM : of_json m -> native (negb merge) sc) by (intros N; exact (fit_native _ _ N P)).
  assert (NS : m = Strs -> strings_native (negb merge) sc) by (intros ->; exact P).
  assert (DO : m = Same \/ of_json m \/ m = Strs) by (unfold of_json; destruct m; auto).
  clear IH W. destruct sc; cbn [eval children key_schemas] in *; try apply no_default_rel.
  - apply any_rel.
  - apply none_rel.
  - now apply bool_rel.
  - now apply int_rel.
  - now apply float_rel.
  - apply str_rel; [exact HB|]. destruct DO as [O|[O|O]]; [left; now apply MB|right; right; now apply NM|right; now left].
  - now apply bytes_rel.
  - apply (literal_rel b m HB). destruct m; [now left|right; now left|right; right; apply P|right; right; now apply NS].
  - apply is_instance_rel. destruct DO as [O|[O|O]]; [exact O|now destruct (NM O)|now destruct (NS O)].
  - apply list_rel; [exact (Ropt_map_in _ _ _ _ CV)| |apply (validate_list_rel b m HB)]. intros N. destruct item; [discriminate|]. intros _. specialize (NM N). cbn in NM. exact NM.
  - apply set_rel; [apply CV; now left|]. destruct frozen; [|apply (validate_set_rel b m HB)]. apply (validate_frozenset_rel b m HB).
    destruct m; try discriminate. destruct P as [_ P]. easy.
  - apply tuple_rel; [|apply (validate_tuple_rel b m HB)]. apply F2_map_in, C.
  - apply dict_rel; [apply K; now left|apply CV; right; now left|apply (dict_entries_rel b m HB)].
  - apply nullable_rel, CV. now left.
  - apply wd_rel, CV. now left.
  - apply chain_rel, F2_map_in, CV.
  - apply json_or_python_rel; [|apply CV; now left|apply CV; right; now left]. destruct DO as [O|[O|O]]; [now apply MB|now destruct (NM O)|now destruct (NS O)].
  - apply lax_or_strict_rel; apply CV; [now left|right; now left].
  - apply custom_error_rel, CV. now left.
  - apply before_rel; [apply F; intros N; destruct DO as [O|[O|O]]; [congruence|exact (NM O)|exact (NS O)]|apply CV; now left].
  - apply after_rel; [apply F; intros N; destruct DO as [O|[O|O]]; [congruence|exact (NM O)|exact (NS O)]|apply CV; now left].
  - apply plain_rel, F. intros N. destruct DO as [O|[O|O]]; [congruence|exact (NM O)|exact (NS O)].
  - apply wrap_rel; [destruct DO as [O|[O|O]]; [apply MB0, O|apply negb_true_iff, (proj1 (NM O))|apply negb_true_iff, (proj1 (NS O))]|apply F; intros N; destruct DO as [O|[O|O]]; [congruence|exact (proj2 (NM O))|exact (proj2 (NS O))]|apply CV; now left].
  - destruct mode.
    + destruct DO as [O|[O|O]]; [|now destruct (NM O)|now destruct (NS O)]. assert (B : b = true) by now apply MB. rewrite <- (SAME B). apply smart_rel; auto.
    + apply ltr_rel. apply F2_map_in. intros x X. constructor. apply CV. now apply in_map.
  - apply (tagged_rel b m HB); [intros B ME; rewrite ME in *; destruct DO as [O|[O|O]]; [rewrite (MB O) in B; discriminate|exact (NM O eq_refl)|exact (NS O eq_refl)]|]. apply F2_map_in. intros x X. split; [reflexivity|]. cbn. apply CV. now apply in_map.
  - apply model_fields_rel; [|intros B ME; rewrite ME in *; destruct DO as [O|[O|O]]; [rewrite (MB O) in B; discriminate|exact (NM O eq_refl)|exact (NS O eq_refl)]|apply (validate_mf_rel b m HB)]. constructor.
    + apply F2_map_in. intros x X. constructor. apply C, in_or_app. left. now apply in_map.
    + apply Ropt_map_in. intros x X. apply CV, in_or_app. right. apply in_or_app. now left.
    + apply Ropt_map_in. intros x X. apply K; [now destruct extras_keys|]. apply in_or_app. right. apply in_or_app. now right.
  - apply typed_dict_rel; [|apply (validate_dict_rel b m HB)]. constructor; [| |constructor].
    + apply F2_map_in. intros x X. constructor. apply C, in_or_app. left. now apply in_map.
    + apply Ropt_map_in. intros x X. apply CV, in_or_app. now right.
  - apply arguments_rel; [|intros ? ?; apply (validate_args_rel b m HB); intros O; now destruct (NS O)]. constructor.
    + apply F2_map_in. intros x X. constructor. apply C, in_or_app. left. now apply in_map.
    + apply Ropt_map_in. intros x X. apply CV, in_or_app. right. apply in_or_app. now left.
    + apply Ropt_map_in. intros x X. apply CV, in_or_app. right. apply in_or_app. now right.
  - apply dataclass_args_rel; [|intros ? ?; apply (validate_dargs_rel b m HB); intros O; now destruct (NS O)]. constructor.
    + apply F2_map_in. intros x X. constructor. apply C, in_or_app. left. now apply in_map.
    + apply Ropt_map_in. intros x X. apply CV, in_or_app. now right.
  - apply model_rel; [exact HB| |apply CV; now left]. destruct DO as [O|[O|O]]; [left; congruence|left; destruct O; congruence|right; exact (NS O)].
  - apply dataclass_rel; [exact HB|apply CV; now left].
  - apply R. destruct m; try discriminate. destruct P as [_ P]. easy.
Qed.
End Eval.

(** Two runs of the same validation. *)
Section Same.
Local Instance exactly : Merge := false.
Lemma refs_same E defs fuel : forall depth k, rcv true Same (refs E defs fuel depth k) (refs E defs fuel depth k).
Proof.
  induction fuel as [|fuel IH]; intros depth k; cbn [refs]; [split; [intros ? ? ? ? I S|intros ? ? ? S]; cbn; rp|].
  destruct (defs k) as [sc|]; [|split; [intros ? ? ? ? I S|intros ? ? ? S]; cbn; rp].
  assert (W : everywhere (fit Same) sc).
  { clear. induction sc as [sc IH] using schema_children_ind. constructor; [exact I|exact IH]. }
  assert (V : forall d, rcv true Same (eval E (refs E defs fuel d) sc) (eval E (refs E defs fuel d) sc)) by (intros d; apply eval_rel; [reflexivity|now split|easy|intros _; apply IH|exact W]).
  split; [|apply V]. intros i1 i2 s1 s2 I S. destruct (Rin_cases _ _ _ I) as [<-|N]; [|easy]. cbn [cv_validate].
  assert (S' : Rst true (set_partial PartialOff s1) (set_partial PartialOff s2)) by rst.
  cbv zeta. destruct (guard_limit <=? depth); destruct i1; try rp; apply (rc_v _ _ _ _ (V _)); first [exact S'|apply Rin_eq].
Qed.
Lemma run_same E defs fuel sc : rv true Same (run E defs fuel sc) (run E defs fuel sc).
Proof.
  unfold run. apply rc_v, eval_rel; [reflexivity|now split|easy|intros _; apply refs_same|].
  induction sc as [sc IH] using schema_children_ind. constructor; [exact I|exact IH].
Qed.

End Same.

Section Modes.
Context {mrg : Merge}.
Lemma Rin_docs i1 i2 : Rin Docs i1 i2 -> i1 = i2 \/ exists j, plain_json j /\ i1 = IJson j /\ i2 = IPy (json_to_py j).
Proof. intros I. inversion I; [now left|right; eauto|discriminate..]. Qed.
(** A document and its Python counterpart.  The guard counts Python objects only; up to
    the limit this makes no difference. *)
Lemma refs_docs E defs : (forall k d, defs k = Some d -> everywhere (json_native (negb merge)) d) -> forall fuel d1 d2 k, fuel + d1 <= guard_limit -> fuel + d2 <= guard_limit ->
  rcv false Docs (refs E defs fuel d1 k) (refs E defs fuel d2 k).
Proof.
  intros D. induction fuel as [|fuel IH]; intros d1 d2 k L1 L2; cbn [refs]; [split; [intros ? ? ? ? I S|intros ? ? ? S]; cbn; rp|].
  destruct (defs k) as [sc|] eqn:DK; [|split; [intros ? ? ? ? I S|intros ? ? ? S]; cbn; rp].
  assert (V : forall e1 e2, fuel + e1 <= guard_limit -> fuel + e2 <= guard_limit -> rcv false Docs (eval E (refs E defs fuel e1) sc) (eval E (refs E defs fuel e2) sc)).
  { intros e1 e2 A B. apply eval_rel; [discriminate|discriminate|reflexivity|intros _ k'; apply IH; assumption|exact (D _ _ DK)]. }
  split; [|apply V; lia]. intros i1 i2 s1 s2 I S. cbn [cv_validate]. cbv zeta.
  assert (S' : Rst false (set_partial PartialOff s1) (set_partial PartialOff s2)) by rst.
  assert (G1 : guard_limit <=? d1 = false) by (apply Nat.leb_gt; lia). assert (G2 : guard_limit <=? d2 = false) by (apply Nat.leb_gt; lia). rewrite G1, G2.
  destruct (Rin_docs _ _ I) as [<-|(j & P & -> & ->)]; [|eapply rc_v; [apply V; lia|apply Rin_json; [now left|exact P]|exact S']].
  destruct i1; (eapply rc_v; [apply V; lia|apply Rin_eq|exact S']).
Qed.
Lemma run_docs E defs fuel sc : fuel <= guard_limit -> holds_of (json_native (negb merge)) defs sc -> rv false Docs (run E defs fuel sc) (run E defs fuel sc).
Proof.
  intros L [A B]. unfold run. apply rc_v, eval_rel; [discriminate|discriminate|reflexivity| |exact A]. intros _ k. apply refs_docs; [exact B|lia|lia].
Qed.

(** Strings in the two modes: only Python objects are guarded. *)
Lemma refs_strings E defs : (forall k d, defs k = Some d -> everywhere (strings_native (negb merge)) d) -> forall fuel d1 d2 k, fuel + d1 <= guard_limit -> fuel + d2 <= guard_limit ->
  rcv false Strs (refs E defs fuel d1 k) (refs E defs fuel d2 k).
Proof.
  intros D. induction fuel as [|fuel IH]; intros d1 d2 k L1 L2; cbn [refs]; [split; [intros ? ? ? ? I S|intros ? ? ? S]; cbn; rp|].
  destruct (defs k) as [sc|] eqn:DK; [|split; [intros ? ? ? ? I S|intros ? ? ? S]; cbn; rp].
  assert (V : forall e1 e2, fuel + e1 <= guard_limit -> fuel + e2 <= guard_limit -> rcv false Strs (eval E (refs E defs fuel e1) sc) (eval E (refs E defs fuel e2) sc)).
  { intros e1 e2 A B. apply eval_rel; [discriminate|discriminate|reflexivity|intros _ k'; apply IH; assumption|exact (D _ _ DK)]. }
  split; [|apply V; lia]. intros i1 i2 s1 s2 I S. cbn [cv_validate]. cbv zeta.
  assert (S' : Rst false (set_partial PartialOff s1) (set_partial PartialOff s2)) by rst.
  assert (G1 : guard_limit <=? d1 = false) by (apply Nat.leb_gt; lia). assert (G2 : guard_limit <=? d2 = false) by (apply Nat.leb_gt; lia). rewrite G1, G2.
  destruct i1, i2; (eapply rc_v; [apply V; lia|exact I|exact S']).
Qed.
Lemma run_strings E defs fuel sc : fuel <= guard_limit -> holds_of (strings_native (negb merge)) defs sc -> rv false Strs (run E defs fuel sc) (run E defs fuel sc).
Proof.
  intros L [A B]. unfold run. apply rc_v, eval_rel; [discriminate|discriminate|reflexivity| |exact A]. intros _ k. apply refs_strings; [exact B|lia|lia].
Qed.

End Modes.

Lemma Rr_shown A r1 r2 : @Rr exactly A eq r1 r2 -> shown r1 = shown r2.
Proof. intros [a1 a2 ->|e1 e2 []]; try reflexivity. cbn. do 2 f_equal. now apply (@exact_lines exactly). Qed.
Definition loosely : Merge := true.
Lemma Rr_named A r1 r2 : @Rr loosely A eq r1 r2 -> with_one_name (shown r1) = with_one_name (shown r2).
Proof. intros [a1 a2 ->|e1 e2 []]; try reflexivity. cbn. do 2 f_equal. rewrite !map_map. assumption. Qed.

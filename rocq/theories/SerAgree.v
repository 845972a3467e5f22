(** The JSON form of a value says what its JSON-mode Python form says. *)
From Coq Require Import List NArith ZArith Bool.
From Verif Require Import Base Float64 Utf8 Decimal Values BytesCodec Filter LookupKey Classes JsonText SerBase Ser SerInd SerSpec SerPure.
Import ListNotations.
Open Scope nat_scope.

Definition Agr {A B} (R : A -> B -> Prop) (m : M A) (m' : M B) : Prop := forall a b, snd m = Good a -> snd m' = Good b -> R a b.
Lemma agr_ret {A B} (R : A -> B -> Prop) a b : R a b -> Agr R (ret a) (ret b).
Proof. intros H ? ? [= <-] [= <-]. exact H. Qed.
Lemma agr_fail_l {A B} (R : A -> B -> Prop) e m : Agr R (fail e) m.
Proof. intros ? ? [=]. Qed.
Lemma agr_fail_r {A B} (R : A -> B -> Prop) e m : Agr R m (fail e).
Proof. intros ? ? _ [=]. Qed.
Lemma agr_bind {A B C D} (Q : A -> B -> Prop) (R : C -> D -> Prop) m m' f g :
  Agr Q m m' -> (forall a b, Q a b -> Agr R (f a) (g b)) -> Agr R (bind m f) (bind m' g).
Proof.
  intros H F c d. unfold bind. destruct (snd m) as [a|] eqn:E1; [|discriminate]. destruct (snd m') as [b|] eqn:E2; [|discriminate].
  intros X Y. exact (F a b (H a b E1 E2) c d X Y).
Qed.
Lemma agr_same {A C D} (R : C -> D -> Prop) (m : M A) f g : (forall a, Agr R (f a) (g a)) -> Agr R (bind m f) (bind m g).
Proof. intros F. apply agr_bind with (Q := eq); [intros a b X Y; congruence|intros a ? <-; apply F]. Qed.
Lemma agr_l {A C D} (R : C -> D -> Prop) (m : M A) f g : (forall a, Agr R (f a) g) -> Agr R (bind m f) g.
Proof. intros F c d. unfold bind. destruct (snd m) as [a|] eqn:E1; [|discriminate]. intros X Y. exact (F a c d X Y). Qed.
Lemma agr_r {A C D} (R : C -> D -> Prop) (m : M A) f g : (forall a, Agr R f (g a)) -> Agr R f (bind m g).
Proof. intros F c d. unfold bind. destruct (snd m) as [a|] eqn:E1; [|discriminate]. intros X Y. exact (F a c d X Y). Qed.

Lemma agr_now {A C D} (R : C -> D -> Prop) (a : A) f m : Agr R (f a) m -> Agr R (bind (ret a) f) m.
Proof. intros H. exact H. Qed.
Lemma agr_now_r {A C D} (R : C -> D -> Prop) (a : A) f m : Agr R m (f a) -> Agr R m (bind (ret a) f).
Proof. intros H. exact H. Qed.
Lemma agr_tail {A B D} (Q : A -> B -> Prop) (R : A -> D -> Prop) m m' g :
  Agr Q m m' -> (forall a b, Q a b -> R a (g b)) -> Agr R m (bind m' (fun b => ret (g b))).
Proof.
  intros H F a d X. unfold bind. destruct (snd m') as [b|] eqn:E2; [|discriminate]. intros [= <-]. apply F, H; assumption.
Qed.

Definition rend (p : pyval) (j : json) : Prop := renders j p.
Definition rends (p : list pyval) (j : list json) : Prop := renders_all j p.

Lemma filter_none f k : match filter f k None None with Ok (Some (a, b)) => a = None /\ b = None | _ => True end.
Proof. unfold filter. cbn. unfold filter_tail. destruct (default_filter f k); cbn; auto. Qed.
Lemma index_filter_none f i n : match index_filter f i None None n with Ok (Some (a, b)) => a = None /\ b = None | _ => True end.
Proof. unfold index_filter. cbn [map_opt]. apply filter_none. Qed.

Lemma rends_app a b a' b' : renders_all a a' -> renders_all b b' -> renders_all (a ++ b) (a' ++ b').
Proof. induction 1; cbn; intros; [assumption|constructor; auto]. Qed.

Lemma agr_res {C D} (R : C -> D -> Prop) (r : res next_filters) f g :
  match r with Ok (Some (a, b)) => a = None /\ b = None | _ => True end ->
  Agr R (f None) (g None) -> Agr R (f (Some (None, None))) (g (Some (None, None))) -> Agr R (bind (res_opt r) f) (bind (res_opt r) g).
Proof.
  intros N H1 H2. destruct r as [[[a b]|]| |]; [| |apply agr_fail_l..].
  - destruct N as [-> ->]. exact H2.
  - exact H1.
Qed.

Lemma agr_filtered f len (e : pyval -> option fval -> option fval -> M pyval) e' l : forall i,
  (forall v, Agr rend (e v None None) (e' v None None)) ->
  Agr rends (filtered f None None len e i l) (filtered f None None len e' i l).
Proof.
  induction l as [|v l IH]; intros i H; cbn [filtered]; [apply agr_ret; constructor|].
  apply agr_res; [apply index_filter_none|now apply IH|]. eapply agr_bind; [apply H|intros a b Hab]. eapply agr_bind; [now apply IH|intros c d Hcd].
  apply agr_ret. now constructor.
Qed.
Lemma agr_mapM (e : pyval -> M pyval) e' l : (forall v, Agr rend (e v) (e' v)) -> Agr rends (mapM e l) (mapM e' l).
Proof.
  intros H. induction l as [|v l IH]; cbn [mapM]; [apply agr_ret; constructor|]. eapply agr_bind; [apply H|intros a b Hab]. eapply agr_bind; [exact IH|intros c d Hcd].
  apply agr_ret. now constructor.
Qed.
Lemma agr_zip f len (e : sz -> pyval -> option fval -> option fval -> M pyval) e' ss : forall i l,
  Forall (fun s => forall v, Agr rend (e s v None None) (e' s v None None)) ss ->
  Agr rends (zip_items f None None len e i ss l) (zip_items f None None len e' i ss l).
Proof.
  induction ss as [|s ss IH]; intros i l H; cbn [zip_items]; [apply agr_ret; constructor|]. inversion H; subst. destruct l as [|v l]; [apply agr_ret; constructor|].
  apply agr_res; [apply index_filter_none|now apply IH|]. eapply agr_bind; [apply H2|intros a b Hab]. eapply agr_bind; [now apply IH|intros c d Hcd].
  apply agr_ret. now constructor.
Qed.

(** The items written after those of [d0] make [d]. *)
Definition grows (d0 d : list (pyval * pyval)) (js : list (str * json)) : Prop := forall l, renders_items l d0 -> renders_items (l ++ js) d.
Lemma grows_nil d : grows d d [].
Proof. intros l H. now rewrite app_nil_r. Qed.
Lemma grows_cons k p j d0 d js : renders j p -> grows (dict_set (PStr k) p d0) d js -> grows d0 d ((k, j) :: js).
Proof. intros H G l Hl. change ((k, j) :: js) with ([(k, j)] ++ js). rewrite app_assoc. apply G. now constructor. Qed.
Lemma grows_app d0 d1 d2 a b : grows d0 d1 a -> grows d1 d2 b -> grows d0 d2 (a ++ b).
Proof. intros A B l H. rewrite app_assoc. auto. Qed.
Lemma grows_items d js : grows [] d js -> renders_items js d.
Proof. intros G. exact (G [] R_empty). Qed.

Lemma put_str s v d : put (PStr s) v d = ret (dict_set (PStr s) v d).
Proof. reflexivity. Qed.
Lemma agr_pairs f (key : pyval -> M pyval) key' e e' l : forall d0,
  (forall k, Agr (fun p s => p = PStr s) (key k) (key' k)) -> (forall v, Agr rend (e v None None) (e' v None None)) ->
  Agr (grows d0) (pairs_py f None None key e l d0) (pairs_js f None None key' e' l).
Proof.
  induction l as [|[k v] l IH]; intros d0 HK H; cbn [pairs_py pairs_js]; [apply agr_ret, grows_nil|]. apply agr_same. intros w.
  apply agr_res; [apply filter_none|now apply IH|]. eapply agr_bind; [apply HK|]. intros ? s ->. eapply agr_bind; [apply H|]. intros p j Hpj.
  rewrite put_str. apply agr_now. eapply agr_tail; [now apply IH|]. intros d js G. now apply grows_cons with p.
Qed.

Section Agree.
Variable E : env.
Variables none any : bool.
Hypothesis SE : same_form_env none any E.
Let sf := same_form none any.

Lemma env_fixed : (forall inm s, sf inm s = true -> all_ser fixed_fields s = true).
Proof.
  assert (AllF : forall inm l, Forall (fun s => forall inm, sf inm s = true -> all_ser fixed_fields s = true) l -> forallb (sf inm) l = true -> forallb (all_ser fixed_fields) l = true).
  { intros inm l F. induction F as [|s0 l H F IH]; cbn; intros Hq; [reflexivity|]. apply andb_prop in Hq. rewrite (H inm), IH; tauto. }
  unfold sf in *. intros inm s. revert inm. induction s using ser_ind'; intros inm; cbn [same_form all_ser fixed_fields]; intros Hq; try reflexivity; try discriminate;
    repeat match goal with H : _ && _ = true |- _ => apply andb_prop in H; destruct H end; cbn [andb]; eauto.
  - now rewrite (IHs1 inm), (IHs2 inm).
  - destruct m; try discriminate. cbn [andb]. apply andb_true_intro; split; [apply andb_true_intro; split|].
    + clear - H H7. induction H as [|[k f] l H F IH]; [reflexivity|]. cbn in H7 |- *. apply andb_prop in H7. destruct H7 as [A B]. rewrite (IH B), andb_true_r.
      cbn in H. destruct (f_ser f); [|reflexivity]. exact (H inm A).
    + destruct ex; [exact (H0 inm H6)|reflexivity].
    + clear - H1 H4. induction H1 as [|c l H F IH]; [reflexivity|]. cbn in H4 |- *. apply andb_prop in H4. destruct H4 as [A B]. now rewrite (IH B), (H inm A).
  - destruct o; eauto.
  - destruct fb; cbn in *; rewrite (IHs inm H0); eauto.
Qed.
Lemma env_all_fixed : env_all fixed_fields E.
Proof. destruct SE as [A B]. split; intros; eapply env_fixed; unfold sf; eauto. Qed.

Definition Inv (inm : bool) (x : extra) : Prop :=
  x_json x = true /\ x_check x = CNone /\ x_serialize_unknown x = false /\ x_exclude_none x = none /\
  (any = false -> x_duck x = SchemaBased) /\ (inm = true -> x_model x <> None).
Lemma inv_weaken inm x : Inv inm x -> Inv false x.
Proof. unfold Inv. intuition discriminate. Qed.
Lemma inv_model inm v x : Inv inm x -> Inv true (set_model (Some v) x).
Proof. unfold Inv. cbn. intuition discriminate. Qed.
Lemma inv_model_any inm m x : Inv inm x -> m <> None -> Inv inm (set_model m x).
Proof. unfold Inv. cbn. intuition. Qed.
Lemma inv_duck inm x : Inv inm x -> Inv inm (set_duck (next_mode (x_duck x)) x).
Proof. unfold Inv. cbn. intros (A & B & C & D & F & G). repeat apply conj; auto. intros H. now rewrite (F H). Qed.
Lemma inv_nested inm c x : Inv inm x -> Inv false (nested_extra c x).
Proof. unfold Inv. cbn. intuition; discriminate. Qed.
Lemma inv_enter inm v k x x' : enter v k x = Some x' -> Inv inm x -> Inv inm x'.
Proof. unfold enter. destruct (existsb _ _); [discriminate|]. intros [= <-]. exact (fun H => H). Qed.

Definition agree_main (inm : bool) (f : fmain) : Prop :=
  forall l x, Inv inm x -> Agr (grows []) (m_py f l None None x) (m_js f l None None x).
Definition agree_sz (inm : bool) (s : sz) : Prop :=
  (forall v x, Inv inm x -> Agr rend (z_py s v None None x) (z_js s v None None x)) /\ on_opt (agree_main inm) (z_main s).
Definition agree_level (L : level) : Prop :=
  (forall v x, Inv false x -> Agr rend (l_py L v None None x) (l_js L v None None x)) /\
  (forall k v x, Inv false x -> Agr rend (l_def_py L k v None None x) (l_def_js L k v None None x)).
(** Inference writes a JSON value as it is. *)
Definition writes_json (L : level) : Prop :=
  (forall w x, jsonable is_str w -> x_serialize_unknown x = false -> Post (l_js L w None None x) (fun j => renders j w)) /\
  (forall s x, Post (l_key L (PStr s) x) (eq s)).

Lemma post_agr {A B} (R : A -> B -> Prop) a m : Post m (R a) -> Agr R (ret a) m.
Proof. intros H ? b [= <-] E'. auto. Qed.
Lemma agr_same_post {A C D} (P : A -> Prop) (R : C -> D -> Prop) (m : M A) f g :
  Post m P -> (forall a, P a -> Agr R (f a) (g a)) -> Agr R (bind m f) (bind m g).
Proof. intros H F. apply agr_bind with (Q := fun a b => a = b /\ P a); [intros a b X Y; split; [congruence|auto]|intros a ? [<- Pa]; auto]. Qed.

Lemma dict_set_fresh k p d : Forall (fun kv => py_eq (fst kv) k = false) d -> dict_set k p d = d ++ [(k, p)].
Proof. induction 1 as [|[k' v'] d H F IH]; cbn [dict_set app]; [reflexivity|]. cbn in H. now rewrite H, IH. Qed.
Lemma distinct_snoc d kv : distinct_keys (d ++ [kv]) -> distinct_keys d /\ Forall (fun a => py_eq (fst a) (fst kv) = false) d.
Proof.
  unfold distinct_keys. induction d as [|a d IH]; cbn; intros H; [repeat constructor|]. inversion H as [|? ? A B]; subst. apply Forall_app in A. destruct A as [A1 A2].
  inversion A2; subst. destruct (IH B). split; constructor; auto.
Qed.
Lemma renders_dict js : forall d, distinct_keys d -> Forall2 (fun kv kj => fst kv = PStr (fst kj) /\ renders (snd kj) (snd kv)) d js -> renders_items js d.
Proof.
  induction js as [|[k j] js IH] using rev_ind; intros d D F.
  - inversion F; subst. constructor.
  - apply Forall2_app_inv_r in F. destruct F as (d1 & d2 & F1 & F2 & ->). inversion F2 as [|[k' p] ? ? ? [A B] F3]; subst. inversion F3; subst. cbn in A, B. subst.
    apply distinct_snoc in D. destruct D as [D1 D2]. cbn [fst] in D2. rewrite <- dict_set_fresh by exact D2. constructor; [now apply IH|exact B].
Qed.
Lemma any_filter_none k : filter any_filter k None None = Ok (Some (None, None)).
Proof. reflexivity. Qed.
Lemma any_index_none i n : index_filter any_filter i None None n = Ok (Some (None, None)).
Proof. reflexivity. Qed.

Section Build.
Variable L : level.
Hypothesis AL : agree_level L.
Hypothesis WL : writes_json L.
Hypothesis PL : pure_level is_str L.
Let Lpy : forall inm v x, Inv inm x -> Agr rend (l_py L v None None x) (l_js L v None None x).
Proof. intros inm v x H. apply AL. now apply inv_weaken in H. Qed.

Lemma agr_fall inm v x : Inv inm x -> Agr rend (fall_py L v None None x) (fall_js L v None None x).
Proof. intros H. apply agr_same. intros _. now apply Lpy with inm. Qed.
Lemma agree_any inm : agree_sz inm (any_ser L).
Proof. split; [intros; now apply Lpy with inm|exact I]. Qed.
Lemma agree_simple inm py js key r : (forall v x, Inv inm x -> Agr rend (py v None None x) (js v None None x)) -> agree_sz inm (simple py js key r).
Proof. intros A. exact (conj A I). Qed.
Lemma agr_str (m : M str) : Agr rend (s <- m ;; ret (PStr s)) (s <- m ;; ret (JStr s)).
Proof. apply agr_same. intros. apply agr_ret. constructor. Qed.

Lemma writes_body w x : jsonable is_str w -> x_serialize_unknown x = false ->
  Post (infer_js_body E L (fun s => z_js (build E L s)) w None None x) (fun j => renders j w).
Proof.
  intros J U. unfold infer_js_body. cbv zeta. destruct J as [|b|z|f|s|l F|d D F]; cbn [get_type].
  - apply post_ret. constructor.
  - apply post_ret. constructor.
  - apply post_ret. constructor.
  - apply post_ret. constructor.
  - unfold to_str. cbn. destruct (forallb scalar s); [apply post_ret; constructor|apply post_fail].
  - change (opt (down_list (PList l))) with (ret l). eapply post_bind with (Q := fun a => a = l); [now apply post_ret|]. intros ? ->.
    eapply post_bind with (Q := fun js => renders_all js l); [|intros js H; apply post_ret; now constructor].
    generalize (zlen l) 0. induction F as [|v l H F IH]; intros n i; cbn [filtered]; [apply post_ret; constructor|]. rewrite any_index_none.
    eapply post_bind with (Q := fun a => a = Some (None, None)); [now apply post_ret|]. intros ? ->.
    eapply post_bind; [now apply WL|intros j Hj]. eapply post_bind; [apply IH|intros js Hjs]. apply post_ret. now constructor.
  - change (opt (down_dict (PDict d))) with (ret d). eapply post_bind with (Q := fun a => a = d); [now apply post_ret|]. intros ? ->.
    eapply post_bind with (Q := fun js => Forall2 (fun kv kj => fst kv = PStr (fst kj) /\ renders (snd kj) (snd kv)) d js);
      [|intros js H; apply post_ret; constructor; now apply renders_dict].
    clear D. induction F as [|[k v] d [[s Hs] H] F IH]; cbn [items map pairs_js fst snd]; [apply post_ret; constructor|]. cbn in Hs, H. subst k.
    eapply post_bind with (Q := fun a => a = v); [now apply post_ret|]. intros ? ->. rewrite any_filter_none.
    eapply post_bind with (Q := fun a => a = Some (None, None)); [now apply post_ret|]. intros ? ->.
    eapply post_bind; [apply WL|]. intros ? <-. eapply post_bind; [now apply WL|intros j Hj]. eapply post_bind; [exact IH|intros js Hjs]. apply post_ret. now constructor.
Qed.

Lemma agr_tuple_each inm f ss vr x l : Inv inm x -> Forall (agree_sz inm) ss ->
  Agr rends (tuple_each L f ss vr (fun s e i e' => z_py s e i e' x) None None x l) (tuple_each L f ss vr (fun s e i e' => z_js s e i e' x) None None x l).
Proof.
  intros HI HS. assert (HA : Forall (fun s => forall v, Agr rend (z_py s v None None x) (z_js s v None None x)) (any_ser L :: ss)).
  { constructor; [intros; now apply (agree_any inm)|]. eapply Forall_impl; [|exact HS]. intros s Hs v. now apply Hs. }
  inversion HA as [|? ? H1 H2]; subst. unfold tuple_each. destruct vr as [k|].
  - apply agr_zip. unfold tuple_serializers. apply Forall_app; split; [now apply Forall_firstn|]. apply Forall_app; split.
    + apply Forall_forall. intros s I. apply repeat_spec in I. subst. destruct (nth_in_or_default k ss (any_ser L)) as [I|I]; [|now rewrite I].
      now apply (proj1 (Forall_forall _ _) H2).
    + now apply Forall_skipn.
  - destruct (_ && _); [apply agr_fail_l|]. eapply agr_bind; [apply agr_zip, H2|]. intros r r' R. destruct (skipn _ l) eqn:Sk; [now apply agr_ret|].
    apply agr_same. intros _. eapply agr_bind; [apply agr_filtered, H1|]. intros r2 r2' R2. apply agr_ret. now apply rends_app.
Qed.

Section FieldsAgree.
Variable inm : bool.
Variable fields : list (str * field sz).
Variable extras : option sz.
Variable comp : list (computed sz).
Hypothesis QF : Forall (fun kf => on_opt (agree_sz inm) (f_ser (snd kf))) fields.
Hypothesis QC : Forall (fun c => agree_sz inm (cf_ser c)) comp.
Hypothesis CC : comp = [] \/ (inm = true /\ none = false).
Hypothesis TD : inm = true \/ any = false.

Lemma agree_field n f : assoc n fields = Some f -> on_opt (agree_sz inm) (f_ser f).
Proof.
  clear - QF. induction fields as [|[k g] l IH]; cbn [assoc]; [discriminate|]. inversion QF; subst. destruct (str_eqb _ _); [intros [= <-]; assumption|auto].
Qed.
Lemma agr_main_loop x l : Inv inm x -> forall d n,
  Agr (fun r js => grows d (fst r) js) (main_py_loop L SimpleDict fields extras None None x l d n) (main_to_json L SimpleDict fields l None None x).
Proof.
  intros HI. induction l as [|[k v] l IH]; intros d n; cbn [main_py_loop main_to_json]; [apply agr_ret, grows_nil|]. apply agr_same. intros w.
  destruct (x_exclude_none x && is_py_none w) eqn:N.
  - apply agr_l. intros ks. cbv zeta. apply IH.
  - apply agr_same. intros ks. cbv zeta. apply agr_res; [apply filter_none|apply IH|].
    destruct (assoc ks fields) as [f|] eqn:A.
    + apply agree_field in A. destruct (f_ser f) as [s|]; [|apply IH]. destruct (is_default w x s); [apply IH|].
      eapply agr_bind; [apply (proj1 A); exact HI|]. intros p j Hpj. rewrite put_str. apply agr_now. eapply agr_tail; [apply IH|].
      intros r js G. now apply grows_cons with p.
    + cbn [is_td_allow]. destruct (is_strict _); [apply agr_fail_l|apply IH].
Qed.
Lemma agr_main l x : Inv inm x -> Agr (grows []) (main_to_python L SimpleDict fields extras l None None x) (main_to_json L SimpleDict fields l None None x).
Proof.
  intros HI a b X Y. unfold main_to_python, bind in X. destruct (snd (main_py_loop _ _ _ _ _ _ _ _ _ _)) as [r|] eqn:Z; [|discriminate].
  assert (a = fst r) as -> by (destruct (_ && _ && _); [discriminate X|now injection X]). exact (agr_main_loop x l HI [] 0 r b Z Y).
Qed.
Lemma set_model_same m x : x_model x = Some m -> set_model (Some m) x = x.
Proof. intros H. destruct x. cbn in *. now rewrite H. Qed.
Lemma agr_comp v d x : Inv inm x -> Agr (grows d) (comp_to_python E comp (model_or v x) d None None x) (comp_to_json E comp (model_or v x) None None x).
Proof.
  intros HI. unfold comp_to_python, comp_to_json. destruct (model_or v x) as [m|] eqn:Mo; [|apply agr_ret, grows_nil]. destruct (x_round_trip x); [apply agr_ret, grows_nil|].
  destruct CC as [->|[C1 C2]]; [apply agr_ret, grows_nil|].
  rewrite set_model_same by (unfold model_or in Mo; destruct (x_model x) eqn:Xm; [exact Mo|]; destruct HI as (_ & _ & _ & _ & _ & HM); now destruct (HM C1)).
  assert (XN : x_exclude_none x = false) by (destruct HI as (_ & _ & _ & D & _); congruence). clear Mo CC.
  revert QC d; intros Q; induction Q as [|c l H F IH]; intros d; cbn [comp_py_loop comp_js_loop]; [apply agr_ret, grows_nil|]. apply agr_res; [apply filter_none|apply IH|].
  apply agr_same. intros w. rewrite XN. cbn [andb]. eapply agr_bind; [apply (proj1 H); exact HI|]. intros p j Hpj. rewrite put_str. apply agr_now. eapply agr_tail; [apply IH|].
  intros d' js G. now apply grows_cons with p.
Qed.
Lemma agree_fields : agree_sz inm (fields_ser E L SimpleDict fields extras comp).
Proof.
  split; cbn [z_py z_js z_main fields_ser]; [|exact agr_main]. intros v x HI.
  assert (T : td_inferred x = false).
  { unfold td_inferred. destruct HI as (_ & _ & _ & _ & D & M). destruct TD as [T|T]; [|now rewrite (D T), andb_false_r]. destruct (x_model x) eqn:Xm; [reflexivity|now destruct (M T)]. }
  rewrite T. unfold extract_dicts. destruct (down_dict v) as [main|]; [|now apply agr_fall with inm].
  eapply agr_bind; [apply agr_main; apply inv_model_any; [exact HI|unfold model_or; destruct (x_model x); discriminate]|]. intros d a Ga. apply agr_now.
  apply agr_now_r. eapply agr_bind; [now apply agr_comp|]. intros d' c Gc. apply agr_ret. constructor. apply grows_items. cbn [app]. now apply grows_app with d.
Qed.
End FieldsAgree.

Lemma main_shape s f : z_main (build E L s) = Some f -> no_computed s = true ->
  (forall m d inc exc x, snd (m_comp_py f m d inc exc x) = Good d) /\ (forall m inc exc x, snd (m_comp_js f m inc exc x) = Good []).
Proof.
  destruct s; cbn; try discriminate. destruct comp; [|discriminate]. intros [= <-] _. cbn. split; intros [m|] *; cbn; try reflexivity; now destruct (x_round_trip x).
Qed.

Lemma agree_build s : forall inm, sf inm s = true -> agree_sz inm (build E L s).
Proof.
  assert (AllF : forall inm l, Forall (fun s => forall inm, sf inm s = true -> agree_sz inm (build E L s)) l -> forallb (sf inm) l = true -> Forall (agree_sz inm) (map (build E L) l)).
  { intros inm l F. induction F as [|s0 l H F IH]; cbn; intros Hq; [constructor|]. apply andb_prop in Hq. constructor; [now apply H|now apply IH]. }
  assert (PureF : forall inm l, forallb (sf inm) l = true -> Forall (pure_sz is_str) (map (build E L) l)).
  { intros inm l F. apply Forall_map_in. apply Forall_forall. intros s0 Hs. rewrite forallb_forall in F. eapply pure_build with (q := fixed_fields) (am := fun m => match m with SimpleDict => true | _ => false end); try discriminate; auto.
    - intros t. now exists t.
    - apply env_fixed with inm. auto. }
  unfold sf in *. induction s using ser_ind'; intros inm; cbn [build same_form]; intros Hq; try discriminate.
  - apply agree_any.
  - apply agree_simple. intros v x HI. destruct v; try (now apply agr_fall with inm). apply agr_ret. constructor.
  - apply agree_simple. intros v x HI. destruct (is_int_type v) eqn:T.
    + destruct v as [| | | | | | | | | | | |c []]; try discriminate T. apply agr_ret. constructor.
    + unfold subclass_py. destruct HI as (J & C & _). rewrite J, C. cbn [is_strict].
      destruct v as [| | | | | | | | | | | |c []]; try discriminate T; apply agr_ret; constructor.
    + assert (G : get_int v = None) by (destruct v as [| | | | | | | | | | | |c []]; try discriminate T; reflexivity). rewrite G. now apply agr_fall with inm.
  - apply agree_simple. intros v x HI. destruct v; try (now apply agr_fall with inm). apply agr_ret. constructor.
  - apply agree_simple. intros v x HI. destruct (is_float_type v) eqn:T.
    + destruct v as [| | | | | | | | | | | |c []]; try discriminate T. apply agr_ret. constructor.
    + unfold subclass_py. destruct HI as (J & C & _). rewrite J, C. cbn [is_strict].
      destruct (get_float v) as [f|]; [apply agr_ret; constructor|apply agr_fail_l].
    + assert (G : get_float v = None) by (destruct v as [| | | | | | | | | | | |c []]; try discriminate T; reflexivity). rewrite G. now apply agr_fall with inm.
  - apply agree_simple. intros v x HI. pose proof HI as (J & _). rewrite J. destruct (is_str_type v) eqn:T.
    + destruct v as [| | | | | | | | | | | |c []]; try discriminate T. cbn. unfold to_str. destruct (forallb _ _); [apply agr_ret; constructor|apply agr_fail_r].
    + destruct v as [| | | | | | | | | | | |c []]; try discriminate T. apply agr_str.
    + assert (G : down_str v = None) by (destruct v as [| | | | | | | | | | | |c []]; try discriminate T; reflexivity). rewrite G. now apply agr_fall with inm.
  - apply agree_simple. intros v x HI. pose proof HI as (J & _). rewrite J. destruct (down_bytes v); [apply agr_str|now apply agr_fall with inm].
  - apply agree_simple. intros v x HI. destruct v; try (now apply (proj1 (IHs inm Hq))). apply agr_ret. constructor.
  - split; [now apply (proj1 (IHs inm Hq))|exact I].
  - apply agree_simple. intros v x HI. destruct (down_list v); [|now apply agr_fall with inm].
    eapply agr_bind; [apply agr_filtered; intros; now apply (IHs inm)|]. intros r r' R. apply agr_ret. now constructor.
  - apply agree_simple. intros v x HI. pose proof HI as (J & _). rewrite J. destruct (down_set v); [|now apply agr_fall with inm].
    eapply agr_bind; [apply agr_mapM; intros; now apply (IHs inm)|]. intros r r' R. apply agr_ret. now constructor.
  - apply agree_simple. intros v x HI. pose proof HI as (J & _). rewrite J. destruct (down_frozenset v); [|now apply agr_fall with inm].
    eapply agr_bind; [apply agr_mapM; intros; now apply (IHs inm)|]. intros r r' R. apply agr_ret. now constructor.
  - apply agree_simple. intros v' x HI. pose proof HI as (J & _). rewrite J. destruct (down_tuple v'); [|now apply agr_fall with inm].
    eapply agr_bind; [apply agr_tuple_each with inm; [exact HI|now apply AllF]|]. intros r r' R. apply agr_ret. now constructor.
  - apply andb_prop in Hq. destruct Hq as [Hk Hv]. apply agree_simple. intros v x HI. pose proof HI as (J & _). rewrite J. destruct (down_dict v); [|now apply agr_fall with inm].
    eapply agr_bind; [apply agr_pairs; [intros k|intros; now apply (IHs2 inm)]|].
    + intros a b X Y. unfold bind in X. rewrite Y in X. now injection X as <-.
    + intros r r' R. apply agr_ret. constructor. now apply grows_items.
  - repeat match goal with H : _ && _ = true |- _ => apply andb_prop in H; destruct H end. destruct m; try discriminate. apply agree_fields.
    + clear - H H7. induction H as [|[k f] l H F IH]; cbn; [constructor|]. cbn in H7. apply andb_prop in H7. constructor; [|now apply IH].
      cbn in *. destruct (f_ser f); [|exact I]. now apply H.
    + clear - H1 H4. induction H1 as [|c l H F IH]; cbn; [constructor|]. cbn in H4. apply andb_prop in H4. constructor; [|now apply IH]. now apply H.
    + destruct c as [|c0 c]; [left; reflexivity|]. right. cbn in H5. apply andb_prop in H5. destruct H5 as [-> B]. split; [reflexivity|]. now destruct none.
    + apply orb_prop in H3. destruct H3 as [->|B]; [left; reflexivity|right; now destruct any].
  - apply agree_simple. cbv zeta. intros v x HI. assert (HX : Inv true (set_duck (next_mode (x_duck x)) (set_model (Some v) x))) by exact (inv_duck true _ (inv_model inm v x HI)).
    destruct (is_inferred _); [now apply Lpy with true|]. destruct r.
    + destruct (get_attr E v _); [|apply agr_fail_l]. apply agr_now_r. now apply (IHs true).
    + destruct (class_allows _ _ _ _ _); [|now apply agr_fall with true]. apply agr_same. intros i. now apply (IHs true).
  - apply andb_prop in Hq. destruct Hq as [Hn Hq]. apply agree_simple. cbv zeta. intros v x HI.
    assert (HX : Inv true (set_duck (next_mode (x_duck x)) (set_model (Some v) x))) by exact (inv_duck true _ (inv_model inm v x HI)).
    destruct (is_inferred _); [now apply Lpy with true|].
    destruct (class_allows _ _ _ _ _); [|now apply agr_fall with true]. destruct (IHs true Hq) as [P Mn]. destruct (z_main (build E L s)) as [fm|] eqn:Z.
    + destruct (main_shape _ _ Z Hn) as [C1 C2]. eapply agr_bind; [now apply Mn|]. intros d a G. cbn in G.
      eapply agr_bind with (Q := fun d' b => d' = d /\ b = []); [intros d' b X Y; rewrite C1 in X; rewrite C2 in Y; split; congruence|].
      intros d' b [-> ->]. rewrite app_nil_r. apply agr_ret. constructor. now apply grows_items.
    + apply agr_same. intros i. now apply P.
  - apply agree_simple. intros v x HI. unfold or_infer. eapply agr_same_post.
    + apply post_union. eapply Forall_impl; [|exact (PureF _ _ Hq)]. intros s0 Hs c. apply Hs. apply HI.
    + intros [w|] Hw; [|now apply Lpy with inm]. apply post_agr. apply WL; [exact Hw|apply HI].
  - apply agree_simple. intros v x HI. unfold or_infer. eapply agr_same_post.
    + apply post_tagged. eapply Forall_impl; [|exact (PureF _ _ Hq)]. intros s0 Hs c. apply Hs. apply HI.
    + intros [w|] Hw; [|now apply Lpy with inm]. apply post_agr. apply WL; [exact Hw|apply HI].
  - apply agree_simple. intros v x HI. apply agr_same. intros a. pose proof HI as (J & _). rewrite J. destruct a; try (apply agr_ret; constructor); [now apply Lpy with inm|now apply agr_fall with inm].
  - apply agree_simple. intros v x HI. pose proof HI as (J & _). rewrite J. destruct (exact_instance v c); [|now apply agr_fall with inm]. apply agr_same. intros w.
    destruct o as [s|]; [now apply (H inm)|now apply Lpy with inm].
  - apply agree_simple. intros v x HI. assert (W : should_use w v x = should_use_json w v) by (unfold should_use; destruct HI as (-> & _); destruct w; reflexivity). rewrite W.
    destruct (should_use_json w v) eqn:U.
    + apply agr_same. intros s. unfold to_str. destruct (forallb _ _); [apply agr_ret; constructor|apply agr_fail_r].
    + destruct w, v; try discriminate U; apply agr_ret; constructor.
  - apply agree_simple. intros v x HI. destruct (x_round_trip x); [apply agr_str|now apply (proj1 (IHs inm Hq))].
  - apply agree_simple. intros. apply AL. now apply inv_weaken in H.
  - apply andb_prop in Hq. destruct Hq as [Hr Hf]. apply agree_simple. cbv zeta. intros v x HI. destruct (should_use w v x).
    + destruct (if i then _ else _) as [o|e]; [now apply (IHs inm)|]. apply agr_same. intros _. now apply Lpy with inm.
    + destruct fb as [s'|]; [now apply (H inm)|apply agr_fail_l].
Qed.

Lemma exact_kind v t : get_type E v = t -> match t with TNone => v = PNone | TBool => exists b, v = PBool b | TInt => exists z, v = PInt z | TStr => exists s, v = PStr s | _ => True end.
Proof.
  intros <-. destruct v as [| | | | | | | | | | | |c b]; cbn; eauto; unfold class_kind;
    repeat match goal with |- context [if ?b then _ else _] => destruct b; try exact I end. destruct b; exact I.
Qed.
Lemma agr_infer v x : Inv false x ->
  Agr rend (infer_py_body E L (fun s => z_py (build E L s)) v None None x) (infer_js_body E L (fun s => z_js (build E L s)) v None None x).
Proof.
  intros HI. pose proof HI as (J & _ & U & _). unfold infer_py_body, infer_js_body. cbv zeta. rewrite J, U.
  assert (HK : forall k, Agr (fun p s => p = PStr s) (s <- l_key L k x ;; ret (PStr s)) (l_key L k x)).
  { intros k a b X Y. unfold bind in X. rewrite Y in X. now injection X as <-. }
  assert (HL : forall v, Agr rend (l_py L v None None x) (l_js L v None None x)) by (intros; now apply Lpy with false).
  assert (HP : forall l, Agr rend (d <- pairs_py any_filter None None (fun k => s <- l_key L k x ;; ret (PStr s)) (fun e i e' => l_py L e i e' x) l [] ;; ret (PDict d))
                                  (d <- pairs_js any_filter None None (fun k => l_key L k x) (fun e i e' => l_js L e i e' x) l ;; ret (JObj d))).
  { intros l. eapply agr_bind; [now apply agr_pairs|]. intros d js G. apply agr_ret. constructor. now apply grows_items. }
  pose proof (exact_kind v _ eq_refl) as K. destruct (get_type E v).
  - subst v. apply agr_ret. constructor.
  - destruct K as [z ->]. apply agr_ret. constructor.
  - apply agr_same. intros z. apply agr_ret. constructor.
  - destruct K as [b ->]. apply agr_ret. constructor.
  - apply agr_same. intros f. apply agr_ret. unfold rend, float_js. destruct (nonfinite f) eqn:N; [|cbn [andb]].
    + destruct (c_inf_nan (x_config x)) eqn:C; cbn [andb]; [constructor|pose proof (R_float IConstants f) as Q|pose proof (R_float IStrings f) as Q]; unfold float_js in Q; rewrite N in Q; exact Q.
    + pose proof (R_float INull f) as Q. unfold float_js in Q. rewrite N in Q. exact Q.
  - apply agr_same. intros f. apply agr_ret. unfold rend, float_js. destruct (nonfinite f) eqn:N; [|cbn [andb]].
    + destruct (c_inf_nan (x_config x)) eqn:C; cbn [andb]; [constructor|pose proof (R_float IConstants f) as Q|pose proof (R_float IStrings f) as Q]; unfold float_js in Q; rewrite N in Q; exact Q.
    + pose proof (R_float INull f) as Q. unfold float_js in Q. rewrite N in Q. exact Q.
  - destruct K as [s ->]. cbn. unfold to_str. destruct (forallb _ _); [apply agr_ret; constructor|apply agr_fail_r].
  - apply agr_same. intros s. apply agr_str.
  - apply agr_same. intros b. apply agr_str.
  - apply agr_same. intros l. eapply agr_bind; [now apply agr_filtered|]. intros r r' R. apply agr_ret. now constructor.
  - apply agr_same. intros l. eapply agr_bind; [now apply agr_filtered|]. intros r r' R. apply agr_ret. now constructor.
  - apply agr_same. intros l. eapply agr_bind; [now apply agr_mapM|]. intros r r' R. apply agr_ret. now constructor.
  - apply agr_same. intros l. eapply agr_bind; [now apply agr_mapM|]. intros r r' R. apply agr_ret. now constructor.
  - apply agr_same. intros l. apply HP.
  - unfold own_serializer. destruct (class_of v) as [c|]; [|apply agr_fail_l]. destruct (ci_ser _) as [sc|] eqn:C; [|apply agr_fail_l].
    apply (proj1 SE) in C. apply agr_now. apply agr_now_r. apply agree_build with (inm := false); [exact C|]. now apply inv_nested with false.
  - apply HP.
  - apply agr_same. intros w. apply HL.
  - destruct (x_fallback x); [apply agr_same; intros; apply HL|apply agr_fail_l].
Qed.
End Build.

Lemma agree_keyed P n : agree_level P -> agree_level (keyed E P n).
Proof. intros [A B]. destruct n; split; cbn [keyed l_py l_js l_def_py l_def_js]; assumption. Qed.
Lemma writes_keyed P n : (forall w x, jsonable is_str w -> x_serialize_unknown x = false -> Post (l_js P w None None x) (fun j => renders j w)) -> writes_json (keyed E P n).
Proof.
  intros H. split; [destruct n; exact H|]. destruct n; cbn [keyed l_key]; intros s x; [apply post_fail|]. unfold infer_key_body. cbn [get_type].
  unfold to_str. cbn. destruct (forallb _ _); [now apply post_ret|apply post_fail].
Qed.
Lemma pure_str n : pure_level is_str (levels E n).
Proof.
  apply pure_levels with (q := fixed_fields) (am := fun m => match m with SimpleDict => true | _ => false end); try discriminate; auto.
  - intros t. now exists t.
  - apply env_all_fixed.
Qed.
Lemma writes_levels n : writes_json (levels E n).
Proof.
  induction n as [|n IH]; cbn [levels]; apply writes_keyed; cbn [l_js]; intros w x J U.
  - unfold guard_failed_js. rewrite U. apply post_fail.
  - destruct (enter w None x) as [x'|] eqn:N; [|unfold guard_failed_js; rewrite U; apply post_fail]. apply writes_body; [exact IH|exact J|].
    unfold enter in N. destruct (existsb _ _); [discriminate|]. now injection N as <-.
Qed.
Lemma agree_levels n : agree_level (levels E n).
Proof.
  induction n as [|n IH]; cbn [levels]; apply agree_keyed; split; cbn [l_py l_js l_def_py l_def_js]; intros; try apply agr_fail_l.
  - unfold guard_failed_py. destruct H as (-> & _). apply agr_fail_l.
  - destruct (enter v None x) as [x'|] eqn:N.
    + apply agr_infer; auto using writes_levels, pure_str. now apply inv_enter with (1 := N).
    + unfold guard_failed_py. destruct H as (-> & _). apply agr_fail_l.
  - destruct (e_def E k) as [s|] eqn:D; [|apply agr_fail_l]. destruct (enter v _ x) as [x'|] eqn:N; [|apply agr_fail_l].
    apply agree_build with (inm := false); auto using writes_levels, pure_str. { exact (proj2 SE _ _ D). } now apply inv_enter with (1 := N).
Qed.
Lemma agree_top n s v x : same_form none any false s = true -> Inv false x ->
  Agr rend (z_py (build E (levels E n) s) v None None x) (z_js (build E (levels E n) s) v None None x).
Proof. intros S H. apply agree_build with (inm := false); auto using writes_levels, pure_str, agree_levels. Qed.
End Agree.

(** A value without NaN or infinity is the parsed form of its rendering. *)
Lemma float_js_finite m f : nonfinite f = false -> float_js m f = JFloat f.
Proof. intros H. unfold float_js. now rewrite H. Qed.
Lemma dict_set_forall2 (R : pyval -> pyval -> Prop) k v w d d' : R v w ->
  Forall2 (fun a b => fst a = fst b /\ R (snd a) (snd b)) d d' ->
  Forall2 (fun a b => fst a = fst b /\ R (snd a) (snd b)) (dict_set k v d) (dict_set k w d').
Proof.
  intros H F. induction F as [|[k1 v1] [k2 v2] d d' [A B] F IH]; cbn [dict_set]; [repeat constructor; exact H|]. cbn in A, B. subst k2.
  destruct (py_eq k1 k); constructor; auto.
Qed.
Lemma renders_exact : 
  (forall j p, renders j p -> finite_value p = true -> json_to_py j = p) /\
  (forall l l', renders_all l l' -> forallb finite_value l' = true -> map json_to_py l = l') /\
  (forall l d, renders_items l d ->
     Forall2 (fun a b => fst a = fst b /\ (finite_value (snd b) = true -> snd a = snd b))
       (fold_left (fun d kv => dict_set (PStr (fst kv)) (json_to_py (snd kv)) d) l []) d).
Proof.
  apply renders_ind3; cbn [json_to_py finite_value forallb map fst snd]; intros; auto.
  - rewrite float_js_finite; [reflexivity|]. now apply negb_true_iff in H.
  - now rewrite H.
  - f_equal. revert H0. generalize dependent d. generalize (fold_left (fun d kv => dict_set (PStr (fst kv)) (json_to_py (snd kv)) d) l []).
    intros a d _ F. induction F as [|[k1 v1] [k2 v2] a d [A B] F IH]; cbn; intros H; [reflexivity|]. apply andb_prop in H. destruct H as [H1 H2]. cbn in A, B. subst k2.
    now rewrite (B H1), (IH H2).
  - apply andb_prop in H1. destruct H1. now rewrite H, H0.
  - constructor.
  - rewrite fold_left_app. cbn [fold_left fst snd]. now apply (dict_set_forall2 (fun a b => finite_value b = true -> a = b)).
Qed.

(** Proofs for C94: the run with the options against the run without them. *)
From Coq Require Import List NArith ZArith Bool Lia.
From Verif Require Import Base Float64 Utf8 Decimal Values BytesCodec Filter FilterSpec FilterProofs LookupKey Classes JsonText SerBase Ser SerInd SerSpec SerCutSpec.
Import ListNotations.
From Verif Require Assign.
Open Scope nat_scope.

(** ** Filters that never raise. *)
Inductive fine : fval -> Prop :=
| fine_ell : fine FEll
| fine_set l : fine (FSet l)
| fine_dict d : Forall (fun kv => fine (snd kv)) d -> fine (FDict d).
Definition fine_top (f : option fval) : Prop := match f with None => True | Some g => fine g /\ g <> FEll end.

Lemma wf_fine : forall f, well_formed f -> fine f.
Proof.
  induction f as [| |d IH|l|l|] using fval_ind'; intros W; try contradiction; try constructor.
  apply wf_dict in W as [_ W]. revert W. induction IH as [|[k g] d H _ IH']; intros W; [constructor|]. inversion W; subst. constructor; auto.
Qed.
Lemma wf_fine_top f : wf_top f -> fine_top f.
Proof. destruct f; [|exact (fun x => x)]. intros [A B]. split; [now apply wf_fine|exact B]. Qed.

Lemma fine_lookup d k g : Forall (fun kv => fine (snd kv)) d -> lookup k d = Some g -> fine g.
Proof. induction 1 as [|[k' g'] d H _ IH]; cbn [lookup]; [discriminate|]. destruct (key_eqb k k'); [intros [= <-]; exact H|exact IH]. Qed.
Lemma fine_set_item k g d : fine g -> Forall (fun kv => fine (snd kv)) d -> Forall (fun kv => fine (snd kv)) (set_item k g d).
Proof.
  intros G. induction 1 as [|[k' g'] d H F IH]; cbn [set_item]; [constructor; [exact G|constructor]|].
  destruct (key_eqb k k'); constructor; auto.
Qed.
Lemma fine_as_dict f : fine f -> f <> FEll -> exists d, as_dict f = Ok d /\ Forall (fun kv => fine (snd kv)) d.
Proof.
  intros [|l|d H] N; [congruence| |].
  - eexists. split; [reflexivity|]. apply Forall_forall. intros [k g] I. apply in_map_iff in I. destruct I as (k' & [= <- <-] & _). constructor.
  - exists d. split; [reflexivity|exact H].
Qed.
Lemma fine_merge : forall all item, fine all -> all <> FEll -> Forall (fun kv => fine (snd kv)) item ->
  exists m, merge_dicts item all = Ok m /\ Forall (fun kv => fine (snd kv)) m.
Proof.
  induction all as [| |ad IH|l|l|] using fval_ind'; intros item Fa Na Fi; try congruence; try (inversion Fa; fail).
  - cbn [merge_dicts].
    assert (FA : Forall (fun kv => fine (snd kv)) ad) by (inversion Fa; assumption). clear Fa Na. revert item Fi.
    induction ad as [|[k av] ad IHa]; intros item Fi; [exists item; split; [reflexivity|exact Fi]|].
    inversion IH as [|? ? IH1 IH2]; subst. inversion FA as [|? ? F1 F2]; subst. cbn [snd] in *. specialize (IHa IH2 F2).
    destruct (lookup k item) as [iv|] eqn:LK; [|apply IHa, fine_set_item; assumption].
    destruct (is_ell iv) eqn:Ei; [apply IHa; exact Fi|].
    destruct (fine_as_dict iv (fine_lookup _ _ _ Fi LK)) as (ivd & -> & Fd); [intros ->; discriminate|].
    destruct (is_ell av) eqn:Ea; [apply IHa; exact Fi|].
    destruct (IH1 ivd F1) as (m & -> & Fm); [intros ->; discriminate|exact Fd|]. apply IHa, fine_set_item; [constructor; exact Fm|exact Fi].
  - cbn [merge_dicts]. eexists. split; [reflexivity|]. clear Fa Na. revert item Fi. induction l as [|k l IH]; intros item Fi; [exact Fi|].
    cbn [fold_left]. apply IH. destruct (lookup k item); [exact Fi|]. apply fine_set_item; [constructor|exact Fi].
Qed.
Lemma fine_merge_all d k : Forall (fun kv => fine (snd kv)) d -> exists o, merge_all_value d k = Ok o /\ match o with Some g => fine g | None => True end.
Proof.
  intros F. unfold merge_all_value. destruct (lookup k d) as [iv|] eqn:K; destruct (lookup ALL d) as [av|] eqn:A.
  - pose proof (fine_lookup _ _ _ F K) as Fi. pose proof (fine_lookup _ _ _ F A) as Fa.
    destruct (is_ell iv || is_ell av) eqn:E; [eexists; split; [reflexivity|exact Fi]|]. apply orb_false_elim in E as [E1 E2].
    destruct (fine_as_dict iv Fi) as (id & -> & Fd); [intros ->; discriminate|].
    destruct (fine_merge av id Fa) as (m & -> & Fm); [intros ->; discriminate|exact Fd|]. eexists. split; [reflexivity|]. constructor. exact Fm.
  - eexists. split; [reflexivity|]. exact (fine_lookup _ _ _ F K).
  - eexists. split; [reflexivity|]. exact (fine_lookup _ _ _ F A).
  - eexists. split; [reflexivity|exact I].
Qed.
Lemma nonell g : is_ell g = false -> g <> FEll.
Proof. intros E ->. discriminate. Qed.
Lemma fine_filter k inc exc : fine_top inc -> fine_top exc ->
  exists o, filter any_filter k inc exc = Ok o /\ match o with Some (i, e) => fine_top i /\ fine_top e | None => True end.
Proof.
  intros Fi Fe. unfold filter.
  assert (X : exists o, exclude_phase k exc = Ok o /\ match o with Some e => fine_top e | None => True end).
  { destruct exc as [f|]; [|eexists; split; [reflexivity|exact I]]. destruct Fe as [[|l|d H] N]; [congruence| |]; cbn [exclude_phase].
    - eexists. split; [reflexivity|]. destruct (mem k l || mem ALL l); exact I.
    - destruct (fine_merge_all d k H) as ([g|] & -> & Fg); [|eexists; split; [reflexivity|exact I]].
      destruct (is_ell g) eqn:E; eexists; (split; [reflexivity|]); [exact I|]. split; [exact Fg|exact (nonell _ E)]. }
  destruct X as ([e|] & -> & Fe'); [|eexists; split; [reflexivity|exact I]]. cbv zeta.
  assert (T : filter_tail any_filter k e = Some (None, e)) by (destruct e; reflexivity). rewrite T.
  destruct inc as [f|]; [|eexists; split; [reflexivity|split; [exact I|exact Fe']]].
  destruct Fi as [[|l|d H] N]; [congruence| |].
  - destruct (mem k l || mem ALL l); eexists; (split; [reflexivity|]); [split; [exact I|exact Fe']|exact I].
  - destruct (fine_merge_all d k H) as ([g|] & -> & Fg); [|eexists; split; [reflexivity|exact I]].
    destruct (is_ell g) eqn:E; eexists; (split; [reflexivity|]); (split; [|exact Fe']); [exact I|]. split; [exact Fg|exact (nonell _ E)].
Qed.
Lemma fine_map n f : fine_top f -> exists f', map_opt f (Some n) = Ok f' /\ fine_top f'.
Proof.
  destruct f as [f|]; [|eexists; split; [reflexivity|exact I]]. intros [F N]. cbn [map_opt].
  destruct F as [|l|d H]; [congruence| |]; cbn [map_negative_indices].
  - assert (X : exists l', map_elems (Some n) l = Ok l').
    { clear. induction l as [|k l (l' & E)]; [eexists; reflexivity|]. cbn [map_elems]. rewrite E. unfold map_negative_index. destruct k; eexists; reflexivity. }
    destruct X as (l' & ->). eexists. split; [reflexivity|]. split; [constructor|discriminate].
  - assert (X : forall acc, Forall (fun kv => fine (snd kv)) acc -> exists d', map_keys (Some n) d acc = Ok d' /\ Forall (fun kv => fine (snd kv)) d').
    { clear N. induction H as [|[k g] d H _ IH]; intros acc Fa; [eexists; split; [reflexivity|exact Fa]|]. cbn [map_keys].
      unfold map_negative_index. destruct k; apply IH, fine_set_item; assumption. }
    destruct (X []) as (d' & -> & Fd); [constructor|]. eexists. split; [reflexivity|]. split; [constructor; exact Fd|discriminate].
Qed.
Lemma fine_index i inc exc n : fine_top inc -> fine_top exc ->
  exists o, index_filter any_filter i inc exc (Some n) = Ok o /\ match o with Some (i, e) => fine_top i /\ fine_top e | None => True end.
Proof.
  intros Fi Fe. unfold index_filter. destruct (fine_map n inc Fi) as (i' & -> & Fi'). destruct (fine_map n exc Fe) as (e' & -> & Fe'). now apply fine_filter.
Qed.
Lemma no_filter_any f : no_filter f = true -> f = any_filter.
Proof. destruct f as [[a|] [b|]]; cbn; try discriminate. reflexivity. Qed.

(** ** The two runs. *)
Definition clear (x : extra) : extra :=
  {| x_json := x_json x; x_by_alias := x_by_alias x; x_exclude_unset := false;
     x_exclude_defaults := false; x_exclude_none := false; x_round_trip := false;
     x_config := x_config x; x_check := x_check x; x_model := x_model x; x_serialize_unknown := x_serialize_unknown x;
     x_fallback := x_fallback x; x_duck := x_duck x; x_collect := x_collect x; x_guard := x_guard x |}.

Lemma picked_refl {A} (R : A -> A -> Prop) : (forall a, R a a) -> forall l, picked R l l.
Proof. intros H. induction l; constructor; auto. Qed.
Lemma picked_nil {A} (R : A -> A -> Prop) l : picked R [] l.
Proof. induction l; constructor; auto. Qed.
Lemma picked_app {A} (R : A -> A -> Prop) a b c d : picked R a b -> picked R c d -> picked R (a ++ c) (b ++ d).
Proof. induction 1; intros; cbn [app]; [assumption| |]; constructor; auto. Qed.
Lemma picked_after {A} (R : A -> A -> Prop) a b c : picked R a c -> picked R a (b ++ c).
Proof. intros H. exact (picked_app R [] b a c (picked_nil R b) H). Qed.
Lemma picked_filter {A} (f : A -> bool) l : picked eq (List.filter f l) l.
Proof. induction l as [|a l IH]; cbn [List.filter]; [constructor|]. destruct (f a); constructor; auto. Qed.
Lemma picked_map {A B} (g : A -> B) l' l : picked eq l' l -> picked eq (map g l') (map g l).
Proof. induction 1; cbn [map]; [constructor| |]; constructor; congruence. Qed.

Section Cut.
(** [flaw]: unset fields are left out, which reads an attribute more.  [quiet]: the full
    run records no warnings. *)
Variable flaw quiet : bool.
(** If the full run returns, the other one returns a part of it, with no other warnings; it
    can fail only if [flaw]. *)
Definition RR {A B} (P : A -> B -> Prop) (m' : M A) (m : M B) : Prop :=
  forall b, snd m = Good b -> (quiet = true -> fst m = []) ->
    picked eq (fst m') (fst m) /\ match snd m' with Good a => P a b | Bad _ => flaw = true end.

Lemma rr_ret {A B} (P : A -> B -> Prop) a b : P a b -> RR P (ret a) (ret b).
Proof. intros H b' [= <-] _. split; [constructor|exact H]. Qed.
Lemma rr_fail {A B} (P : A -> B -> Prop) m e : RR P m (fail e : M B).
Proof. intros b [=]. Qed.
Lemma rr_refl {A} (P : A -> A -> Prop) m : (forall a, P a a) -> RR P m m.
Proof. intros H b E _. split; [apply picked_refl; reflexivity|]. rewrite E. apply H. Qed.
Lemma rr_part m : RR part m m.
Proof. apply rr_refl. constructor. Qed.
Lemma rr_bind {A B C D} (Q : A -> B -> Prop) (P : C -> D -> Prop) m' m f g :
  RR Q m' m -> (forall a b, Q a b -> RR P (f a) (g b)) -> RR P (bind m' f) (bind m g).
Proof.
  intros H F d E S0. unfold bind in *. destruct (snd m) as [b|e] eqn:S; [|discriminate]. cbn [snd fst] in E, S0.
  destruct (H b S) as [W Hm]; [intros q; exact (proj1 (app_eq_nil _ _ (S0 q)))|].
  destruct (snd m') as [a|e']; cbn [fst snd].
  - destruct (F a b Hm d E) as [W' R]; [intros q; exact (proj2 (app_eq_nil _ _ (S0 q)))|]. split; [now apply picked_app|exact R].
  - split; [|exact Hm]. rewrite <- (app_nil_r (fst m')). apply picked_app; [exact W|apply picked_nil].
Qed.
Lemma rr_same {A C D} (P : C -> D -> Prop) (m : M A) f g : (forall a, RR P (f a) (g a)) -> RR P (bind m f) (bind m g).
Proof. intros F. apply rr_bind with eq; [now apply rr_refl|]. intros a b <-. apply F. Qed.
Lemma rr_skip {A C D} (P : C -> D -> Prop) (m : M A) m' g : (forall a, RR P m' (g a)) -> RR P m' (bind m g).
Proof.
  intros F d E S0. unfold bind in *. destruct (snd m) as [a|e]; [|discriminate]. cbn [snd fst] in *.
  destruct (F a d E) as [W H]; [intros q; exact (proj2 (app_eq_nil _ _ (S0 q)))|]. split; [now apply picked_after|exact H].
Qed.
Lemma rr_now {A C D} (P : C -> D -> Prop) (a : A) f m : RR P (f a) m -> RR P (bind (ret a) f) m.
Proof. intros H b E S0. exact (H b E S0). Qed.
Lemma rr_now_r {A C D} (P : C -> D -> Prop) (a : A) f m : RR P m (f a) -> RR P m (bind (ret a) f).
Proof. intros H b E S0. exact (H b E S0). Qed.
Lemma rr_drop {A} (R : A -> A -> Prop) (m' m : M (list A)) a : RR (picked R) m' m -> RR (picked R) m' (bind m (fun r => ret (a :: r))).
Proof.
  intros H l E S0. unfold bind in *. destruct (snd m) as [r|] eqn:S; [|discriminate]. cbn in E, S0. rewrite app_nil_r in S0. injection E as <-.
  destruct (H r S S0) as [W X]. cbn [fst]. rewrite app_nil_r. split; [exact W|]. destruct (snd m'); [now constructor|exact X].
Qed.
Lemma rr_cons {A} (R : A -> A -> Prop) (m' m : M (list A)) a' a : R a' a -> RR (picked R) m' m ->
  RR (picked R) (bind m' (fun r => ret (a' :: r))) (bind m (fun r => ret (a :: r))).
Proof. intros Ra H. eapply rr_bind; [exact H|]. intros r' r Hr. apply rr_ret. now constructor. Qed.

Definition member (a b : str * json) : Prop := fst a = fst b /\ part (snd a) (snd b).
Definition each_ok {A} (P : A -> A -> Prop) (each' each : pyval -> incl -> incl -> M A) : Prop :=
  forall v i e, fine_top i -> fine_top e -> RR P (each' v i e) (each v None None).

Lemma rr_filtered (each' each : pyval -> incl -> incl -> M json) inc exc n l : fine_top inc -> fine_top exc -> each_ok part each' each ->
  forall i, RR (picked part) (filtered any_filter inc exc (Some n) each' i l) (filtered any_filter None None (Some n) each i l).
Proof.
  intros Fi Fe H. induction l as [|v l IH]; intros i; cbn [filtered]; [apply rr_ret; constructor|].
  destruct (fine_index (Z.of_nat i) inc exc n Fi Fe) as (o & -> & Fo).
  change (index_filter any_filter (Z.of_nat i) None None (Some n)) with (Ok (Some (@None fval, @None fval))). cbn [res_opt].
  apply rr_now, rr_now_r. destruct o as [[ni ne]|].
  - destruct Fo as [Fni Fne]. eapply rr_bind; [apply H; assumption|]. intros a b P. apply rr_cons; [exact P|apply IH].
  - apply rr_skip. intros a. apply rr_drop, IH.
Qed.
Lemma rr_zip (each' each : sz -> pyval -> incl -> incl -> M json) inc exc n ss : fine_top inc -> fine_top exc ->
  Forall (fun s => each_ok part (each' s) (each s)) ss ->
  forall l i, RR (picked part) (zip_items any_filter inc exc (Some n) each' i ss l) (zip_items any_filter None None (Some n) each i ss l).
Proof.
  intros Fi Fe. induction 1 as [|s ss H _ IH]; intros l i; cbn [zip_items]; [apply rr_ret; constructor|].
  destruct l as [|v l]; [apply rr_ret; constructor|].
  destruct (fine_index (Z.of_nat i) inc exc n Fi Fe) as (o & -> & Fo).
  change (index_filter any_filter (Z.of_nat i) None None (Some n)) with (Ok (Some (@None fval, @None fval))). cbn [res_opt].
  apply rr_now, rr_now_r. destruct o as [[ni ne]|].
  - destruct Fo as [Fni Fne]. eapply rr_bind; [apply H; assumption|]. intros a b P. apply rr_cons; [exact P|apply IH].
  - apply rr_skip. intros a. apply rr_drop, IH.
Qed.
Lemma rr_mapM (f g : pyval -> M json) l : (forall v, RR part (f v) (g v)) -> RR (picked part) (mapM f l) (mapM g l).
Proof.
  intros H. induction l as [|v l IH]; cbn [mapM]; [apply rr_ret; constructor|]. eapply rr_bind; [apply H|]. intros a b P. now apply rr_cons.
Qed.
Lemma rr_pairs (key' key : pyval -> M str) (each' each : pyval -> incl -> incl -> M json) inc exc l : fine_top inc -> fine_top exc ->
  (forall k, key' k = key k) -> each_ok part each' each ->
  RR (picked member) (pairs_js any_filter inc exc key' each' l) (pairs_js any_filter None None key each l).
Proof.
  intros Fi Fe K H. induction l as [|[k v] l IH]; cbn [pairs_js]; [apply rr_ret; constructor|]. apply rr_same. intros w.
  destruct (fine_filter (key_of k) inc exc Fi Fe) as (o & -> & Fo).
  change (filter any_filter (key_of k) None None) with (Ok (Some (@None fval, @None fval))). cbn [res_opt]. apply rr_now, rr_now_r. rewrite K.
  destruct o as [[ni ne]|].
  - destruct Fo as [Fni Fne]. apply rr_same. intros ks. eapply rr_bind; [apply H; assumption|]. intros a b P. apply rr_cons; [split; [reflexivity|exact P]|apply IH].
  - apply rr_skip. intros ks. apply rr_skip. intros j. apply rr_drop, IH.
Qed.

Variable E : env.
Variable rt careful : bool.
Let q := cuttable rt careful.
Hypothesis QE : env_all q E.
(** What is known of the state of the run with the options. *)
Definition fit (x : extra) : Prop :=
  (quiet = true -> x_collect x = true) /\ (x_exclude_unset x = true -> flaw = true) /\ (rt = false -> x_round_trip x = false) /\
  (careful = false -> x_exclude_unset x = true -> quiet = true).

Definition cut_js (f : pyval -> incl -> incl -> extra -> M json) : Prop :=
  forall v i e x, fit x -> fine_top i -> fine_top e -> RR part (f v i e x) (f v None None (clear x)).
Definition same_key (f : pyval -> extra -> M str) : Prop := forall v x, fit x -> f v (clear x) = f v x.
Definition cut_main (f : fmain) : Prop :=
  (forall l' l i e x, fit x -> fine_top i -> fine_top e -> picked eq l' l -> RR (picked member) (m_js f l' i e x) (m_js f l None None (clear x))) /\
  (forall m i e x, fit x -> fine_top i -> fine_top e -> RR (picked member) (m_comp_js f m i e x) (m_comp_js f m None None (clear x))).
Definition cut_sz (s : sz) : Prop := cut_js (z_js s) /\ same_key (z_key s) /\ on_opt cut_main (z_main s).
Definition cut_level (L : level) : Prop := cut_js (l_js L) /\ same_key (l_key L) /\ (forall k, cut_js (l_def_js L k)) /\ (forall k, same_key (l_def_key L k)).

Section Keys.
Variable L : level.
Hypothesis KL : same_key (l_key L).
Lemma key_fall : same_key (fall_key L).
Proof. intros v x F. unfold fall_key. rewrite (KL v x F). reflexivity. Qed.
Lemma key_invalid : same_key (invalid_key L).
Proof. intros v x F. unfold invalid_key. rewrite (KL v x F). reflexivity. Qed.
End Keys.

Lemma key_infer again : same_key again -> same_key (infer_key_body E again).
Proof.
  intros H v x F. unfold infer_key_body. destruct (get_type E v); try reflexivity.
  - destruct (down_tuple v) as [l|]; [|reflexivity]. cbn [opt]. unfold bind at 1 3. cbn [snd fst ret].
    replace (mapM (fun e => again e (clear x)) l) with (mapM (fun e => again e x) l); [reflexivity|].
    clear - H F. induction l as [|a l IH]; [reflexivity|]. cbn [mapM]. rewrite (H a x F), IH. reflexivity.
  - destruct (enum_value E v) as [w|]; [|reflexivity]. cbn [opt]. unfold bind. cbn [snd fst ret]. rewrite (H w x F). reflexivity.
  - change (x_fallback (clear x)) with (x_fallback x). destruct (x_fallback x) as [f|]; [|reflexivity].
    destruct (f v) as [w|]; [|reflexivity]. cbn [opt]. unfold bind. cbn [snd fst ret]. rewrite (H w x F). reflexivity.
Qed.

Section Build.
Variable L : level.
Hypothesis CL : cut_level L.
Let Ljs : cut_js (l_js L) := proj1 CL.
Let Lkey : same_key (l_key L) := proj1 (proj2 CL).

Lemma cut_fall : cut_js (fall_js L).
Proof. intros v i e x F Fi Fe. unfold fall_js. change (on_fallback v (clear x)) with (on_fallback v x). apply rr_same. intros _. now apply Ljs. Qed.
Lemma cut_simple py js key r : cut_js js -> same_key key -> cut_sz (simple py js key r).
Proof. intros A B. split; [exact A|split; [exact B|exact I]]. Qed.
Lemma cut_any : cut_sz (any_ser L).
Proof. apply cut_simple; assumption. Qed.

Section Fields.
Variable mode : fields_mode.
Variable fields : list (str * field sz).
Variable comp : list (computed sz).
Hypothesis QF : Forall (fun kf => on_opt cut_sz (f_ser (snd kf))) fields.
Hypothesis QC : Forall (fun c => cut_sz (cf_ser c)) comp.

Lemma cut_field n f : assoc n fields = Some f -> on_opt cut_sz (f_ser f).
Proof.
  clear - QF. induction fields as [|[k g] l IH]; cbn [assoc]; [discriminate|]. inversion QF; subst. destruct (str_eqb _ _); [intros [= <-]; assumption|auto].
Qed.
Lemma any_none k : filter any_filter k None None = Ok (Some (None, None)).
Proof. reflexivity. Qed.
Lemma not_default w x s : is_default w (clear x) s = false.
Proof. reflexivity. Qed.
Ltac full x :=
  change (x_exclude_none (clear x)) with false; cbn [andb]; rewrite ?any_none, ?not_default; cbn [res_opt].

Lemma step_full k v l x : main_to_json L mode fields ((k, v) :: l) None None (clear x) =
  (w <- opt v ;; ks <- key_str k ;; o <- ret (Some (@None fval, @None fval)) ;;
   match o with None => main_to_json L mode fields l None None (clear x) | Some (ni, ne) =>
   match assoc ks fields with
        | Some f => match f_ser f with
                    | Some s => j <- z_js s w ni ne (clear x) ;; r <- main_to_json L mode fields l None None (clear x) ;; ret ((out_key ks f (clear x), j) :: r)
                    | None => main_to_json L mode fields l None None (clear x) end
        | None => if is_td_allow mode then k <- l_key L k (clear x) ;; j <- l_js L w ni ne (clear x) ;; r <- main_to_json L mode fields l None None (clear x) ;; ret ((k, j) :: r)
                  else main_to_json L mode fields l None None (clear x) end end).
Proof. reflexivity. Qed.

Lemma rr_main l' l i e x : fit x -> fine_top i -> fine_top e -> picked eq l' l ->
  RR (picked member) (main_to_json L mode fields l' i e x) (main_to_json L mode fields l None None (clear x)).
Proof.
  intros F Fi Fe P. induction P as [|a b l' l Eq P IH|b l' l P IH].
  - apply rr_ret. constructor.
  - subst b. destruct a as [k v]. rewrite step_full. cbn [main_to_json]. apply rr_same. intros w.
    assert (SKIP : forall m', RR (picked member) m' (main_to_json L mode fields l None None (clear x)) ->
       forall ks, RR (picked member) m' (o <- ret (Some (@None fval, @None fval)) ;;
   match o with None => main_to_json L mode fields l None None (clear x) | Some (ni, ne) =>
   match assoc ks fields with
        | Some f => match f_ser f with
                    | Some s => j <- z_js s w ni ne (clear x) ;; r <- main_to_json L mode fields l None None (clear x) ;; ret ((out_key ks f (clear x), j) :: r)
                    | None => main_to_json L mode fields l None None (clear x) end
        | None => if is_td_allow mode then k <- l_key L k (clear x) ;; j <- l_js L w ni ne (clear x) ;; r <- main_to_json L mode fields l None None (clear x) ;; ret ((k, j) :: r)
                  else main_to_json L mode fields l None None (clear x) end end)).
    { intros m' H ks. apply rr_now_r. destruct (assoc ks fields) as [f|].
      - destruct (f_ser f) as [s|]; [|exact H]. apply rr_skip. intros j. apply rr_drop, H.
      - destruct (is_td_allow mode); [|exact H]. apply rr_skip. intros a. apply rr_skip. intros j. apply rr_drop, H. }
    destruct (_ && _); [apply rr_skip; intros ks; apply SKIP, IH|]. apply rr_same. intros ks.
    destruct (fine_filter (key_of k) i e Fi Fe) as (o & -> & Fo). cbn [res_opt]. apply rr_now. destruct o as [[ni ne]|]; [|apply SKIP, IH].
    destruct Fo as [Fni Fne]. destruct (assoc ks fields) as [f|] eqn:A.
    + apply rr_now_r. apply cut_field in A. destruct (f_ser f) as [s|]; [|exact IH]. destruct A as (A & _ & _).
      destruct (is_default w x s); [apply rr_skip; intros j; apply rr_drop, IH|].
      eapply rr_bind; [apply A; assumption|]. intros a b Pab. apply rr_cons; [split; [reflexivity|exact Pab]|exact IH].
    + apply rr_now_r. destruct (is_td_allow mode); [|exact IH]. rewrite (Lkey k x F). apply rr_same. intros k'.
      eapply rr_bind; [apply Ljs; assumption|]. intros a b Pab. apply rr_cons; [split; [reflexivity|exact Pab]|exact IH].
  - destruct b as [k v]. rewrite step_full. apply rr_skip. intros w. apply rr_skip. intros ks. apply rr_now_r. destruct (assoc ks fields) as [f|].
    + destruct (f_ser f) as [s|]; [|exact IH]. apply rr_skip. intros j. apply rr_drop, IH.
    + destruct (is_td_allow mode); [|exact IH]. apply rr_skip. intros a. apply rr_skip. intros j. apply rr_drop, IH.
Qed.
Lemma rr_extras l i e x : fit x -> fine_top i -> fine_top e -> RR (picked member) (extras_js L l i e x) (extras_js L l None None (clear x)).
Proof.
  intros F Fi Fe. induction l as [|[k v] l IH]; [apply rr_ret; constructor|]. cbn [extras_js]. full x. apply rr_now_r.
  assert (SKIP : RR (picked member) (extras_js L l i e x)
     (k <- l_key L k (clear x) ;; j <- l_js L v None None (clear x) ;; r <- extras_js L l None None (clear x) ;; ret ((k, j) :: r))).
  { apply rr_skip. intros a. apply rr_skip. intros j. apply rr_drop, IH. }
  destruct (_ && _); [exact SKIP|].
  destruct (fine_filter (key_of k) i e Fi Fe) as (o & -> & Fo). cbn [res_opt]. apply rr_now. destruct o as [[ni ne]|]; [|exact SKIP]. destruct Fo as [Fni Fne].
  rewrite (Lkey k x F). apply rr_same. intros k'. eapply rr_bind; [apply Ljs; assumption|]. intros a b Pab. apply rr_cons; [split; [reflexivity|exact Pab]|exact IH].
Qed.
Lemma rr_comp m i e x : fit x -> fine_top i -> fine_top e ->
  RR (picked member) (comp_to_json E comp m i e x) (comp_to_json E comp m None None (clear x)).
Proof.
  intros F Fi Fe. unfold comp_to_json. destruct m as [m|]; [|apply rr_ret; constructor]. change (x_round_trip (clear x)) with false.
  destruct (x_round_trip x).
  { intros b Hb _. split; [apply picked_nil|]. apply picked_nil. }
  revert QC. intros Q. induction Q as [|c l Hc _ IH]; [apply rr_ret; constructor|]. cbn [comp_js_loop]. full x. apply rr_now_r.
  destruct (fine_filter (KStr (cf_name c)) i e Fi Fe) as (o & -> & Fo). cbn [res_opt]. apply rr_now. destruct o as [[ni ne]|].
  - destruct Fo as [Fni Fne]. apply rr_same. intros w. destruct (_ && _); [apply rr_skip; intros j; apply rr_drop, IH|].
    eapply rr_bind; [apply (proj1 Hc); assumption|]. intros a b Pab. apply rr_cons; [split; [reflexivity|exact Pab]|exact IH].
  - apply rr_skip. intros w. apply rr_skip. intros j. apply rr_drop, IH.
Qed.
Lemma fit_model m x : fit x -> fit (set_model m x). Proof. exact (fun H => H). Qed.
Lemma fit_duck m x : fit x -> fit (set_duck m x). Proof. exact (fun H => H). Qed.

(** The fields of a value against those of a value that has some more. *)
Lemma rr_fields_at main' main ext (m : option pyval) i e x : fit x -> fine_top i -> fine_top e -> picked eq main' main ->
  RR part
    (a <- main_to_json L mode fields (items main') i e (set_model m x) ;;
     b <- match ext with Some d => extras_js L d i e x | None => ret [] end ;;
     c <- comp_to_json E comp m i e x ;; ret (JObj (a ++ b ++ c)))
    (a <- main_to_json L mode fields (items main) None None (set_model m (clear x)) ;;
     b <- match ext with Some d => extras_js L d None None (clear x) | None => ret [] end ;;
     c <- comp_to_json E comp m None None (clear x) ;; ret (JObj (a ++ b ++ c))).
Proof.
  intros F Fi Fe P. eapply rr_bind; [apply (rr_main _ _ i e (set_model m x)); try assumption; now apply picked_map|]. intros a' a Pa.
  eapply rr_bind with (Q := picked member); [destruct ext; [now apply rr_extras|apply rr_ret; constructor]|]. intros b' b Pb.
  eapply rr_bind; [now apply rr_comp|]. intros c' c Pc. apply rr_ret. constructor. apply picked_app; [exact Pa|]. now apply picked_app.
Qed.
Lemma cut_fields extras : cut_sz (fields_ser E L mode fields extras comp).
Proof.
  split; [|split; [apply key_invalid; exact Lkey|split; [exact rr_main|exact rr_comp]]]. cbn [z_js fields_ser]. intros v i e x F Fi Fe.
  destruct (extract_dicts mode v) as [[main ext]|]; [|now apply cut_fall]. change (td_inferred (clear x)) with (td_inferred x).
  destruct (td_inferred x); [exact (Ljs v i e (set_duck _ (set_model _ x)) F Fi Fe)|]. apply (rr_fields_at main main ext (model_or v x)); try assumption.
  apply picked_refl. reflexivity.
Qed.
End Fields.

Lemma rr_tuple ss variadic i e x l : fit x -> fine_top i -> fine_top e -> Forall cut_sz ss ->
  RR (picked part) (tuple_each L any_filter ss variadic (fun s v i e => z_js s v i e x) i e x l)
    (tuple_each L any_filter ss variadic (fun s v i e => z_js s v i e (clear x)) None None (clear x) l).
Proof.
  intros F Fi Fe Q. unfold tuple_each. cbv zeta.
  assert (EO : forall s, cut_sz s -> each_ok part (fun v i e => z_js s v i e x) (fun v i e => z_js s v i e (clear x))).
  { intros s S v i' e' Fi' Fe'. now apply S. }
  destruct variadic as [k|].
  - apply rr_zip; try assumption. cbn [tuple_serializers]. apply Forall_app. split; [|apply Forall_app; split].
    + eapply Forall_impl; [exact EO|]. now apply Forall_firstn.
    + apply Forall_forall. intros s I. apply repeat_spec in I. subst s. apply EO.
      destruct (Nat.lt_ge_cases k (length ss)) as [H|H].
      * exact (proj1 (Forall_forall _ _) Q _ (nth_In _ _ H)).
      * rewrite nth_overflow by exact H. apply cut_any.
    + eapply Forall_impl; [exact EO|]. now apply Forall_skipn.
  - change (x_check (clear x)) with (x_check x). destruct (_ && _); [apply rr_fail|].
    eapply rr_bind; [apply rr_zip; try assumption; eapply Forall_impl; [exact EO|exact Q]|]. intros r' r Pr.
    destruct (skipn (length ss) l) as [|a rest]; [now apply rr_ret|]. change (register WExtraItems (clear x)) with (register WExtraItems x).
    apply rr_same. intros _. eapply rr_bind; [apply rr_filtered; try assumption; apply (EO (any_ser L)), cut_any|]. intros r1' r1 Pr1.
    apply rr_ret. now apply picked_app.
Qed.
Lemma key_tuple ss variadic x l : fit x -> Forall cut_sz ss ->
  tuple_each L any_filter ss variadic (fun s e _ _ => z_key s e (clear x)) None None (clear x) l =
  tuple_each L any_filter ss variadic (fun s e _ _ => z_key s e x) None None x l.
Proof.
  intros F Q. unfold tuple_each. cbv zeta.
  assert (Z : forall n l ss i, Forall cut_sz ss -> zip_items any_filter None None n (fun s e _ _ => z_key s e (clear x)) i ss l =
     zip_items any_filter None None n (fun s e _ _ => z_key s e x) i ss l).
  { intros n l0 ss0 i Q0. revert l0 i. induction Q0 as [|s ss0 S _ IH]; intros [|v l0] i; cbn [zip_items]; try reflexivity.
    destruct (res_opt _) as [w [[[ni ne]|]|]]; unfold bind; cbn [snd fst]; try reflexivity; rewrite ?(proj1 (proj2 S) v x F), ?IH; reflexivity. }
  assert (Y : forall n l i, filtered any_filter None None n (fun e _ _ => z_key (any_ser L) e (clear x)) i l =
     filtered any_filter None None n (fun e _ _ => z_key (any_ser L) e x) i l).
  { intros n l0. induction l0 as [|v l0 IH]; intros i; cbn [filtered]; try reflexivity.
    destruct (res_opt _) as [w [[[ni ne]|]|]]; unfold bind; cbn [snd fst]; try reflexivity; cbn [z_key any_ser simple]; rewrite ?(Lkey v x F), ?IH; reflexivity. }
  destruct variadic as [k|].
  - apply Z. cbn [tuple_serializers]. apply Forall_app. split; [now apply Forall_firstn|]. apply Forall_app. split; [|now apply Forall_skipn].
    apply Forall_forall. intros s I. apply repeat_spec in I. subst s.
    destruct (Nat.lt_ge_cases k (length ss)) as [H|H].
    + exact (proj1 (Forall_forall _ _) Q _ (nth_In _ _ H)).
    + rewrite nth_overflow by exact H. apply cut_any.
  - change (x_check (clear x)) with (x_check x). destruct (_ && _); [reflexivity|]. rewrite Z by exact Q.
    destruct (skipn (length ss) l) as [|a rest]; [reflexivity|]. change (register WExtraItems (clear x)) with (register WExtraItems x). rewrite Y. reflexivity.
Qed.

Ltac fall := now apply cut_fall.
Ltac kfall := now apply key_fall.

(** A model's fields, some of them unset. *)
Lemma rr_inner (has_extra : bool) v x : fit x ->
  RR (fun w' w : pyval => exists d' d : pydict, picked eq d' d /\ (x_exclude_unset x = false -> d' = d) /\
       if has_extra return Prop then exists e, w' = PTuple [PDict d'; e] /\ w = PTuple [PDict d; e] else w' = PDict d' /\ w = PDict d)
    (inner_value E has_extra v x) (inner_value E has_extra v (clear x)).
Proof.
  intros F. unfold inner_value. change (x_exclude_unset (clear x)) with false. apply rr_same. intros d. apply rr_same. intros attrs.
  eapply rr_bind with (Q := fun a' a => picked eq a' a /\ (x_exclude_unset x = false -> a' = a)).
  - destruct (x_exclude_unset x) eqn:U; [|apply rr_ret; split; [apply picked_refl|]; reflexivity].
    intros b [= <-] _. destruct F as (_ & F & _). specialize (F U).
    destruct (get_attr E v dunder_fields_set) as [fs|]; [|split; [constructor|exact F]].
    cbn [opt]. unfold bind. cbn [snd fst ret]. destruct (down_set fs) as [st|]; cbn [snd fst opt fail ret app]; [|split; [constructor|exact F]].
    split; [constructor|]. split; [apply picked_filter|discriminate].
  - intros a' a (P & U). destruct has_extra.
    + apply rr_same. intros e. apply rr_ret. exists a', a. eauto 6.
    + apply rr_ret. exists a', a. auto.
Qed.
Lemma rr_never {A B} (P : A -> B -> Prop) m' w x (m : M B) : fit x -> quiet = true -> w <> PNone -> RR P m' (bind (on_fallback w (clear x)) (fun _ => m)).
Proof.
  intros F Qt N b Hb S0. exfalso. specialize (S0 Qt). destruct F as (F & _). specialize (F Qt). unfold on_fallback, register in *.
  change (x_check (clear x)) with (x_check x) in *. change (x_collect (clear x)) with (x_collect x) in *. rewrite F in *.
  destruct w; try congruence; destruct (check_enabled _); discriminate.
Qed.
Lemma rr_model_fields mode fs comp ex has_extra v i e x :
  Forall (fun kf => on_opt cut_sz (f_ser (snd kf))) fs -> Forall (fun c => cut_sz (cf_ser c)) comp ->
  fit x -> fine_top i -> fine_top e -> x_model x <> None ->
  (negb careful || (negb has_extra && no_extra_model mode) = true) ->
  let s := fields_ser E L mode fs ex comp in
  RR part (w <- inner_value E has_extra v x ;; z_js s w i e x) (w <- inner_value E has_extra v (clear x) ;; z_js s w None None (clear x)).
Proof.
  intros QF QC F Fi Fe XM Q s. eapply rr_bind; [now apply rr_inner|]. cbv beta. intros w' w (d' & d & P & U & W).
  destruct (x_exclude_unset x) eqn:Un.
  2:{ rewrite (U eq_refl) in *. replace w' with w; [now apply (cut_fields mode fs comp QF QC ex)|]. destruct has_extra; [destruct W as (e0 & -> & ->)|destruct W as (-> & ->)]; reflexivity. }
  clear U. assert (TD : td_inferred x = false) by (unfold td_inferred; destruct (x_model x); [reflexivity|congruence]).
  assert (QS : careful = false -> quiet = true) by (intros C; exact (proj2 (proj2 (proj2 F)) C Un)).
  assert (MO : model_or w' x = model_or w x) by (unfold model_or; destruct (x_model x); [reflexivity|congruence]).
  unfold s. cbn [z_js fields_ser]. change (td_inferred (clear x)) with (td_inferred x). rewrite TD. change (model_or w (clear x)) with (model_or w x). rewrite MO.
  destruct has_extra.
  - rewrite orb_false_r in Q. apply negb_true_iff, QS in Q. destruct W as (e0 & -> & ->). destruct mode; cbn [extract_dicts down_dict down_tuple base].
    1,3: unfold fall_js; now apply (rr_never _ _ _ x).
    destruct e0; cbn [down_dict base]; try (unfold fall_js; now apply (rr_never _ _ _ x)).
    + now apply (rr_fields_at ModelExtra fs comp QF QC d' d None).
    + now apply (rr_fields_at ModelExtra fs comp QF QC d' d (Some _)).
    + destruct e0; try (unfold fall_js; now apply (rr_never _ _ _ x)). now apply (rr_fields_at ModelExtra fs comp QF QC d' d (Some _)).
  - destruct W as (-> & ->). destruct mode; cbn [extract_dicts down_dict down_tuple base].
    + now apply (rr_fields_at SimpleDict fs comp QF QC d' d None).
    + cbn in Q. rewrite orb_false_r in Q. apply negb_true_iff, QS in Q. unfold fall_js. now apply (rr_never _ _ _ x).
    + now apply (rr_fields_at TypedDictAllow fs comp QF QC d' d None).
Qed.

Lemma cut_parts : forall l, Forall (fun s => all_ser q s = true -> cut_sz (build E L s)) l -> forallb (all_ser q) l = true -> Forall cut_sz (map (build E L) l).
Proof. intros l F. induction F as [|s0 l H F IH]; cbn; intros Hq; [constructor|]. apply andb_prop in Hq. constructor; [now apply H|now apply IH]. Qed.
Lemma cut_field_parts : forall fs : list (str * field ser), Forall (fun kf => on_opt (fun s => all_ser q s = true -> cut_sz (build E L s)) (f_ser (snd kf))) fs ->
  forallb (fun kf => match f_ser (snd kf) with Some s => all_ser q s | None => true end) fs = true ->
  Forall (fun kf => on_opt cut_sz (f_ser (snd kf))) (map (fun kf => (fst kf, map_field (build E L) (snd kf))) fs).
Proof.
  induction 1 as [|[k f] l H F IH]; cbn; intros Hf; [constructor|]. apply andb_prop in Hf. constructor; [|now apply IH].
  cbn in *. destruct (f_ser f); [|exact I]. now apply H.
Qed.
Lemma cut_comp_parts : forall c, Forall (fun c => all_ser q (cf_ser c) = true -> cut_sz (build E L (cf_ser c))) c ->
  forallb (fun c => all_ser q (cf_ser c)) c = true -> Forall (fun c => cut_sz (cf_ser c)) (map (map_computed (build E L)) c).
Proof. induction 1 as [|c l H F IH]; cbn; intros Hf; [constructor|]. apply andb_prop in Hf. constructor; [now apply H|now apply IH]. Qed.

(** A serializer and, for a model, the serializers of its fields. *)
Definition known (s : ser) : Prop :=
  cut_sz (build E L s) /\
  match s with
  | SerFields _ fs _ c =>
      Forall (fun kf => on_opt cut_sz (f_ser (snd kf))) (map (fun kf => (fst kf, map_field (build E L) (snd kf))) fs) /\
      Forall (fun c => cut_sz (cf_ser c)) (map (map_computed (build E L)) c)
  | _ => True
  end.
Lemma cut_known s : all_ser q s = true -> known s.
Proof.
  induction s using ser_ind'; cbn [all_ser]; intros Hq; apply andb_prop in Hq; destruct Hq as [Hq1 Hq]; cbn [q cuttable] in Hq1; try discriminate;
    try (split; [|exact I]); cbn [build].
  - apply cut_any.
  - apply cut_simple; [intros v i e x F Fi Fe; destruct v; try fall; apply rr_part|intros v x F; destruct v; try kfall; reflexivity].
  - apply cut_simple; [intros v i e x F Fi Fe; destruct (get_int v); [apply rr_part|fall]|intros v x F; destruct (is_int_type v); try kfall; reflexivity].
  - apply cut_simple; [intros v i e x F Fi Fe; destruct v; try fall; apply rr_part|intros v x F; destruct (is_bool_type v); try kfall; reflexivity].
  - apply cut_simple; [intros v i e x F Fi Fe; destruct (get_float v); [apply rr_part|fall]|intros v x F; destruct (is_float_type v); try kfall; reflexivity].
  - apply cut_simple; [intros v i e x F Fi Fe; destruct (down_str v); [apply rr_part|fall]|intros v x F; destruct (down_str v); try kfall; reflexivity].
  - apply cut_simple; [intros v i e x F Fi Fe; destruct (down_bytes v); [apply rr_part|fall]|intros v x F; destruct (down_bytes v); try kfall; reflexivity].
  - destruct (IHs Hq) as [(A & B & _) _].
    apply cut_simple; [intros v i e x F Fi Fe; destruct v; try (now apply A); apply rr_part|intros v x F; destruct v; try (now apply B); reflexivity].
  - destruct (IHs Hq) as [(A & B & _) _]. split; [exact A|split; [exact B|exact I]].
  - apply no_filter_any in Hq1. subst f. destruct (IHs Hq) as [(A & _) _]. apply cut_simple; [|now apply key_invalid].
    intros v i e x F Fi Fe. destruct (down_list v); [|fall]. eapply rr_bind; [apply rr_filtered; try assumption; intros v' i' e' Fi' Fe'; now apply A|].
    intros a b P. apply rr_ret. now constructor.
  - destruct (IHs Hq) as [(A & _) _]. apply cut_simple; [|now apply key_invalid]. intros v i e x F Fi Fe. destruct (down_set v); [|fall].
    eapply rr_bind; [apply rr_mapM; intros v'; now apply A|]. intros a b P. apply rr_ret. now constructor.
  - destruct (IHs Hq) as [(A & _) _]. apply cut_simple; [|now apply key_invalid]. intros v i e x F Fi Fe. destruct (down_frozenset v); [|fall].
    eapply rr_bind; [apply rr_mapM; intros v'; now apply A|]. intros a b P. apply rr_ret. now constructor.
  - apply no_filter_any in Hq1. subst f.
    assert (Q : Forall cut_sz (map (build E L) l)) by (apply cut_parts; [eapply Forall_impl; [|exact H]; intros s S C; exact (proj1 (S C))|exact Hq]).
    apply cut_simple.
    + intros v' i e x F Fi Fe. destruct (down_tuple v'); [|fall]. eapply rr_bind; [now apply rr_tuple|]. intros a b P. apply rr_ret. now constructor.
    + intros v' x F. destruct (down_tuple v'); [|kfall]. rewrite key_tuple by assumption. reflexivity.
  - apply no_filter_any in Hq1. subst f. apply andb_prop in Hq. destruct Hq as [Hk Hv]. destruct (IHs1 Hk) as [(_ & B & _) _]. destruct (IHs2 Hv) as [(A & _) _].
    apply cut_simple; [|now apply key_invalid]. intros v i e x F Fi Fe. destruct (down_dict v); [|fall].
    eapply rr_bind; [apply rr_pairs; try assumption; [intros k; symmetry; now apply B|intros v' i' e' Fi' Fe'; now apply A]|]. intros a b P. apply rr_ret. now constructor.
  - apply andb_prop in Hq. destruct Hq as [Hq Hc]. apply andb_prop in Hq. destruct Hq as [Hf He].
    assert (QF := cut_field_parts fs). assert (QC := cut_comp_parts c).
    assert (QF' : Forall (fun kf => on_opt cut_sz (f_ser (snd kf))) (map (fun kf => (fst kf, map_field (build E L) (snd kf))) fs)).
    { apply QF; [|exact Hf]. eapply Forall_impl; [|exact H]. intros [k f] S. cbn in *. destruct (f_ser f); [|exact I]. intros C. exact (proj1 (S C)). }
    assert (QC' : Forall (fun c => cut_sz (cf_ser c)) (map (map_computed (build E L)) c)).
    { apply QC; [|exact Hc]. eapply Forall_impl; [|exact H1]. intros f S C. exact (proj1 (S C)). }
    split; [|split; assumption]. now apply cut_fields.
  - destruct (IHs Hq) as [A B]. apply cut_simple.
    + cbv zeta. intros v i ec x F Fi Fe. change (next_mode (x_duck (clear x))) with (next_mode (x_duck x)).
      change (set_duck (next_mode (x_duck x)) (set_model (Some v) (clear x))) with (clear (set_duck (next_mode (x_duck x)) (set_model (Some v) x))).
      assert (F' : fit (set_duck (next_mode (x_duck x)) (set_model (Some v) x))) by exact F.
      assert (XM : x_model (set_duck (next_mode (x_duck x)) (set_model (Some v) x)) <> None) by discriminate.
      revert F' XM. generalize (set_duck (next_mode (x_duck x)) (set_model (Some v) x)). clear F. intros y F XM.
      change (x_duck (clear y)) with (x_duck y). destruct (is_inferred (x_duck y)); [now apply Ljs|]. destruct r.
      * apply rr_same. intros w. now apply A.
      * change (class_allows E cls has_dict v (clear y)) with (class_allows E cls has_dict v y). destruct (class_allows E cls has_dict v y); [|fall].
        cbn [orb] in Hq1. destruct s; try discriminate Hq1. destruct B as [QF QC]. cbn [build]. now apply rr_model_fields.
    + intros v x F. change (class_allows E cls has_dict v (clear x)) with (class_allows E cls has_dict v x). destruct (class_allows _ _ _ _ _); [reflexivity|kfall].
  - destruct (IHs Hq) as [(A & _ & C) _]. apply cut_simple.
    + cbv zeta. intros v i ec x F Fi Fe. change (next_mode (x_duck (clear x))) with (next_mode (x_duck x)).
      change (set_duck (next_mode (x_duck x)) (set_model (Some v) (clear x))) with (clear (set_duck (next_mode (x_duck x)) (set_model (Some v) x))).
      assert (F' : fit (set_duck (next_mode (x_duck x)) (set_model (Some v) x))) by exact F.
      revert F'. generalize (set_duck (next_mode (x_duck x)) (set_model (Some v) x)). intros y F'.
      change (x_duck (clear y)) with (x_duck y). destruct (is_inferred (x_duck y)); [now apply Ljs|].
      change (class_allows E cls (has_dataclass_fields E) v (clear y)) with (class_allows E cls (has_dataclass_fields E) v y).
      destruct (class_allows _ _ _ _ _); [|fall]. destruct (z_main (build E L s)) as [fm|].
      * destruct C as [C1 C2]. eapply rr_bind; [apply C1; try assumption; apply picked_refl; reflexivity|]. intros a' a Pa.
        eapply rr_bind; [now apply C2|]. intros b' b Pb. apply rr_ret. constructor. now apply picked_app.
      * apply rr_same. intros w. now apply A.
    + intros v x F. change (class_allows E cls (has_dataclass_fields E) v (clear x)) with (class_allows E cls (has_dataclass_fields E) v x). destruct (class_allows _ _ _ _ _); [reflexivity|kfall].
  - apply cut_simple.
    + intros v i e x F Fi Fe. change (lit_check l v (clear x)) with (lit_check l v x). apply rr_same. intros [z|s| |]; try apply rr_part; [now apply Ljs|fall].
    + intros v x F. change (lit_check l v (clear x)) with (lit_check l v x). destruct (lit_check l v x) as [w [[z|s| |]|]]; unfold bind; cbn [fst snd]; try reflexivity.
      * rewrite (Lkey v x F). reflexivity.
      * rewrite (key_fall L Lkey v x F). reflexivity.
  - apply cut_simple.
    + intros v i e x F Fi Fe. destruct (exact_instance v c); [|fall]. apply rr_same. intros w. destruct o as [s|]; [|now apply Ljs]. now apply (H Hq).
    + intros v x F. destruct (exact_instance v c); [|kfall]. destruct (enum_value E v) as [w|]; [|reflexivity]. cbn [opt]. unfold bind. cbn [fst snd ret].
      destruct o as [s|]; [|rewrite (Lkey w x F); reflexivity]. destruct (H Hq) as [(_ & B & _) _]. rewrite (B w x F). reflexivity.
  - apply cut_simple; [intros v i e x F Fi Fe; apply rr_part|intros v x F; reflexivity].
  - apply andb_prop in Hq. destruct Hq as [Hj Hp]. destruct (IHs1 Hj) as [(A & B & _) _]. now apply cut_simple.
  - destruct (IHs Hq) as [(A & _) _]. apply negb_true_iff in Hq1. apply cut_simple.
    + intros v i e x F Fi Fe. change (x_round_trip (clear x)) with false. rewrite (proj1 (proj2 (proj2 F)) Hq1). now apply A.
    + intros v x F. change (x_round_trip (clear x)) with false. rewrite (proj1 (proj2 (proj2 F)) Hq1). now apply Lkey.
  - apply cut_simple; [apply CL|apply CL].
  - apply andb_prop in Hq. destruct Hq as [Hr Hf]. destruct (IHs Hr) as [(A & B & _) _]. apply cut_simple; cbv zeta.
    + intros v i' e x F Fi Fe. change (should_use w v (clear x)) with (should_use w v x). change (x_model (clear x)) with (x_model x). destruct (should_use w v x).
      * destruct (if i then _ else _) as [o|er]; [now apply A|]. change (x_check (clear x)) with (x_check x). apply rr_same. intros _. now apply Ljs.
      * destruct fb as [s'|]; [|apply rr_fail]. now apply (H Hf).
    + intros v x F. change (should_use w v (clear x)) with (should_use w v x). change (x_model (clear x)) with (x_model x). destruct (should_use w v x).
      * destruct (if i then _ else _) as [o|er]; [now apply B|]. rewrite (Lkey v x F). reflexivity.
      * destruct fb as [s'|]; [|reflexivity]. destruct (H Hf) as [(_ & B' & _) _]. now apply B'.
Qed.
Lemma cut_build s : all_ser q s = true -> cut_sz (build E L s).
Proof. intros H. exact (proj1 (cut_known s H)). Qed.

Lemma cut_infer : cut_js (infer_js_body E L (fun s => z_js (build E L s))).
Proof.
  intros v i e x F Fi Fe. unfold infer_js_body. cbv zeta.
  assert (SEQ : forall l, RR part (r <- filtered any_filter i e (zlen l) (fun a b c => l_js L a b c x) 0 l ;; ret (JArr r))
     (r <- filtered any_filter None None (zlen l) (fun a b c => l_js L a b c (clear x)) 0 l ;; ret (JArr r))).
  { intros l. eapply rr_bind; [apply rr_filtered; try assumption; intros v' i' e' Fi' Fe'; now apply Ljs|]. intros a b P. apply rr_ret. now constructor. }
  assert (ELS : forall l, RR part (r <- mapM (fun a => l_js L a i e x) l ;; ret (JArr r)) (r <- mapM (fun a => l_js L a None None (clear x)) l ;; ret (JArr r))).
  { intros l. eapply rr_bind; [apply rr_mapM; intros v'; now apply Ljs|]. intros a b P. apply rr_ret. now constructor. }
  assert (PRS : forall l, RR part (d <- pairs_js any_filter i e (fun k => l_key L k x) (fun a b c => l_js L a b c x) l ;; ret (JObj d))
     (d <- pairs_js any_filter None None (fun k => l_key L k (clear x)) (fun a b c => l_js L a b c (clear x)) l ;; ret (JObj d))).
  { intros l. eapply rr_bind; [apply rr_pairs; try assumption; [intros k; symmetry; now apply Lkey|intros v' i' e' Fi' Fe'; now apply Ljs]|]. intros a b P. apply rr_ret. now constructor. }
  destruct (get_type E v) eqn:T; try apply rr_part; try (apply rr_same; intros l; first [apply SEQ|apply ELS|apply PRS]); try apply PRS.
  - unfold own_serializer. destruct (class_of v) as [c|]; [|apply rr_fail]. destruct (ci_ser _) as [sc|] eqn:C; [|apply rr_fail].
    apply (proj1 QE) in C. cbn [opt]. apply rr_now, rr_now_r. destruct (cut_build _ C) as (A & _). exact (A v i e (nested_extra (snd sc) x) F Fi Fe).
  - apply rr_same. intros w. now apply Ljs.
  - change (x_fallback (clear x)) with (x_fallback x). destruct (x_fallback x); [apply rr_same; intros w; now apply Ljs|apply rr_part].
Qed.
End Build.

Lemma enter_clear v k x : fit x -> enter v k (clear x) = match enter v k x with Some y => Some (clear y) | None => None end /\
  match enter v k x with Some y => fit y | None => True end.
Proof. intros F. unfold enter. change (x_guard (clear x)) with (x_guard x). destruct (existsb _ _); (split; [reflexivity|]); [exact I|exact F]. Qed.
Lemma cut_keyed P n : cut_js (l_js P) -> (forall k, cut_js (l_def_js P k)) -> cut_level (keyed E P n).
Proof.
  intros A B. induction n as [|n IH]; cbn [keyed]; (split; [exact A|split; [|split; [exact B|]]]); cbn [l_key l_def_key].
  - intros v x F. reflexivity.
  - intros k v x F. reflexivity.
  - apply key_infer. apply IH.
  - intros k v x F. destruct (e_def E k) as [s|] eqn:D; [|reflexivity]. apply (cut_build _ IH s (proj2 QE _ _ D)). exact F.
Qed.
Lemma cut_levels n : cut_level (levels E n).
Proof.
  induction n as [|n IH]; cbn [levels]; apply cut_keyed; cbn [l_js l_def_js].
  - intros v i e x F Fi Fe. apply rr_part.
  - intros k v i e x F Fi Fe. apply rr_part.
  - intros v i e x F Fi Fe. destruct (enter_clear v None x F) as [-> G]. destruct (enter v None x) as [y|]; [|apply rr_part]. now apply cut_infer.
  - intros k v i e x F Fi Fe. destruct (e_def E k) as [s|] eqn:D; [|apply rr_fail]. destruct (enter_clear v (Some k) x F) as [-> G].
    destruct (enter v (Some k) x) as [y|]; [|apply rr_fail]. now apply (cut_build _ IH s (proj2 QE _ _ D)).
Qed.
Lemma cut_top n s : all_ser q s = true -> cut_js (z_js (build E (levels E n) s)).
Proof. intros H. apply (cut_build _ (cut_levels n) s H). Qed.
End Cut.

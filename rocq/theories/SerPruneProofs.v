(** Proofs for C95: the run on all the data against the run on the pruned data. *)
From Coq Require Import List NArith ZArith Bool Lia.
From Verif Require Import Base Float64 Utf8 Values BytesCodec Filter FilterSpec FilterProofs JsonText SerBase Ser SerPruneSpec.
Import ListNotations.
Open Scope nat_scope.

(** ** Filters that fit the data, step by step. *)
Definition entry_fits (v : pyval) (e : key * fval) : Prop :=
  index_ok v (fst e) /\ forall k' w, fst e = k' \/ fst e = ALL -> item_at v k' w -> fits (snd e) w.
Lemma fits_dict d v : fits (FDict d) v <-> Forall (entry_fits v) d.
Proof.
  cbn [fits]. split.
  - induction d as [|[k g] d IH]; intros H; [constructor|]. destruct H as [H1 H2]. constructor; [exact H1|exact (IH H2)].
  - induction 1 as [|[k g] d H _ IH]; [exact I|]. split; [exact H|exact IH].
Qed.
Lemma fits_lookup d v k g : Forall (entry_fits v) d -> lookup k d = Some g -> entry_fits v (k, g).
Proof. intros H L. apply lookup_In in L. rewrite Forall_forall in H. exact (H _ L). Qed.
Lemma fits_set_item k g d v : entry_fits v (k, g) -> Forall (entry_fits v) d -> Forall (entry_fits v) (set_item k g d).
Proof.
  intros G. induction 1 as [|[k' g'] d H F IH]; cbn [set_item]; [constructor; [exact G|constructor]|].
  destruct (key_eqb k k') eqn:Ek; constructor; auto. apply key_eqb_eq in Ek. subst k'. exact G.
Qed.
Lemma fits_as_dict f v d : fits f v -> as_dict f = Ok d -> Forall (entry_fits v) d.
Proof.
  destruct f; cbn [as_dict]; intros F [= <-].
  - now apply fits_dict.
  - cbn [fits] in F. induction F as [|k l H _ IH]; constructor; [|exact IH]. split; [exact H|]. intros; exact I.
Qed.
Lemma fits_merge : forall all item v m, fits all v -> Forall (entry_fits v) item -> merge_dicts item all = Ok m -> Forall (entry_fits v) m.
Proof.
  induction all as [| |ad IH|l|l|] using fval_ind'; intros item v m Fa Fi; try discriminate.
  - apply fits_dict in Fa. cbn [merge_dicts]. revert item Fi.
    induction ad as [|[k av] ad IHa]; intros item Fi; [intros [= <-]; exact Fi|].
    inversion IH as [|? ? IH1 IH2]; subst. inversion Fa as [|? ? F1 F2]; subst. cbn [snd] in *. specialize (IHa IH2 F2).
    destruct (lookup k item) as [iv|] eqn:LK; [|apply IHa, fits_set_item; assumption].
    destruct (is_ell iv); [apply IHa; exact Fi|].
    destruct (as_dict iv) as [ivd| |] eqn:AD; try discriminate.
    destruct (is_ell av); [apply IHa; exact Fi|].
    destruct (merge_dicts ivd av) as [m'| |] eqn:MD; try discriminate.
    apply IHa, fits_set_item; [|exact Fi]. destruct (fits_lookup _ _ _ _ Fi LK) as [X1 X2]. cbn [fst snd] in *.
    split; [exact X1|]. cbn [fst snd]. intros k' w N A. apply fits_dict.
    refine (IH1 ivd w m' _ _ MD).
    + exact (proj2 F1 k' w N A).
    + exact (fits_as_dict iv w ivd (X2 k' w N A) AD).
  - cbn [merge_dicts]. intros [= <-]. cbn [fits] in Fa. revert item Fi. induction Fa as [|k l H _ IH]; intros item Fi; [exact Fi|].
    cbn [fold_left]. apply IH. destruct (lookup k item); [exact Fi|]. apply fits_set_item; [|exact Fi]. split; [exact H|]. intros; exact I.
Qed.
Lemma fits_merge_all d k v w g : fits (FDict d) v -> item_at v k w -> merge_all_value d k = Ok (Some g) -> fits g w.
Proof.
  intros F A. apply fits_dict in F. unfold merge_all_value.
  destruct (lookup k d) as [iv|] eqn:K; destruct (lookup ALL d) as [av|] eqn:L.
  - pose proof (proj2 (fits_lookup _ _ _ _ F K) k w (or_introl eq_refl) A) as Fi.
    pose proof (proj2 (fits_lookup _ _ _ _ F L) k w (or_intror eq_refl) A) as Fa. cbn [snd] in *.
    destruct (is_ell iv || is_ell av); [intros [= <-]; exact Fi|].
    destruct (as_dict iv) as [id| |] eqn:AD; try discriminate. destruct (merge_dicts id av) as [m| |] eqn:MD; try discriminate.
    intros [= <-]. apply fits_dict. exact (fits_merge av id w m Fa (fits_as_dict _ _ _ Fi AD) MD).
  - intros [= <-]. exact (proj2 (fits_lookup _ _ _ _ F K) k w (or_introl eq_refl) A).
  - intros [= <-]. exact (proj2 (fits_lookup _ _ _ _ F L) k w (or_intror eq_refl) A).
  - discriminate.
Qed.
Lemma fits_exclude k exc v w e : fits_top exc v -> item_at v k w -> exclude_phase k exc = Ok (Some e) -> fits_top e w.
Proof.
  intros F A. destruct exc as [[| |d|l|l|]|]; cbn [exclude_phase]; try discriminate; try (intros [= <-]; exact I).
  - destruct (merge_all_value d k) as [[g|]| |] eqn:MA; try discriminate; [|intros [= <-]; exact I].
    destruct (is_ell g); [discriminate|]. intros [= <-]. exact (fits_merge_all d k v w g F A MA).
  - destruct (mem k l || mem ALL l); [discriminate|]. intros [= <-]; exact I.
  - destruct (mem k l || mem ALL l); [discriminate|]. intros [= <-]; exact I.
Qed.
Lemma fits_filter k inc exc v w i e : fits_top inc v -> fits_top exc v -> item_at v k w ->
  filter any_filter k inc exc = Ok (Some (i, e)) -> fits_top i w /\ fits_top e w.
Proof.
  intros Fi Fe A. unfold filter. destruct (exclude_phase k exc) as [[e'|]| |] eqn:EP; try discriminate.
  pose proof (fits_exclude k exc v w e' Fe A EP) as Fe'. cbv zeta.
  assert (T : filter_tail any_filter k e' = Some (None, e')) by (destruct e'; reflexivity). rewrite T.
  destruct inc as [[| |d|l|l|]|]; try discriminate; try (intros [= <- <-]; split; [exact I|exact Fe']).
  - destruct (merge_all_value d k) as [[g|]| |] eqn:MA; try discriminate.
    intros [= <- <-]. split; [|exact Fe']. destruct (is_ell g); [exact I|]. exact (fits_merge_all d k v w g Fi A MA).
  - destruct (mem k l || mem ALL l); [intros [= <- <-]; split; [exact I|exact Fe']|discriminate].
  - destruct (mem k l || mem ALL l); [intros [= <- <-]; split; [exact I|exact Fe']|discriminate].
Qed.

(** The indices of a fitting filter are not changed. *)
Definition in_list (n : nat) (k : key) : Prop := match k with KInt z => (0 <= z < Z.of_nat n)%Z | KStr _ => True end.
Lemma map_index_id n k : in_list n k -> map_negative_index k (Some (Z.of_nat n)) = Ok k.
Proof.
  destruct k as [z|s]; [|reflexivity]. cbn [in_list map_negative_index]. intros H.
  destruct (Z.eqb_spec (Z.of_nat n) 0) as [E|_]; [reflexivity|]. rewrite Z.mod_small by exact H. reflexivity.
Qed.
Lemma set_item_new k (g : fval) d : ~ In k (map fst d) -> set_item k g d = d ++ [(k, g)].
Proof.
  induction d as [|[k' g'] d IH]; intros N; [reflexivity|]. cbn [set_item app]. destruct (key_eqb k k') eqn:Ek.
  - apply key_eqb_eq in Ek. subst. exfalso. apply N. left. reflexivity.
  - f_equal. apply IH. intros H. apply N. right. exact H.
Qed.
Lemma map_keys_id n : forall d acc, Forall (fun kg => in_list n (fst kg)) d -> NoDup (map fst (acc ++ d)) ->
  map_keys (Some (Z.of_nat n)) d acc = Ok (acc ++ d).
Proof.
  induction d as [|[k g] d IH]; intros acc F N; [rewrite app_nil_r; reflexivity|].
  inversion F; subst. cbn [map_keys]. rewrite (map_index_id n k) by assumption.
  rewrite set_item_new.
  - rewrite IH; [rewrite <- app_assoc; reflexivity|assumption|rewrite <- app_assoc; exact N].
  - rewrite map_app in N. cbn [map fst] in N. apply NoDup_remove_2 in N. intros H. apply N. apply in_or_app. left. exact H.
Qed.
Lemma map_elems_id n : forall l, Forall (in_list n) l -> NoDup l -> map_elems (Some (Z.of_nat n)) l = Ok l.
Proof.
  induction l as [|k l IH]; intros F N; [reflexivity|]. inversion F; subst. inversion N; subst. cbn [map_elems].
  rewrite (map_index_id n k), IH by assumption. destruct (mem k l) eqn:Mk; [apply mem_In in Mk; contradiction|reflexivity].
Qed.
Lemma map_opt_id f n : wf_top f ->
  match f with Some (FSet l) => Forall (in_list n) l | Some (FDict d) => Forall (fun kg => in_list n (fst kg)) d | _ => True end ->
  map_opt f (Some (Z.of_nat n)) = Ok f.
Proof.
  destruct f as [f|]; [|reflexivity]. intros [W NE] H. cbn [map_opt]. destruct f as [| |d|l|l|]; try contradiction; cbn [map_negative_indices].
  - rewrite map_keys_id; [reflexivity|exact H|]. apply wf_dict in W. exact (proj1 W).
  - rewrite map_elems_id; [reflexivity|exact H|exact W].
Qed.
Definition is_seq (v : pyval) (l : list pyval) : Prop := v = PList l \/ v = PTuple l.
Lemma index_ok_in v l k : is_seq v l -> l <> [] -> index_ok v k -> in_list (length l) k.
Proof. intros [-> | ->] N; destruct k; cbn; try (intros [H|H]; [exact H|contradiction]); auto. Qed.
Lemma map_opt_fits f v l : is_seq v l -> l <> [] -> wf_top f -> fits_top f v -> map_opt f (zlen l) = Ok f.
Proof.
  intros Q N W F. apply map_opt_id; [exact W|]. destruct f as [[| |d|s|s|]|]; try exact I.
  - apply fits_dict in F. eapply Forall_impl; [|exact F]. intros [k g] [X _]. exact (index_ok_in v l k Q N X).
  - cbn [fits_top fits] in F. eapply Forall_impl; [|exact F]. intros k X. exact (index_ok_in v l k Q N X).
Qed.
Lemma index_is_filter v l i inc exc : is_seq v l -> l <> [] -> wf_top inc -> fits_top inc v -> wf_top exc -> fits_top exc v ->
  index_filter any_filter i inc exc (zlen l) = filter any_filter (KInt i) inc exc.
Proof. intros Q N W1 F1 W2 F2. unfold index_filter. rewrite (map_opt_fits inc v l), (map_opt_fits exc v l) by assumption. reflexivity. Qed.

(** What one step of the filters means. *)
Definition kept_by (inc exc : incl) (p : list key) : bool := included inc p && negb (excluded exc p).
Lemma step_filter k inc exc v w : apt inc v -> apt exc v -> item_at v k w ->
  match filter any_filter k inc exc with
  | Ok (Some (i, e)) => kept_by inc exc [k] = true /\ apt i w /\ apt e w /\ forall r, kept_by i e r = under (kept_by inc exc) k r
  | Ok None => kept_by inc exc [k] = false
  | _ => False
  end.
Proof.
  intros (Wi & Ci & Fi) (We & Ce & Fe) A. pose proof (filter_any_ok k inc exc Wi Ci We Ce) as H.
  destruct (filter any_filter k inc exc) as [[[i e]|]| |] eqn:FE; try contradiction.
  - destruct H as (H1 & H2 & H3 & H4 & H5 & H6). destruct (fits_filter k inc exc v w i e Fi Fe A FE) as [X1 X2].
    split; [exact H5|]. split; [split; [exact H1|split; [exact H2|exact X1]]|]. split; [split; [exact H3|split; [exact H4|exact X2]]|].
    intros r. unfold kept_by, under. destruct (H6 r) as [-> ->]. reflexivity.
  - exact (H []).
Qed.

(** ** The recursion guard never stops plain data. *)
Fixpoint wt (v : pyval) : nat :=
  match v with
  | PList l | PTuple l | PSet l | PFrozenSet l => S (fold_right (fun w n => wt w + n) 0 l)
  | PDict d => S (fold_right (fun kv n => wt (fst kv) + wt (snd kv) + n) 0 d)
  | PObj _ a => S (fold_right (fun kv n => wt (snd kv) + n) 0 a)
  | PSub _ w => S (wt w)
  | _ => 1
  end.
Section PvInd.
Variable P : pyval -> Prop.
Hypothesis Hn : P PNone.
Hypothesis Hb : forall b, P (PBool b).
Hypothesis Hi : forall z, P (PInt z).
Hypothesis Hf : forall f, P (PFloat f).
Hypothesis Hs : forall s, P (PStr s).
Hypothesis Hy : forall s, P (PBytes s).
Hypothesis Hl : forall l, Forall P l -> P (PList l).
Hypothesis Ht : forall l, Forall P l -> P (PTuple l).
Hypothesis He : forall l, Forall P l -> P (PSet l).
Hypothesis Hz : forall l, Forall P l -> P (PFrozenSet l).
Hypothesis Hd : forall l, Forall (fun kv => P (fst kv) /\ P (snd kv)) l -> P (PDict l).
Hypothesis Ho : forall c l, Forall (fun kv => P (snd kv)) l -> P (PObj c l).
Hypothesis Hu : forall c v, P v -> P (PSub c v).
Fixpoint pv_ind (v : pyval) : P v :=
  let go := fix go (l : list pyval) : Forall P l := match l with [] => Forall_nil _ | x :: r => Forall_cons _ (pv_ind x) (go r) end in
  match v with
  | PNone => Hn | PBool b => Hb b | PInt z => Hi z | PFloat f => Hf f | PStr s => Hs s | PBytes s => Hy s
  | PList l => Hl l (go l) | PTuple l => Ht l (go l) | PSet l => He l (go l) | PFrozenSet l => Hz l (go l)
  | PDict l => Hd l ((fix g (l : list (pyval * pyval)) : Forall (fun kv => P (fst kv) /\ P (snd kv)) l :=
                        match l with [] => Forall_nil _ | x :: r => Forall_cons _ (conj (pv_ind (fst x)) (pv_ind (snd x))) (g r) end) l)
  | PObj c l => Ho c l ((fix g (l : list (str * pyval)) : Forall (fun kv => P (snd kv)) l :=
                        match l with [] => Forall_nil _ | x :: r => Forall_cons _ (pv_ind (snd x)) (g r) end) l)
  | PSub c w => Hu c w (pv_ind w)
  end.
End PvInd.
Lemma same_wt : forall a b, same a b = true -> wt a = wt b.
Proof.
  induction a as [|x|x|x|x|x|x IH|x IH|x IH|x IH|x IH|c x IH|c x IH] using pv_ind; intros b; destruct b; try discriminate; intros H; try reflexivity.
  1-4: cbn [wt]; f_equal; cbn [same] in H; revert l H; induction IH as [|a x Ha _ IH]; intros [|b y] H; try discriminate; [reflexivity|];
    apply andb_prop in H as [H1 H2]; cbn [fold_right]; rewrite (Ha _ H1), (IH _ H2); reflexivity.
  - cbn [wt]; f_equal; cbn [same] in H; revert l H; induction IH as [|[a c] x [Ha Hc] _ IH]; intros [|[b d] y] H; try discriminate; [reflexivity|].
    apply andb_prop in H as [H1 H2]. apply andb_prop in H1 as [H0 H1]. cbn [fold_right fst snd] in *.
    rewrite (Ha _ H0), (Hc _ H1), (IH _ H2). reflexivity.
  - cbn [wt]; f_equal; cbn [same] in H. apply andb_prop in H as [_ H]. revert attrs H.
    induction IH as [|[a v] x Ha _ IH]; intros [|[b w] y] H; try discriminate; [reflexivity|].
    apply andb_prop in H as [H1 H2]. apply andb_prop in H1 as [H0 H1]. cbn [fold_right fst snd] in *. rewrite (Ha _ H1), (IH _ H2). reflexivity.
  - cbn [same] in H. apply andb_prop in H as [_ H]. cbn [wt]. f_equal. exact (IH _ H).
Qed.
(** A guard whose entries are all heavier. *)
Definition heavier (v : pyval) (g : list (pyval * option nat)) : Prop := Forall (fun e => wt v < wt (fst e)) g.
Lemma enter_ok v g x : heavier v g -> enter v None (set_guard g x) = Some (set_guard ((v, None) :: g) x).
Proof.
  intros H. unfold enter. change (x_guard (set_guard g x)) with g.
  assert (X : existsb (fun e => same v (fst e) && same_slot None (snd e)) g = false).
  { induction H as [|e g He _ IH]; [reflexivity|]. cbn [existsb]. rewrite IH, orb_false_r.
    destruct (same v (fst e)) eqn:Es; [|reflexivity]. apply same_wt in Es. lia. }
  rewrite X. reflexivity.
Qed.
Lemma heavier_in v w g : wt w < wt v -> heavier v g -> heavier w ((v, None) :: g).
Proof.
  intros W H. constructor; [exact W|]. eapply Forall_impl; [|exact H]. cbn beta. intros e He. lia.
Qed.

(** Keys do not depend on the guard. *)
Section Env.
Variable E : env.
Lemma mapM_ext A B (f g : A -> M B) l : (forall a, f a = g a) -> mapM f l = mapM g l.
Proof. intros H. induction l as [|a l IH]; cbn [mapM]; [reflexivity|]. rewrite H, IH. reflexivity. Qed.
Lemma key_guard P : forall m v g1 g2 x, l_key (keyed E P m) v (set_guard g1 x) = l_key (keyed E P m) v (set_guard g2 x).
Proof.
  induction m as [|m IH]; intros v g1 g2 x; [reflexivity|]. cbn [keyed l_key]. unfold infer_key_body.
  destruct (get_type E v); try reflexivity.
  - destruct (down_tuple v) as [l|]; [|reflexivity]. cbn [opt]. unfold bind at 1 3, ret at 1 3. cbn [fst snd app].
    rewrite (mapM_ext _ _ _ (fun e => l_key (keyed E P m) e (set_guard g2 x)) l); [reflexivity|]. intros a. apply IH.
  - destruct (enum_value E v); [|reflexivity]. cbn [opt]. unfold bind, ret. cbn [fst snd app]. rewrite (IH p g1 g2 x). reflexivity.
  - cbn [set_guard x_fallback x_serialize_unknown]. destruct (x_fallback x) as [f|]; [|reflexivity].
    destruct (f v); [|reflexivity]. cbn [opt]. unfold bind, ret. cbn [fst snd app]. rewrite (IH p g1 g2 x). reflexivity.
Qed.

(** ** The pruned data. *)
Section Keep.
Variable keep : list key -> bool.
Fixpoint prune_seq (i : nat) (l : list pyval) : list pyval :=
  match l with
  | [] => []
  | w :: l =>
      if keep [KInt (Z.of_nat i)] then prune (under keep (KInt (Z.of_nat i))) w :: prune_seq (S i) l else prune_seq (S i) l
  end.
Fixpoint prune_dict (d : list (pyval * pyval)) : list (pyval * pyval) :=
  match d with
  | [] => []
  | (n, w) :: d => if keep [key_of n] then (n, prune (under keep (key_of n)) w) :: prune_dict d else prune_dict d
  end.
End Keep.
Lemma prune_list keep l : prune keep (PList l) = PList (prune_seq keep 0 l).
Proof. reflexivity. Qed.
Lemma prune_tuple keep l : prune keep (PTuple l) = PTuple (prune_seq keep 0 l).
Proof. reflexivity. Qed.
Lemma prune_pdict keep d : prune keep (PDict d) = PDict (prune_dict keep d).
Proof. reflexivity. Qed.
Lemma prune_ext : forall v k1 k2, (forall p, k1 p = k2 p) -> prune k1 v = prune k2 v.
Proof.
  assert (S : forall l, Forall (fun v => forall k1 k2, (forall p, k1 p = k2 p) -> prune k1 v = prune k2 v) l ->
              forall k1 k2 i, (forall p, k1 p = k2 p) -> prune_seq k1 i l = prune_seq k2 i l).
  { induction 1 as [|w l Hw _ IH]; intros k1 k2 i H; [reflexivity|]. cbn [prune_seq]. rewrite (H [KInt (Z.of_nat i)]).
    rewrite (IH k1 k2 (S i) H). rewrite (Hw _ (under k2 (KInt (Z.of_nat i)))); [reflexivity|]. intros p. apply H. }
  induction v as [|x|x|x|x|x|x IH|x IH|x IH|x IH|x IH|c x IH|c x IH] using pv_ind; intros k1 k2 H; try reflexivity.
  - rewrite !prune_list. f_equal. now apply S.
  - rewrite !prune_tuple. f_equal. now apply S.
  - rewrite !prune_pdict. f_equal. induction IH as [|[n w] d [_ Hw] _ IH]; [reflexivity|]. cbn [prune_dict snd] in *. rewrite (H [key_of n]), IH.
    rewrite (Hw _ (under k2 (key_of n))); [reflexivity|]. intros p. apply H.
Qed.

Lemma bind_ret A B (a : A) (f : A -> M B) : bind (ret a) f = f a.
Proof. unfold bind, ret. cbn [fst snd app]. destruct (f a); reflexivity. Qed.
Lemma mapM_in A B (f g : A -> M B) l : (forall a, In a l -> f a = g a) -> mapM f l = mapM g l.
Proof.
  induction l as [|a l IH]; intros H; cbn [mapM]; [reflexivity|]. rewrite (H a) by (left; reflexivity).
  rewrite IH; [reflexivity|]. intros b I. apply H. right. exact I.
Qed.

(** *** The loops. *)
Lemma seq_loop A v l0 inc exc len (e1 e2 : pyval -> incl -> incl -> M A) :
  is_seq v l0 -> apt inc v -> apt exc v ->
  (forall w ni ne, In w l0 -> apt ni w -> apt ne w -> In (prune (kept_by ni ne) w) (prune_seq (kept_by inc exc) 0 l0) ->
     e1 w ni ne = e2 (prune (kept_by ni ne) w) None None) ->
  forall j, filtered any_filter inc exc (zlen l0) e1 0 l0 = filtered any_filter None None len e2 j (prune_seq (kept_by inc exc) 0 l0).
Proof.
  intros Q Ai Ae H.
  assert (X : forall l i j, (forall m w, nth_error l m = Some w -> nth_error l0 (i + m) = Some w) ->
            (forall w, In w (prune_seq (kept_by inc exc) i l) -> In w (prune_seq (kept_by inc exc) 0 l0)) ->
            filtered any_filter inc exc (zlen l0) e1 i l = filtered any_filter None None len e2 j (prune_seq (kept_by inc exc) i l)).
  { induction l as [|w l IH]; intros i j N I; [reflexivity|]. cbn [filtered prune_seq].
    pose proof (N 0 w eq_refl) as W. rewrite Nat.add_0_r in W.
    assert (A0 : item_at v (KInt (Z.of_nat i)) w) by (destruct Q as [-> | ->]; constructor; exact W).
    assert (NE : l0 <> []) by (intros ->; destruct i; discriminate).
    rewrite (index_is_filter v l0 (Z.of_nat i) inc exc Q NE (proj1 Ai) (proj2 (proj2 Ai)) (proj1 Ae) (proj2 (proj2 Ae))).
    assert (N' : forall m w, nth_error l m = Some w -> nth_error l0 (S i + m) = Some w).
    { intros m u Hm. replace (S i + m) with (i + S m) by lia. apply N. exact Hm. }
    pose proof (step_filter (KInt (Z.of_nat i)) inc exc v w Ai Ae A0) as SF. cbn [prune_seq] in I.
    destruct (filter any_filter (KInt (Z.of_nat i)) inc exc) as [[[ni ne]|]| |]; try contradiction; cbn [res_opt]; rewrite bind_ret.
    - destruct SF as (K & An & Ane & KE). rewrite K in *.
      rewrite (prune_ext w _ (kept_by ni ne)) in * by (intros p; symmetry; apply KE). cbn [filtered].
      change (res_opt (index_filter any_filter (Z.of_nat j) None None len)) with (ret (Some (@None fval, @None fval))). rewrite bind_ret.
      rewrite (H w ni ne); [|exact (nth_error_In _ _ W)|exact An|exact Ane|apply I; left; reflexivity].
      rewrite (IH (S i) (S j) N'); [reflexivity|]. intros u Hu. apply I. right. exact Hu.
    - rewrite SF in *. apply IH; [exact N'|exact I]. }
  intros j. apply X; [intros m w Hm; exact Hm|intros w Hw; exact Hw].
Qed.
Lemma dict_loop_py d0 inc exc k1 k2 (e1 e2 : pyval -> incl -> incl -> M pyval) :
  apt inc (PDict d0) -> apt exc (PDict d0) -> (forall k, k1 k = k2 k) ->
  (forall n w ni ne, In (n, w) d0 -> apt ni w -> apt ne w -> In (n, prune (kept_by ni ne) w) (prune_dict (kept_by inc exc) d0) ->
     e1 w ni ne = e2 (prune (kept_by ni ne) w) None None) ->
  forall acc, pairs_py any_filter inc exc k1 e1 (items d0) acc = pairs_py any_filter None None k2 e2 (items (prune_dict (kept_by inc exc) d0)) acc.
Proof.
  intros Ai Ae HK H.
  assert (X : forall d acc, List.incl d d0 -> List.incl (prune_dict (kept_by inc exc) d) (prune_dict (kept_by inc exc) d0) ->
            pairs_py any_filter inc exc k1 e1 (items d) acc = pairs_py any_filter None None k2 e2 (items (prune_dict (kept_by inc exc) d)) acc).
  { induction d as [|[n w] d IH]; intros acc N I; [reflexivity|]. cbn [items map fst snd pairs_py prune_dict opt]. rewrite bind_ret.
    assert (N' : List.incl d d0) by (intros u Hu; apply N; right; exact Hu). fold (items d).
    pose proof (step_filter (key_of n) inc exc (PDict d0) w Ai Ae (at_dict d0 n w (N _ (or_introl eq_refl)))) as SF. cbn [prune_dict] in I.
    destruct (filter any_filter (key_of n) inc exc) as [[[ni ne]|]| |]; try contradiction; cbn [res_opt]; rewrite bind_ret.
    - destruct SF as (K & An & Ane & KE). rewrite K in *.
      rewrite (prune_ext w _ (kept_by ni ne)) in * by (intros p; symmetry; apply KE).
      cbn [items map fst snd pairs_py opt]. rewrite bind_ret.
      change (res_opt (filter any_filter (key_of n) None None)) with (ret (Some (@None fval, @None fval))). rewrite bind_ret.
      rewrite (H n w ni ne); [|apply N; left; reflexivity|exact An|exact Ane|apply I; left; reflexivity]. rewrite HK.
      assert (I' : List.incl (prune_dict (kept_by inc exc) d) (prune_dict (kept_by inc exc) d0)) by (intros u Hu; apply I; right; exact Hu).
      unfold bind. fold (items (prune_dict (kept_by inc exc) d)).
      destruct (snd (k2 n)); [|reflexivity]. destruct (snd (e2 _ _ _)); [|reflexivity]. destruct (snd (put _ _ _)); [|reflexivity].
      rewrite (IH _ N' I'). reflexivity.
    - rewrite SF in *. apply IH; [exact N'|exact I]. }
  intros acc. apply X; intros u Hu; exact Hu.
Qed.
Lemma dict_loop_js d0 inc exc k1 k2 (e1 e2 : pyval -> incl -> incl -> M json) :
  apt inc (PDict d0) -> apt exc (PDict d0) -> (forall k, k1 k = k2 k) ->
  (forall n w ni ne, In (n, w) d0 -> apt ni w -> apt ne w -> In (n, prune (kept_by ni ne) w) (prune_dict (kept_by inc exc) d0) ->
     e1 w ni ne = e2 (prune (kept_by ni ne) w) None None) ->
  pairs_js any_filter inc exc k1 e1 (items d0) = pairs_js any_filter None None k2 e2 (items (prune_dict (kept_by inc exc) d0)).
Proof.
  intros Ai Ae HK H.
  assert (X : forall d, List.incl d d0 -> List.incl (prune_dict (kept_by inc exc) d) (prune_dict (kept_by inc exc) d0) ->
            pairs_js any_filter inc exc k1 e1 (items d) = pairs_js any_filter None None k2 e2 (items (prune_dict (kept_by inc exc) d))).
  { induction d as [|[n w] d IH]; intros N I; [reflexivity|]. cbn [items map fst snd pairs_js prune_dict opt]. rewrite bind_ret.
    assert (N' : List.incl d d0) by (intros u Hu; apply N; right; exact Hu). fold (items d).
    pose proof (step_filter (key_of n) inc exc (PDict d0) w Ai Ae (at_dict d0 n w (N _ (or_introl eq_refl)))) as SF. cbn [prune_dict] in I.
    destruct (filter any_filter (key_of n) inc exc) as [[[ni ne]|]| |]; try contradiction; cbn [res_opt]; rewrite bind_ret.
    - destruct SF as (K & An & Ane & KE). rewrite K in *.
      rewrite (prune_ext w _ (kept_by ni ne)) in * by (intros p; symmetry; apply KE).
      cbn [items map fst snd pairs_js opt]. rewrite bind_ret.
      change (res_opt (filter any_filter (key_of n) None None)) with (ret (Some (@None fval, @None fval))). rewrite bind_ret.
      rewrite (H n w ni ne); [|apply N; left; reflexivity|exact An|exact Ane|apply I; left; reflexivity]. rewrite HK.
      assert (I' : List.incl (prune_dict (kept_by inc exc) d) (prune_dict (kept_by inc exc) d0)) by (intros u Hu; apply I; right; exact Hu).
      fold (items (prune_dict (kept_by inc exc) d)). rewrite (IH N' I'). reflexivity.
    - rewrite SF in *. apply IH; [exact N'|exact I]. }
  apply X; intros u Hu; exact Hu.
Qed.

(** *** The levels. *)
Lemma keyed_py P m : l_py (keyed E P m) = l_py P.
Proof. destruct m; reflexivity. Qed.
Lemma keyed_js P m : l_js (keyed E P m) = l_js P.
Proof. destruct m; reflexivity. Qed.
Lemma levels_key n v g1 g2 x : l_key (levels E n) v (set_guard g1 x) = l_key (levels E n) v (set_guard g2 x).
Proof. destruct n; apply key_guard. Qed.
Lemma in_seq_wt (l : list pyval) w : In w l -> wt w < S (fold_right (fun w n => wt w + n) 0 l).
Proof. induction l as [|a l IH]; [intros []|]. intros [->|H]; cbn [fold_right]; [lia|]. specialize (IH H). lia. Qed.
Lemma in_dict_wt (d : list (pyval * pyval)) n w : In (n, w) d -> wt w < S (fold_right (fun kv n => wt (fst kv) + wt (snd kv) + n) 0 d).
Proof. induction d as [|a l IH]; [intros []|]. intros [->|H]; cbn [fold_right fst snd]; [lia|]. specialize (IH H). lia. Qed.
Lemma in_seq_height (l : list pyval) w n : In w l -> fold_right (fun w n => Nat.max (height w) n) 0 l <= n -> height w <= n.
Proof. induction l as [|a l IH]; [intros []|]. intros [->|H]; cbn [fold_right]; intros L; [lia|]. apply IH; [exact H|lia]. Qed.
Lemma in_dict_height (d : list (pyval * pyval)) k w n : In (k, w) d -> fold_right (fun kv n => Nat.max (height (snd kv)) n) 0 d <= n -> height w <= n.
Proof. induction d as [|a l IH]; [intros []|]. intros [->|H]; cbn [fold_right snd]; intros L; [lia|]. apply IH; [exact H|lia]. Qed.
Lemma scalar_prune v keep : scalar v = true -> prune keep v = v.
Proof. destruct v; try discriminate; reflexivity. Qed.
Lemma scalar_py n v i1 e1 i2 e2 g1 g2 x : scalar v = true -> heavier v g1 -> heavier v g2 ->
  l_py (levels E n) v i1 e1 (set_guard g1 x) = l_py (levels E n) v i2 e2 (set_guard g2 x).
Proof.
  intros S H1 H2. destruct n; cbn [levels]; [unfold no_level|unfold next_level]; rewrite keyed_py; cbn [l_py]; [reflexivity|].
  rewrite !enter_ok by assumption. destruct v; try discriminate; reflexivity.
Qed.
Lemma scalar_js n v i1 e1 i2 e2 g1 g2 x : scalar v = true -> heavier v g1 -> heavier v g2 ->
  l_js (levels E n) v i1 e1 (set_guard g1 x) = l_js (levels E n) v i2 e2 (set_guard g2 x).
Proof.
  intros S H1 H2. destruct n; cbn [levels]; [unfold no_level|unfold next_level]; rewrite keyed_js; cbn [l_js]; [reflexivity|].
  rewrite !enter_ok by assumption. destruct v; try discriminate; reflexivity.
Qed.
Definition deep_ok (x : extra) (n : nat) (v : pyval) : Prop := x_json x = true \/ height v <= n.
Lemma prune_py : forall n v inc exc x g1 g2, plain v = true -> apt inc v -> apt exc v -> heavier v g1 -> heavier (prune (kept_by inc exc) v) g2 ->
  deep_ok x n v ->
  l_py (levels E n) v inc exc (set_guard g1 x) = l_py (levels E n) (prune (kept_by inc exc) v) None None (set_guard g2 x).
Proof.
  induction n as [|n IH]; intros v inc exc x g1 g2 P Ai Ae H1 H2 D.
  { cbn [levels]. unfold no_level. rewrite keyed_py. cbn [l_py]. unfold guard_failed_py. cbn [set_guard x_json].
    destruct D as [-> | D]; [reflexivity|]. exfalso. destruct v; cbn [height] in D; lia. }
  destruct (scalar v) eqn:Sv.
  { rewrite scalar_prune in * by exact Sv. now apply scalar_py. }
  assert (D' : forall w, (x_json x = true \/ height w <= n) -> deep_ok x n w) by (intros w Hw; exact Hw).
  cbn [levels]. unfold next_level. rewrite keyed_py. cbn [l_py]. rewrite !enter_ok by assumption.
  destruct v; try discriminate; unfold infer_py_body; cbn [get_type prune down_list down_tuple down_set down_frozenset down_dict base opt];
    fold (prune_seq (kept_by inc exc)); fold (prune_dict (kept_by inc exc)); rewrite !bind_ret.
  - cbn [plain] in P. rewrite forallb_forall in P. rewrite prune_list in H2.
    rewrite (seq_loop _ (PList l) l inc exc (zlen (prune_seq (kept_by inc exc) 0 l)) _
               (fun e i e' => l_py (levels E n) e i e' (set_guard ((PList (prune_seq (kept_by inc exc) 0 l), None) :: g2) x)) (or_introl eq_refl) Ai Ae) with (j := 0);
      [reflexivity|]. intros w ni ne I An Ane Ip. apply IH; [exact (P _ I)|exact An|exact Ane| | |].
    + apply heavier_in; [exact (in_seq_wt _ _ I)|exact H1].
    + apply heavier_in; [exact (in_seq_wt _ _ Ip)|exact H2].
    + destruct D as [D|D]; [left; exact D|right]. cbn [height] in D. apply (in_seq_height l); [exact I|lia].
  - cbn [plain] in P. rewrite forallb_forall in P. rewrite prune_tuple in H2.
    rewrite (seq_loop _ (PTuple l) l inc exc (zlen (prune_seq (kept_by inc exc) 0 l)) _
               (fun e i e' => l_py (levels E n) e i e' (set_guard ((PTuple (prune_seq (kept_by inc exc) 0 l), None) :: g2) x)) (or_intror eq_refl) Ai Ae) with (j := 0);
      [reflexivity|]. intros w ni ne I An Ane Ip. apply IH; [exact (P _ I)|exact An|exact Ane| | |].
    + apply heavier_in; [exact (in_seq_wt _ _ I)|exact H1].
    + apply heavier_in; [exact (in_seq_wt _ _ Ip)|exact H2].
    + destruct D as [D|D]; [left; exact D|right]. cbn [height] in D. apply (in_seq_height l); [exact I|lia].
  - cbn [plain] in P. rewrite forallb_forall in P. cbn [prune] in H2.
    rewrite (mapM_in _ _ _ (fun e => l_py (levels E n) e None None (set_guard ((PSet l, None) :: g2) x)) l); [reflexivity|].
    intros w I. apply scalar_py; [exact (P _ I)| |]; (apply heavier_in; [exact (in_seq_wt _ _ I)|assumption]).
  - cbn [plain] in P. rewrite forallb_forall in P. cbn [prune] in H2.
    rewrite (mapM_in _ _ _ (fun e => l_py (levels E n) e None None (set_guard ((PFrozenSet l, None) :: g2) x)) l); [reflexivity|].
    intros w I. apply scalar_py; [exact (P _ I)| |]; (apply heavier_in; [exact (in_seq_wt _ _ I)|assumption]).
  - cbn [plain] in P. rewrite forallb_forall in P. rewrite prune_pdict in H2.
    rewrite (dict_loop_py l inc exc _ (fun k => if x_json x then s <- l_key (levels E n) k (set_guard ((PDict (prune_dict (kept_by inc exc) l), None) :: g2) x) ;; ret (PStr s) else ret k) _
               (fun e i e' => l_py (levels E n) e i e' (set_guard ((PDict (prune_dict (kept_by inc exc) l), None) :: g2) x)) Ai Ae);
      [reflexivity| |].
    + intros k. cbn [set_guard x_json]. destruct (x_json x); [|reflexivity].
      refine (f_equal (fun m => bind m (fun s => ret (PStr s))) _). exact (levels_key n k ((PDict l, None) :: g1) _ x).
    + intros k w ni ne I An Ane Ip. apply IH; [exact (P _ I)|exact An|exact Ane| | |].
      * apply heavier_in; [exact (in_dict_wt _ _ _ I)|exact H1].
      * apply heavier_in; [exact (in_dict_wt _ _ _ Ip)|exact H2].
      * destruct D as [D|D]; [left; exact D|right]. cbn [height] in D. apply (in_dict_height l k); [exact I|lia].
Qed.
Lemma prune_js : forall n v inc exc x g1 g2, plain v = true -> apt inc v -> apt exc v -> heavier v g1 -> heavier (prune (kept_by inc exc) v) g2 ->
  l_js (levels E n) v inc exc (set_guard g1 x) = l_js (levels E n) (prune (kept_by inc exc) v) None None (set_guard g2 x).
Proof.
  induction n as [|n IH]; intros v inc exc x g1 g2 P Ai Ae H1 H2.
  { cbn [levels]. unfold no_level. rewrite keyed_js. reflexivity. }
  destruct (scalar v) eqn:Sv.
  { rewrite scalar_prune in * by exact Sv. now apply scalar_js. }
  cbn [levels]. unfold next_level. rewrite keyed_js. cbn [l_js]. rewrite !enter_ok by assumption.
  destruct v; try discriminate; unfold infer_js_body; cbn [get_type prune down_list down_tuple down_set down_frozenset down_dict base opt];
    fold (prune_seq (kept_by inc exc)); fold (prune_dict (kept_by inc exc)); rewrite !bind_ret.
  - cbn [plain] in P. rewrite forallb_forall in P. rewrite prune_list in H2.
    rewrite (seq_loop _ (PList l) l inc exc (zlen (prune_seq (kept_by inc exc) 0 l)) _
               (fun e i e' => l_js (levels E n) e i e' (set_guard ((PList (prune_seq (kept_by inc exc) 0 l), None) :: g2) x)) (or_introl eq_refl) Ai Ae) with (j := 0);
      [reflexivity|]. intros w ni ne I An Ane Ip. apply IH; [exact (P _ I)|exact An|exact Ane| |].
    + apply heavier_in; [exact (in_seq_wt _ _ I)|exact H1].
    + apply heavier_in; [exact (in_seq_wt _ _ Ip)|exact H2].
  - cbn [plain] in P. rewrite forallb_forall in P. rewrite prune_tuple in H2.
    rewrite (seq_loop _ (PTuple l) l inc exc (zlen (prune_seq (kept_by inc exc) 0 l)) _
               (fun e i e' => l_js (levels E n) e i e' (set_guard ((PTuple (prune_seq (kept_by inc exc) 0 l), None) :: g2) x)) (or_intror eq_refl) Ai Ae) with (j := 0);
      [reflexivity|]. intros w ni ne I An Ane Ip. apply IH; [exact (P _ I)|exact An|exact Ane| |].
    + apply heavier_in; [exact (in_seq_wt _ _ I)|exact H1].
    + apply heavier_in; [exact (in_seq_wt _ _ Ip)|exact H2].
  - cbn [plain] in P. rewrite forallb_forall in P. cbn [prune] in H2.
    rewrite (mapM_in _ _ _ (fun e => l_js (levels E n) e None None (set_guard ((PSet l, None) :: g2) x)) l); [reflexivity|].
    intros w I. apply scalar_js; [exact (P _ I)| |]; (apply heavier_in; [exact (in_seq_wt _ _ I)|assumption]).
  - cbn [plain] in P. rewrite forallb_forall in P. cbn [prune] in H2.
    rewrite (mapM_in _ _ _ (fun e => l_js (levels E n) e None None (set_guard ((PFrozenSet l, None) :: g2) x)) l); [reflexivity|].
    intros w I. apply scalar_js; [exact (P _ I)| |]; (apply heavier_in; [exact (in_seq_wt _ _ I)|assumption]).
  - cbn [plain] in P. rewrite forallb_forall in P. rewrite prune_pdict in H2.
    rewrite (dict_loop_js l inc exc _ (fun k => l_key (levels E n) k (set_guard ((PDict (prune_dict (kept_by inc exc) l), None) :: g2) x)) _
               (fun e i e' => l_js (levels E n) e i e' (set_guard ((PDict (prune_dict (kept_by inc exc) l), None) :: g2) x)) Ai Ae);
      [reflexivity| |].
    + intros k. exact (levels_key n k ((PDict l, None) :: g1) _ x).
    + intros k w ni ne I An Ane Ip. apply IH; [exact (P _ I)|exact An|exact Ane| |].
      * apply heavier_in; [exact (in_dict_wt _ _ _ I)|exact H1].
      * apply heavier_in; [exact (in_dict_wt _ _ _ Ip)|exact H2].
Qed.
End Env.

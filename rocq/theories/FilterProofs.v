From Coq Require Import List NArith ZArith Bool Lia.
From Verif Require Import Base Filter FilterSpec.
Import ListNotations.

Lemma key_eqb_eq a b : key_eqb a b = true <-> a = b.
Proof.
  destruct a as [x|x], b as [y|y]; simpl; try (split; congruence).
  - rewrite Z.eqb_eq. split; congruence.
  - rewrite str_eqb_eq. split; congruence.
Qed.
Lemma key_eqb_refl a : key_eqb a a = true.
Proof. apply key_eqb_eq. reflexivity. Qed.
Lemma key_eqb_neq a b : key_eqb a b = false <-> a <> b.
Proof.
  split; intros H.
  - intros E. apply key_eqb_eq in E. congruence.
  - destruct (key_eqb a b) eqn:E; [apply key_eqb_eq in E; contradiction|reflexivity].
Qed.
Lemma key_eqb_sym a b : key_eqb a b = key_eqb b a.
Proof.
  destruct (key_eqb a b) eqn:E; symmetry.
  - apply key_eqb_eq in E. subst. apply key_eqb_refl.
  - apply key_eqb_neq. apply key_eqb_neq in E. congruence.
Qed.

Fixpoint fval_ind' (P : fval -> Prop) (He : P FEll) (Hn : P FNone)
  (Hd : forall d, Forall (fun x => P (snd x)) d -> P (FDict d))
  (Hs : forall l, P (FSet l)) (Hc : forall l, P (FContains l)) (Ho : P FOther) (f : fval) : P f :=
  match f with
  | FEll => He | FNone => Hn | FSet l => Hs l | FContains l => Hc l | FOther => Ho
  | FDict d => Hd d ((fix go d := match d return Forall (fun x => P (snd x)) d with
                                  | [] => Forall_nil _
                                  | x :: r => Forall_cons _ (fval_ind' P He Hn Hd Hs Hc Ho (snd x)) (go r)
                                  end) d)
  end.

Lemma lookup_set k v d x : lookup x (set_item k v d) = if key_eqb x k then Some v else lookup x d.
Proof.
  induction d as [|[k' v'] d IH]; simpl.
  - destruct (key_eqb x k); reflexivity.
  - destruct (key_eqb k k') eqn:E; simpl.
    + apply key_eqb_eq in E. subst k'. destruct (key_eqb x k); reflexivity.
    + destruct (key_eqb x k') eqn:E1; [|apply IH].
      apply key_eqb_eq in E1. subst k'. rewrite key_eqb_sym in E. rewrite E. reflexivity.
Qed.

Lemma lookup_set_same k v d : lookup k (set_item k v d) = Some v.
Proof. rewrite lookup_set, key_eqb_refl. reflexivity. Qed.

Lemma lookup_None k d : lookup k d = None <-> ~ In k (map fst d).
Proof.
  induction d as [|[k' v'] d IH]; simpl; [tauto|]. destruct (key_eqb k k') eqn:E.
  - apply key_eqb_eq in E. subst. split; [discriminate | intros H; exfalso; apply H; auto].
  - apply key_eqb_neq in E. rewrite IH. split; [intros H [H1|H1]; [congruence|auto] | tauto].
Qed.
Lemma lookup_In k d v : lookup k d = Some v -> In (k, v) d.
Proof.
  induction d as [|[k' v'] d IH]; simpl; [discriminate|]. destruct (key_eqb k k') eqn:E; [|auto].
  apply key_eqb_eq in E. subst. intros H. injection H as ->. auto.
Qed.

Lemma map_fst_set k v d : NoDup (map fst d) -> NoDup (map fst (set_item k v d)) /\
  forall x, In x (map fst (set_item k v d)) <-> x = k \/ In x (map fst d).
Proof.
  induction d as [|[k' v'] d IH]; simpl; intros H.
  - split; [constructor; [tauto|constructor] | intros x; split; [intros [<-|[]]; auto | intros [->|[]]; auto]].
  - apply NoDup_cons_iff in H as [H1 H2]. specialize (IH H2) as [IH1 IH2].
    destruct (key_eqb k k') eqn:E; simpl.
    + apply key_eqb_eq in E. subst k'. split; [constructor; auto|]. intros x. split; [intros [<-|H]; auto | intros [->|[H|H]]; auto].
    + apply key_eqb_neq in E. split.
      * constructor; [|assumption]. rewrite IH2. intros [H|H]; [congruence|contradiction].
      * intros x. rewrite IH2. tauto.
Qed.

Lemma wf_dict d : well_formed (FDict d) <-> NoDup (map fst d) /\ Forall (fun x => well_formed (snd x)) d.
Proof.
  simpl. split; intros [H1 H2]; (split; [assumption|]).
  - clear H1. induction d as [|[k g] d IH]; constructor; [exact (proj1 H2) | apply IH, H2].
  - clear H1. induction H2 as [|[k g] d Hg Hd IH]; [exact I|]. split; assumption.
Qed.

Lemma wf_lookup d k g : well_formed (FDict d) -> lookup k d = Some g -> well_formed g.
Proof.
  intros H Hk. apply wf_dict in H as [_ H]. apply lookup_In in Hk. rewrite Forall_forall in H. exact (H _ Hk).
Qed.

Lemma wf_set d k g : well_formed (FDict d) -> well_formed g -> well_formed (FDict (set_item k g d)).
Proof.
  intros H Hg. apply wf_dict in H as [H1 H2]. apply wf_dict. split; [apply map_fst_set; assumption|].
  clear H1. induction H2 as [|[k' g'] d Hd Hds IH]; simpl; [constructor; [assumption|constructor]|].
  destruct (key_eqb k k'); constructor; auto.
Qed.

(** Lookup lifted to covers/touches of an optional sub-filter. *)
Definition cov (o : option fval) (p : list key) : bool := match o with Some g => covers g p | None => false end.
Definition tou (o : option fval) (p : list key) : bool := match o with Some g => touches g p | None => false end.

Definition entry (f : fval) (k : key) : option fval :=
  match f with
  | FDict d => lookup k d
  | FSet l => if mem k l then Some FEll else None
  | _ => None
  end.

Lemma covers_FEll p : covers FEll p = true.
Proof. destruct p; reflexivity. Qed.
Lemma touches_FEll p : touches FEll p = false.
Proof. destruct p; reflexivity. Qed.

Lemma covers_step f k r : f <> FEll -> covers f (k :: r) = cov (entry f k) r || cov (entry f ALL) r.
Proof.
  destruct f; simpl; intros H; try reflexivity; try congruence.
  destruct (mem k l), (mem ALL l); simpl; rewrite ?covers_FEll; reflexivity.
Qed.
Lemma touches_step f k r : f <> FEll -> touches f (k :: r) = tou (entry f k) r || tou (entry f ALL) r.
Proof.
  destruct f; simpl; intros H; try reflexivity; try congruence.
  destruct (mem k l), (mem ALL l); simpl; rewrite ?touches_FEll; reflexivity.
Qed.

(** [o] is the union of [x] and [y]. *)
Definition union (o x y : option fval) : Prop :=
  forall p, cov o p = cov x p || cov y p /\ tou o p = tou x p || tou y p.
(** [x] and [y] do not name the same path entirely and in part. *)
Definition agree (x y : option fval) : Prop :=
  forall p, (cov x p = true -> tou y p = false) /\ (cov y p = true -> tou x p = false).

Definition wfo (o : option fval) : Prop := match o with Some g => well_formed g | None => True end.

Lemma union_none_r x : union x x None.
Proof. intros p. simpl. rewrite !orb_false_r. auto. Qed.
Lemma union_none_l x : union x None x.
Proof. intros p. simpl. auto. Qed.

Lemma wf_nonell_touches g : well_formed g -> g <> FEll -> touches g [] = true.
Proof. destruct g; simpl; intros H1 H2; try reflexivity; try contradiction; congruence. Qed.

(** Merging entry by entry. *)
Definition merged (m : list (key * fval)) (item : list (key * fval)) (all : fval) : Prop :=
  well_formed (FDict m) /\ forall k, union (lookup k m) (lookup k item) (entry all k).

Lemma mem_In k l : mem k l = true <-> In k l.
Proof.
  unfold mem. rewrite existsb_exists. split.
  - intros [x [H1 H2]]. apply key_eqb_eq in H2. subst. assumption.
  - intros H. exists k. split; [assumption|apply key_eqb_refl].
Qed.

Lemma as_dict_ok g : well_formed g -> g <> FEll ->
  exists d, as_dict g = Ok d /\ well_formed (FDict d) /\ forall k, lookup k d = entry g k.
Proof.
  destruct g; simpl; intros H1 H2; try contradiction; try congruence.
  - exists d. split; [reflexivity|]. split; [assumption|reflexivity].
  - exists (map (fun k => (k, FEll)) l). split; [reflexivity|]. split.
    + apply wf_dict. rewrite map_map. simpl. rewrite map_id. split; [assumption|].
      apply Forall_forall. intros x Hx. apply in_map_iff in Hx as [y [<- _]]. exact I.
    + intros k. clear H1 H2. induction l as [|x l IH]; [reflexivity|]. simpl. destruct (key_eqb k x); [reflexivity|exact IH].
Qed.

Lemma union_ell_l o g : well_formed g -> tou (Some g) [] = false -> union o (Some FEll) None -> union o (Some FEll) (Some g).
Proof.
  intros Hw Ht H p. destruct (H p) as [H1 H2]. simpl in *. rewrite H1, H2.
  assert (g = FEll) by (destruct g; simpl in *; congruence || contradiction). subst g.
  rewrite covers_FEll, touches_FEll. auto.
Qed.

Lemma agree_entries iv av k : well_formed iv -> iv <> FEll -> well_formed av -> av <> FEll ->
  agree (Some iv) (Some av) -> agree (entry iv k) (entry av k).
Proof.
  intros W1 N1 W2 N2 H p. specialize (H (k :: p)). cbn [cov tou] in H. rewrite !covers_step, !touches_step in H by assumption.
  destruct H as [H1 H2]. split; intros H.
  - rewrite H in H1. specialize (H1 eq_refl). apply orb_false_iff in H1. tauto.
  - rewrite H in H2. specialize (H2 eq_refl). apply orb_false_iff in H2. tauto.
Qed.

Lemma union_of_entries m iv av : well_formed iv -> iv <> FEll -> well_formed av -> av <> FEll ->
  (forall k, union (lookup k m) (entry iv k) (entry av k)) -> union (Some (FDict m)) (Some iv) (Some av).
Proof.
  intros W1 N1 W2 N2 H p. cbn [cov tou]. destruct p as [|k r].
  - split; [|rewrite (wf_nonell_touches iv) by assumption; reflexivity].
    destruct iv; simpl in *; try contradiction; try congruence; destruct av; simpl in *; try contradiction; try congruence; reflexivity.
  - rewrite !covers_step, !touches_step by (assumption || discriminate). cbn [entry].
    destruct (H k r) as [A1 A2], (H ALL r) as [B1 B2]. rewrite A1, A2, B1, B2.
    split; [destruct (cov (entry iv k) r), (cov (entry av k) r), (cov (entry iv ALL) r), (cov (entry av ALL) r)
           | destruct (tou (entry iv k) r), (tou (entry av k) r), (tou (entry iv ALL) r), (tou (entry av ALL) r)]; reflexivity.
Qed.

Lemma fold_set l : forall d, well_formed (FDict d) ->
  let m := fold_left (fun d k => match lookup k d with Some _ => d | None => set_item k FEll d end) l d in
  well_formed (FDict m) /\
  forall k, lookup k m = match lookup k d with Some g => Some g | None => if mem k l then Some FEll else None end.
Proof.
  induction l as [|x l IH]; intros d Hd; cbn [fold_left mem existsb].
  - split; [assumption|]. intros k. destruct (lookup k d); reflexivity.
  - destruct (lookup x d) as [g|] eqn:E.
    + destruct (IH d Hd) as [H1 H2]. split; [exact H1|]. intros k. rewrite H2. destruct (lookup k d) eqn:Ek; [reflexivity|].
      fold (mem k l). destruct (key_eqb k x) eqn:Ex; [|reflexivity]. apply key_eqb_eq in Ex. congruence.
    + destruct (IH (set_item x FEll d)) as [H1 H2]; [apply wf_set; [assumption|exact I]|]. split; [exact H1|].
      intros k. rewrite H2, lookup_set. fold (mem k l). destruct (key_eqb k x) eqn:Ex; [|reflexivity].
      apply key_eqb_eq in Ex. subst k. rewrite E. reflexivity.
Qed.

Lemma merge_ok : forall all item, well_formed all -> all <> FEll -> well_formed (FDict item) ->
  (forall k, agree (lookup k item) (entry all k)) ->
  exists m, merge_dicts item all = Ok m /\ merged m item all.
Proof.
  induction all as [| |ad IH|l|l|] using fval_ind'; intros item Wa Na Wi Hag; try (simpl in Wa; contradiction); try congruence.
  - cbn [merge_dicts].
    set (go := fix go (ad : list (key * fval)) (item : list (key * fval)) : res (list (key * fval)) :=
         match ad with
         | [] => Ok item
         | (k, av) :: ad' =>
             match lookup k item with
             | Some iv =>
                 if is_ell iv then go ad' item
                 else
                   match as_dict iv with
                   | Ok ivd =>
                       if is_ell av then go ad' item
                       else
                         match merge_dicts ivd av with
                         | Ok m => go ad' (set_item k (FDict m) item)
                         | TypeErr => TypeErr
                         | ValueErr => ValueErr
                         end
                   | TypeErr => TypeErr
                   | ValueErr => ValueErr
                   end
             | None => go ad' (set_item k av item)
             end
         end).
    assert (G : forall item, well_formed (FDict item) -> (forall k, agree (lookup k item) (lookup k ad)) ->
              exists m, go ad item = Ok m /\ well_formed (FDict m) /\ forall k, union (lookup k m) (lookup k item) (lookup k ad)).
    { clear item Wi Hag Na. apply wf_dict in Wa as [Nd Wa].
      induction ad as [|[k av] ad IHad]; intros item Wi Hag.
      - exists item. split; [reflexivity|]. split; [assumption|]. intros k. apply union_none_r.
      - inversion IH as [|? ? IHav IHrest]; subst. inversion Wa as [|? ? Wav Wrest]; subst.
        simpl in Nd, Wav, IHav. apply NoDup_cons_iff in Nd as [Nk Nd]. apply lookup_None in Nk.
        specialize (IHad IHrest Nd Wrest).
        assert (Hk := Hag k). cbn [lookup] in Hk. rewrite key_eqb_refl in Hk.
        assert (Hag' : forall item', (forall x, x <> k -> lookup x item' = lookup x item) ->
                   forall x, agree (lookup x item') (lookup x ad)).
        { intros item' Hx x p. destruct (key_eqb x k) eqn:E.
          - apply key_eqb_eq in E. subst x. rewrite Nk. split; [reflexivity | discriminate].
          - specialize (Hag x). cbn [lookup] in Hag. rewrite E in Hag. apply key_eqb_neq in E.
            rewrite (Hx x E). apply Hag. }
        assert (Hset : forall g, well_formed g -> union (Some g) (lookup k item) (Some av) ->
                 exists m, go ad (set_item k g item) = Ok m /\ well_formed (FDict m) /\
                   forall x, union (lookup x m) (lookup x item) (lookup x ((k, av) :: ad))).
        { intros g Wg Ug. destruct (IHad (set_item k g item)) as (m & M1 & M2 & M3).
          - apply wf_set; assumption.
          - apply Hag'. intros x Hx. rewrite lookup_set. apply key_eqb_neq in Hx. rewrite Hx. reflexivity.
          - exists m. split; [assumption|]. split; [assumption|]. intros x p. specialize (M3 x p).
            rewrite lookup_set in M3. cbn [lookup]. destruct (key_eqb x k) eqn:E; [|exact M3].
            apply key_eqb_eq in E. subst x. rewrite Nk in M3. simpl (cov None _) in M3. simpl (tou None _) in M3.
            rewrite !orb_false_r in M3. destruct M3 as [M3 M4]. rewrite M3, M4. apply Ug. }
        assert (Hskip : well_formed av -> lookup k item = Some FEll ->
                 exists m, go ad item = Ok m /\ well_formed (FDict m) /\
                   forall x, union (lookup x m) (lookup x item) (lookup x ((k, av) :: ad))).
        { intros _ El. destruct (IHad item Wi) as (m & M1 & M2 & M3); [apply Hag'; reflexivity|].
          exists m. split; [assumption|]. split; [assumption|]. intros x. cbn [lookup].
          destruct (key_eqb x k) eqn:E; [|apply M3]. apply key_eqb_eq in E. subst x. specialize (M3 k).
          rewrite Nk in M3. rewrite El in *. apply union_ell_l; [assumption| |assumption].
          apply (Hk []). reflexivity. }
        cbn [go]. destruct (lookup k item) as [iv|] eqn:Ei.
        + pose proof (wf_lookup _ _ _ Wi Ei) as Wiv. destruct (is_ell iv) eqn:Ee.
          * destruct iv; try discriminate. apply Hskip; [assumption|reflexivity].
          * assert (Niv : iv <> FEll) by (intros ->; discriminate).
            destruct (as_dict_ok iv Wiv Niv) as (ivd & D1 & D2 & D3). rewrite D1.
            destruct (is_ell av) eqn:Ea.
            -- exfalso. destruct av; try discriminate. destruct (Hk []) as [_ H2]. specialize (H2 eq_refl).
               cbn [tou] in H2. rewrite wf_nonell_touches in H2 by assumption. discriminate.
            -- assert (Nav : av <> FEll) by (intros ->; discriminate).
               destruct (IHav ivd Wav Nav D2) as (m & M1 & M2 & M3).
               { intros x. rewrite D3. apply agree_entries; assumption. }
               rewrite M1. apply Hset; [assumption|]. apply union_of_entries; try assumption.
               intros x. rewrite <- D3. apply M3.
        + apply Hset; [assumption|]. apply union_none_l. }
    destruct (G item Wi Hag) as (m & M1 & M2 & M3). exists m. split; [exact M1|]. split; assumption.
  - cbn [merge_dicts]. destruct (fold_set l item Wi) as [H1 H2]. eexists. split; [reflexivity|]. split; [exact H1|].
    intros k. rewrite H2. cbn [entry]. specialize (Hag k). cbn [entry] in Hag. destruct (lookup k item) as [g|] eqn:E.
    + destruct (mem k l); [|apply union_none_r]. destruct (Hag []) as [_ H3]. specialize (H3 eq_refl).
      pose proof (wf_lookup _ _ _ Wi E) as Wg.
      assert (g = FEll) by (destruct g; simpl in *; congruence || contradiction). subst g.
      intros p. simpl. rewrite covers_FEll, touches_FEll. auto.
    + apply union_none_l.
Qed.

Lemma merge_all_ok d k : well_formed (FDict d) ->
  (forall p, covers (FDict d) p = true -> touches (FDict d) p = false) ->
  exists o, merge_all_value d k = Ok o /\ wfo o /\
    forall r, cov o r = covers (FDict d) (k :: r) /\ tou o r = touches (FDict d) (k :: r).
Proof.
  intros W H. unfold merge_all_value.
  assert (Hs : forall r, covers (FDict d) (k :: r) = cov (lookup k d) r || cov (lookup ALL d) r /\
                         touches (FDict d) (k :: r) = tou (lookup k d) r || tou (lookup ALL d) r).
  { intros r. rewrite covers_step, touches_step by discriminate. auto. }
  assert (Hag : agree (lookup k d) (lookup ALL d)).
  { intros p. specialize (H (k :: p)). destruct (Hs p) as [H1 H2]. rewrite H1, H2 in H. split; intros E; rewrite E in H.
    - specialize (H eq_refl). apply orb_false_iff in H. tauto.
    - rewrite orb_true_r in H. specialize (H eq_refl). apply orb_false_iff in H. tauto. }
  destruct (lookup k d) as [iv|] eqn:Ei; [|exists (lookup ALL d); split; [reflexivity|]; split].
  - pose proof (wf_lookup _ _ _ W Ei) as Wi. destruct (lookup ALL d) as [av|] eqn:Ea.
    + pose proof (wf_lookup _ _ _ W Ea) as Wa. destruct (is_ell iv) eqn:Eie; cbn [orb].
      * destruct iv; try discriminate. exists (Some FEll). split; [reflexivity|]. split; [exact I|].
        intros r. destruct (Hs r) as [H1 H2]. rewrite H1, H2. cbn [cov tou]. rewrite covers_FEll, touches_FEll.
        destruct (Hag []) as [H3 _]. specialize (H3 eq_refl). simpl in H3.
        assert (av = FEll) by (destruct av; simpl in *; congruence || contradiction). subst av.
        rewrite touches_FEll. auto.
      * assert (Niv : iv <> FEll) by (intros ->; discriminate).
        destruct (is_ell av) eqn:Eae.
        -- exfalso. destruct av; try discriminate. destruct (Hag []) as [_ H3]. specialize (H3 eq_refl). cbn [tou] in H3.
           rewrite wf_nonell_touches in H3 by assumption. discriminate.
        -- assert (Nav : av <> FEll) by (intros ->; discriminate).
           destruct (as_dict_ok iv Wi Niv) as (ivd & D1 & D2 & D3). rewrite D1.
           destruct (merge_ok av ivd Wa Nav D2) as (m & M1 & M2 & M3).
           { intros x. rewrite D3. apply agree_entries; assumption. }
           rewrite M1. exists (Some (FDict m)). split; [reflexivity|]. split; [assumption|]. intros r.
           destruct (Hs r) as [H1 H2]. rewrite H1, H2.
           apply (union_of_entries m iv av); try assumption. intros x. rewrite <- D3. apply M3.
    + exists (Some iv). split; [reflexivity|]. split; [assumption|]. intros r. destruct (Hs r) as [H1 H2].
      rewrite H1, H2. simpl. rewrite !orb_false_r. auto.
  - destruct (lookup ALL d) eqn:E; [|exact I]. eapply wf_lookup; eauto.
  - intros r. destruct (Hs r) as [H1 H2]. rewrite H1, H2. simpl. auto.
Qed.

(** The exclude phase, in terms of paths. *)
Lemma exclude_phase_ok k exc : wf_top exc -> no_conflict exc ->
  match exclude_phase k exc with
  | Ok None => forall r, excluded exc (k :: r) = true
  | Ok (Some e) => wf_top e /\ no_conflict e /\
                   (forall r, excluded e r = excluded exc (k :: r)) /\ excluded exc [k] = false /\
                   (is_some e = match exc with Some g => touches g [k] | None => false end)
  | _ => False
  end.
Proof.
  destruct exc as [f|]; [|simpl; repeat split; intros; auto].
  intros [W N] Hc. destruct f; simpl in W; try contradiction; try congruence.
  - cbn [exclude_phase]. destruct (merge_all_ok d k W Hc) as (o & O1 & O2 & O3). rewrite O1.
    destruct o as [g|].
    + destruct (is_ell g) eqn:Eg.
      * destruct g; try discriminate. intros r. destruct (O3 r) as [H _]. simpl in *. rewrite <- H. apply covers_FEll.
      * assert (Ng : g <> FEll) by (intros ->; discriminate). split; [split; assumption|]. split.
        { intros p Hp. destruct (O3 p) as [H1 H2]. cbn [cov tou] in H1, H2. rewrite H2. apply Hc. rewrite <- H1. assumption. }
        split; [intros r; destruct (O3 r) as [H _]; simpl in *; assumption|].
        destruct (O3 []) as [H1 H2]. cbn [cov tou excluded] in *. rewrite <- H1, <- H2. 
        rewrite wf_nonell_touches by assumption. split; [|reflexivity]. destruct g; simpl in *; congruence || contradiction.
    + split; [exact I|]. split; [exact I|]. split; [intros r; destruct (O3 r) as [H _]; simpl in *; assumption|].
      destruct (O3 []) as [H1 H2]. cbn [cov tou excluded] in *. rewrite <- H1, <- H2. auto.
  - cbn [exclude_phase]. destruct (mem k l || mem ALL l) eqn:E.
    + intros r. simpl. assumption.
    + split; [exact I|]. split; [exact I|]. split; [intros r; simpl; symmetry; assumption|]. simpl. auto.
Qed.

Lemma filter_any_ok k inc exc : wf_top inc -> no_conflict inc -> wf_top exc -> no_conflict exc ->
  match filter any_filter k inc exc with
  | Ok None => forall r, included inc (k :: r) && negb (excluded exc (k :: r)) = false
  | Ok (Some (i, e)) => wf_top i /\ no_conflict i /\ wf_top e /\ no_conflict e /\
                        included inc [k] && negb (excluded exc [k]) = true /\
                        forall r, included i r = included inc (k :: r) /\ excluded e r = excluded exc (k :: r)
  | _ => False
  end.
Proof.
  intros Wi Ci We Ce. unfold filter. pose proof (exclude_phase_ok k exc We Ce) as H.
  destruct (exclude_phase k exc) as [[e|]| |]; try contradiction.
  2: { intros r. rewrite H. apply andb_false_r. }
  destruct H as (H1 & H2 & H3 & H4 & H5).
  assert (Htail : filter_tail any_filter k e = Some (None, e)) by (destruct e; reflexivity).
  cbv zeta. rewrite Htail. clear Htail.
  destruct inc as [f|].
  2: { split; [exact I|]. split; [exact I|]. split; [assumption|]. split; [assumption|]. rewrite H4. split; [reflexivity|].
       intros r. split; [reflexivity|apply H3]. }
  destruct Wi as [W N]. destruct f; simpl in W; try contradiction; try congruence.
  - destruct (merge_all_ok d k W Ci) as (o & O1 & O2 & O3). rewrite O1. destruct o as [g|].
    + destruct (is_ell g) eqn:Eg.
      * destruct g; try discriminate. split; [exact I|]. split; [exact I|]. split; [assumption|]. split; [assumption|].
        rewrite H4. split.
        { destruct (O3 []) as [H _]. cbn [included]. cbn [cov] in H. rewrite <- H. reflexivity. }
        intros r. destruct (O3 r) as [H _]. split; [|apply H3]. cbn [included]. cbn [cov] in H. rewrite <- H, covers_FEll. reflexivity.
      * assert (Ng : g <> FEll) by (intros ->; discriminate). split; [split; assumption|]. split.
        { intros p Hp. destruct (O3 p) as [A1 A2]. cbn [cov tou] in A1, A2. rewrite A2. apply Ci. rewrite <- A1. assumption. }
        split; [assumption|]. split; [assumption|]. rewrite H4. split.
        { destruct (O3 []) as [A1 A2]. cbn [included]. cbn [cov tou] in A1, A2. rewrite <- A1, <- A2.
          rewrite (wf_nonell_touches g) by assumption. rewrite orb_true_r. reflexivity. }
        intros r. split; [|apply H3]. destruct (O3 r) as [A1 A2]. cbn [included]. cbn [cov tou] in A1, A2. rewrite A1, A2. reflexivity.
    + cbn [explicit_include any_filter sf_include]. intros r. destruct (O3 r) as [A1 A2]. cbn [included]. cbn [cov tou] in A1, A2.
      rewrite <- A1, <- A2. reflexivity.
  - destruct (mem k l || mem ALL l) eqn:E.
    + split; [exact I|]. split; [exact I|]. split; [assumption|]. split; [assumption|]. rewrite H4. simpl. rewrite E. simpl.
      split; [reflexivity|]. intros r. split; [reflexivity|]. apply H3.
    + cbn [explicit_include any_filter sf_include]. intros r. simpl. rewrite E. reflexivity.
Qed.

Lemma included_nil inc : wf_top inc -> included inc [] = true.
Proof.
  destruct inc as [f|]; [|reflexivity]. intros [W N]. cbn [included]. rewrite wf_nonell_touches by assumption. apply orb_true_r.
Qed.
Lemma excluded_nil exc : wf_top exc -> excluded exc [] = false.
Proof.
  destruct exc as [f|]; [|reflexivity]. intros [W N]. destruct f; simpl in *; congruence || reflexivity || contradiction.
Qed.

Lemma kept_paths : forall p inc exc, wf_top inc -> no_conflict inc -> wf_top exc -> no_conflict exc ->
  kept inc exc p = Ok (included inc p && negb (excluded exc p)).
Proof.
  induction p as [|k r IH]; intros inc exc Wi Ci We Ce; cbn [kept].
  - rewrite included_nil, excluded_nil by assumption. reflexivity.
  - pose proof (filter_any_ok k inc exc Wi Ci We Ce) as H.
    destruct (filter any_filter k inc exc) as [[[i e]|]| |]; try contradiction.
    + destruct H as (H1 & H2 & H3 & H4 & H5 & H6). rewrite IH by assumption. destruct (H6 r) as [A1 A2]. rewrite A1, A2. reflexivity.
    + rewrite H. reflexivity.
Qed.

Lemma filter_decision sf k inc exc : wf_top inc -> no_conflict inc -> wf_top exc -> no_conflict exc ->
  exists o, filter sf k inc exc = Ok o /\
    is_some o =
      negb (excluded exc [k]) &&
      (match inc with Some f => included (Some f) [k] | None => false end ||
       (match inc with Some _ => explicit_include sf k | None => true end &&
        (default_filter sf k || match exc with Some g => touches g [k] | None => false end))).
Proof.
  intros Wi Ci We Ce. unfold filter. pose proof (exclude_phase_ok k exc We Ce) as H.
  destruct (exclude_phase k exc) as [[e|]| |]; try contradiction.
  2: { exists None. split; [reflexivity|]. rewrite H. reflexivity. }
  destruct H as (H1 & H2 & H3 & H4 & H5). rewrite H4, <- H5. cbn [negb andb]. cbv zeta.
  assert (Hs : is_some (filter_tail sf k e) = default_filter sf k || is_some e).
  { destruct e; simpl; [rewrite orb_true_r; reflexivity|]. destruct (default_filter sf k); reflexivity. }
  set (o := filter_tail sf k e) in *.
  destruct inc as [f|]; [|exists o; split; [reflexivity|exact Hs]].
  destruct Wi as [W N]. destruct f; simpl in W; try contradiction; try congruence.
  - destruct (merge_all_ok d k W Ci) as (q & O1 & O2 & O3). rewrite O1. destruct (O3 []) as [A1 A2].
    cbn [included]. rewrite <- A1, <- A2. destruct q as [g|].
    + eexists. split; [reflexivity|]. simpl. destruct g; simpl in *; try contradiction; reflexivity.
    + cbn [cov tou orb]. destruct (explicit_include sf k); [exists o; split; [reflexivity|exact Hs]|].
      exists None. split; reflexivity.
  - cbn [included]. simpl. destruct (mem k l || mem ALL l).
    + eexists; split; reflexivity.
    + simpl. destruct (explicit_include sf k); [exists o; split; [reflexivity|exact Hs]|]. exists None. split; reflexivity.
Qed.

(** ** Negative indices *)
Open Scope Z_scope.

Lemma mod_names n k i : 0 < n -> - n <= k < n -> 0 <= i < n -> (k mod n = i <-> names_item n k i).
Proof.
  intros Hn Hk Hi. unfold names_item. destruct (Z.le_gt_cases 0 k).
  - rewrite Z.mod_small by lia. lia.
  - replace (k mod n) with (n + k); [lia|]. apply Z.mod_unique with (q := -1); lia.
Qed.

Lemma map_elems_spec n l : 0 < n -> Forall (in_range n) l ->
  exists l', map_elems (Some n) l = Ok l' /\
    (forall i, 0 <= i < n -> (In (KInt i) l' <-> exists k, In (KInt k) l /\ names_item n k i)) /\
    (forall s, In (KStr s) l' <-> In (KStr s) l).
Proof.
  intros Hn. induction 1 as [|x l Hx Hl IH].
  - exists []. split; [reflexivity|]. split; [intros i _; split; [intros [] | intros (k & [] & _)] | reflexivity].
  - destruct IH as (l' & E & H1 & H2). cbn [map_elems]. rewrite E. unfold map_negative_index.
    assert (En : (n =? 0) = false) by (apply Z.eqb_neq; lia).
    set (k' := match x with KInt z => KInt (z mod n) | KStr _ => x end).
    exists (if mem k' l' then l' else k' :: l'). split; [destruct x; rewrite ?En; reflexivity|].
    assert (Hin : forall y, In y (if mem k' l' then l' else k' :: l') <-> y = k' \/ In y l').
    { intros y. destruct (mem k' l') eqn:M; [|simpl; intuition congruence]. apply mem_In in M. split; [auto|intros [->|?]; auto]. }
    split.
    + intros i Hi. rewrite Hin, H1 by assumption. split.
      * intros [H|(k & Hk & Hn')]; [|exists k; simpl; auto]. unfold k' in H. destruct x as [z|s]; [|discriminate].
        injection H as H. exists z. split; [left; reflexivity|]. simpl in Hx. apply mod_names; auto.
      * intros (k & [->|Hk] & Hn'); [|eauto]. left. unfold k'. simpl in Hx. apply mod_names in Hn'; auto. congruence.
    + intros s. rewrite Hin, H2. simpl. unfold k'. destruct x; split; intros [H|H]; auto; try discriminate.
Qed.

Lemma map_keys_spec n d : 0 < n -> Forall (in_range n) (map fst d) -> NoDup (map fst d) ->
  (forall i a b, 0 <= i < n -> In (KInt a) (map fst d) -> In (KInt b) (map fst d) ->
     names_item n a i -> names_item n b i -> a = b) ->
  forall acc, (forall x, In x (map fst acc) -> forall k, In k (map fst d) ->
                 map_negative_index k (Some n) <> Ok x) ->
  exists d', map_keys (Some n) d acc = Ok d' /\
    forall i, 0 <= i < n ->
      (forall k v, In (KInt k, v) d -> names_item n k i -> lookup (KInt i) d' = Some v) /\
      ((forall k, In (KInt k) (map fst d) -> ~ names_item n k i) -> lookup (KInt i) d' = lookup (KInt i) acc).
Proof.
  intros Hn. assert (En : (n =? 0) = false) by (apply Z.eqb_neq; lia).
  induction d as [|[k v] d IH]; intros Hr Hnd Hu acc Hacc.
  - exists acc. split; [reflexivity|]. intros i Hi. split; [intros ? ? []|reflexivity].
  - simpl in Hr, Hnd. inversion Hr as [|? ? Hk Hr']; subst. apply NoDup_cons_iff in Hnd as [Hnk Hnd].
    cbn [map_keys]. set (k' := match k with KInt z => KInt (z mod n) | KStr _ => k end).
    assert (Ek : map_negative_index k (Some n) = Ok k') by (unfold map_negative_index, k'; destruct k; rewrite ?En; reflexivity).
    rewrite Ek.
    assert (Hmod : forall z, - n <= z < n -> names_item n z (z mod n)).
    { intros z Hz. apply mod_names; try assumption; [|reflexivity]. apply Z.mod_pos_bound; lia. }
    destruct (IH Hr' Hnd) with (acc := set_item k' v acc) as (d' & E & H).
    { intros i a b Hi Ha Hb. apply (Hu i); auto; simpl; auto. }
    { intros x Hx k2 Hk2. 
      assert (Hx' : x = k' \/ In x (map fst acc)).
      { clear -Hx. induction acc as [|[a b] acc IHa]; simpl in *; [destruct Hx as [<-|[]]; auto|].
        destruct (key_eqb k' a) eqn:Ea; simpl in *; [tauto|]. destruct Hx as [<-|Hx]; [auto|]. destruct (IHa Hx); auto. }
      destruct Hx' as [->|Hx']; [|apply (Hacc x Hx'); simpl; auto].
      intros Hbad. unfold map_negative_index in Hbad. unfold k' in Hbad. destruct k2 as [z2|s2], k as [z|s]; rewrite ?En in Hbad; try discriminate.
      - injection Hbad as Hbad. apply Hnk. replace z with z2; [assumption|].
        rewrite Forall_forall in Hr'. pose proof (Hr' _ Hk2) as Hz2. simpl in Hz2, Hk.
        assert (N1 : names_item n z2 (z mod n)) by (rewrite <- Hbad; apply Hmod; lia).
        assert (N2 : names_item n z (z mod n)) by (apply Hmod; lia).
        assert (B : 0 <= z mod n < n) by (apply Z.mod_pos_bound; lia).
        apply (Hu (z mod n)); simpl; auto.
      - injection Hbad as ->. contradiction. }
    exists d'. split; [assumption|]. intros i Hi. destruct (H i Hi) as [H1 H2]. split.
    + intros z w [Hzw|Hzw] Hnm.
      * injection Hzw as -> ->. rewrite H2.
        { rewrite lookup_set. unfold k'. simpl in Hk. apply mod_names in Hnm; try assumption. rewrite Hnm, key_eqb_refl. reflexivity. }
        intros z2 Hz2 Hnm2. apply Hnk. replace z with z2; [assumption|]. apply (Hu i); simpl; auto.
      * eapply H1; eauto.
    + intros Hno. rewrite H2; [|intros z Hz; apply Hno; simpl; auto]. rewrite lookup_set.
      destruct (key_eqb (KInt i) k') eqn:Ei; [|reflexivity]. apply key_eqb_eq in Ei. exfalso.
      unfold k' in Ei. destruct k as [z|s]; [|discriminate]. injection Ei as ->. apply (Hno z); simpl; auto.
Qed.

Lemma index_exclude_set n l i sf : 0 < n -> Forall (in_range n) l -> 0 <= i < n -> sf = any_filter ->
  (index_filter sf i None (Some (FSet l)) (Some n) = Ok None <->
   (exists k, In (KInt k) l /\ names_item n k i) \/ In ALL l).
Proof.
  intros Hn Hl Hi ->. destruct (map_elems_spec n l Hn Hl) as (l' & E & H1 & H2).
  unfold index_filter. cbn [map_opt map_negative_indices]. rewrite E. unfold filter. cbn [exclude_phase].
  rewrite <- (H1 i Hi). assert (HA : In ALL l' <-> In ALL l) by apply H2. rewrite <- HA.
  destruct (mem (KInt i) l' || mem ALL l') eqn:M.
  - split; [intros _|reflexivity]. apply orb_true_iff in M as [M|M]; apply mem_In in M; auto.
  - split; [discriminate|]. intros H. apply orb_false_iff in M as [M1 M2].
    destruct H as [H|H]; apply mem_In in H; congruence.
Qed.

Lemma index_include_set n l i sf : 0 < n -> Forall (in_range n) l -> 0 <= i < n -> sf = any_filter ->
  (index_filter sf i (Some (FSet l)) None (Some n) = Ok (Some (None, None)) <->
   (exists k, In (KInt k) l /\ names_item n k i) \/ In ALL l) /\
  (index_filter sf i (Some (FSet l)) None (Some n) = Ok None <->
   ~ ((exists k, In (KInt k) l /\ names_item n k i) \/ In ALL l)).
Proof.
  intros Hn Hl Hi ->. destruct (map_elems_spec n l Hn Hl) as (l' & E & H1 & H2).
  unfold index_filter. cbn [map_opt map_negative_indices]. rewrite E. unfold filter. cbn [exclude_phase].
  rewrite <- (H1 i Hi). assert (HA : In ALL l' <-> In ALL l) by apply H2. rewrite <- HA.
  destruct (mem (KInt i) l' || mem ALL l') eqn:M.
  - apply orb_true_iff in M. rewrite !mem_In in M. split; split; try tauto; try discriminate.
  - apply orb_false_iff in M as [M1 M2]. simpl.
    assert (~ (In (KInt i) l' \/ In ALL l')) by (intros [H|H]; apply mem_In in H; congruence).
    split; split; try tauto; try discriminate.
Qed.

Lemma map_keys_str n d s : 0 < n -> NoDup (map fst d) -> forall acc d', map_keys (Some n) d acc = Ok d' ->
  lookup (KStr s) d' = match lookup (KStr s) d with Some v => Some v | None => lookup (KStr s) acc end.
Proof.
  intros Hn. assert (En : (n =? 0) = false) by (apply Z.eqb_neq; lia).
  induction d as [|[k v] d IH]; intros Hnd acc d' H; cbn [map_keys] in H.
  - injection H as <-. reflexivity.
  - simpl in Hnd. apply NoDup_cons_iff in Hnd as [Hk Hnd]. apply lookup_None in Hk.
    unfold map_negative_index in H. destruct k as [z|t]; rewrite ?En in H; rewrite (IH Hnd _ _ H), lookup_set; simpl.
    + reflexivity.
    + destruct (str_eqb s t) eqn:E; [|reflexivity]. apply str_eqb_eq in E. subst t. rewrite Hk. reflexivity.
Qed.

Lemma index_exclude_dict n d i : 0 < n -> Forall (in_range n) (map fst d) -> NoDup (map fst d) -> ~ In ALL (map fst d) ->
  (forall i a b, 0 <= i < n -> In (KInt a) (map fst d) -> In (KInt b) (map fst d) ->
     names_item n a i -> names_item n b i -> a = b) -> 0 <= i < n ->
  (forall k v, In (KInt k, v) d -> names_item n k i ->
     index_filter any_filter i None (Some (FDict d)) (Some n) = Ok (if is_ell v then None else Some (None, Some v))) /\
  ((forall k, In (KInt k) (map fst d) -> ~ names_item n k i) ->
     index_filter any_filter i None (Some (FDict d)) (Some n) = Ok (Some (None, None))).
Proof.
  intros Hn Hr Hnd HA Hu Hi. destruct (map_keys_spec n d Hn Hr Hnd Hu []) as (d' & E & H); [intros x []|].
  pose proof (map_keys_str n d (lit "__all__") Hn Hnd [] d' E) as Ea. apply lookup_None in HA. fold ALL in Ea. rewrite HA in Ea. simpl in Ea.
  destruct (H i Hi) as [H1 H2].
  unfold index_filter. cbn [map_opt map_negative_indices]. rewrite E. unfold filter. cbn [exclude_phase].
  unfold merge_all_value. rewrite Ea. split.
  - intros k v Hin Hnm. rewrite (H1 k v Hin Hnm). destruct (is_ell v); reflexivity.
  - intros Hno. rewrite (H2 Hno). reflexivity.
Qed.

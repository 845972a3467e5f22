(** Lemmas about key lookup. *)
From Coq Require Import List NArith ZArith Bool Lia.
From Verif Require Import Base Float64 Values VState LookupKey LookupKeySpec.
Import ListNotations.
Open Scope nat_scope.

(** * One step *)
Lemma nth_neg_spec {A} (l : list A) n x : n <> 0 ->
  (nth_neg l n = Some x <-> exists pre post, l = pre ++ x :: post /\ n = S (length post)).
Proof.
  intros Hn. unfold nth_neg. destruct (Nat.leb_spec n (length l)).
  - split.
    + intros E. apply nth_error_split in E. destruct E as (pre & post & -> & Lp). exists pre, post. split; [reflexivity|].
      rewrite app_length in *. cbn [length] in *. lia.
    + intros (pre & post & -> & ->). rewrite app_length in *. cbn [length] in *.
      replace (length pre + S (length post) - S (length post)) with (length pre) by lia.
      rewrite nth_error_app2, Nat.sub_diag by lia. reflexivity.
  - split; [discriminate|]. intros (pre & post & -> & ->). rewrite app_length in *. cbn [length] in *. lia.
Qed.
Lemma nth_pos_spec {A} (l : list A) n x : nth_pos l n = Some x <-> exists pre post, l = pre ++ x :: post /\ n = length pre.
Proof.
  unfold nth_pos. split.
  - intros E. apply nth_error_split in E. destruct E as (pre & post & -> & <-). eauto.
  - intros (pre & post & -> & ->). rewrite nth_error_app2, Nat.sub_diag by lia. reflexivity.
Qed.

Definition seq_get {A} (l : list A) (i : path_item) : option A :=
  match i with PiS _ => None | PiPos n => nth_pos l n | PiNeg n => nth_neg l n end.
Lemma seq_get_spec {A} (l : list A) i x : i <> PiNeg 0 -> (seq_get l i = Some x <-> seq_at l i x).
Proof.
  intros Hi. destruct i as [k|n|n]; cbn [seq_get].
  - split; [discriminate|]. intros H; inversion H.
  - rewrite nth_pos_spec. split; [intros (pre & post & -> & ->); econstructor; reflexivity|]. intros H; inversion H; subst; eauto.
  - rewrite nth_neg_spec by congruence. split; [intros (pre & post & -> & ->); eapply at_back; reflexivity|]. intros H; inversion H; subst; eauto.
Qed.

Lemma py_get_item_spec i : i <> PiNeg 0 -> forall v w, py_get_item v i = Some w <-> py_step v i w.
Proof.
  intros Hi. induction v; intros w; cbn [py_get_item].
  all: try (split; [discriminate|intros H; inversion H; fail]).
  - change (match i with PiS _ => None | PiPos n => option_map (fun x => PInt (Z.of_N x)) (nth_pos b n) | PiNeg n => option_map (fun x => PInt (Z.of_N x)) (nth_neg b n) end = Some w <-> py_step (PBytes b) i w).
    assert (E : match i with PiS _ => None | PiPos n => option_map (fun x => PInt (Z.of_N x)) (nth_pos b n) | PiNeg n => option_map (fun x => PInt (Z.of_N x)) (nth_neg b n) end = option_map (fun x => PInt (Z.of_N x)) (seq_get b i)) by (destruct i; reflexivity).
    rewrite E. split.
    + destruct (seq_get b i) eqn:G; [|discriminate]. intros H. injection H as <-. constructor. apply seq_get_spec; assumption.
    + intros H. inversion H; subst. match goal with S : seq_at _ _ _ |- _ => apply seq_get_spec in S; [rewrite S; reflexivity|assumption] end.
  - change (seq_get l i = Some w <-> py_step (PList l) i w). rewrite seq_get_spec by assumption. split; [constructor; assumption|]. intros H; inversion H; assumption.
  - change (seq_get l i = Some w <-> py_step (PTuple l) i w). rewrite seq_get_spec by assumption. split; [constructor; assumption|]. intros H; inversion H; assumption.
  - split; [constructor; assumption|]. intros H; inversion H; assumption.
  - rewrite IHv. split; [constructor; assumption|]. intros H; inversion H; assumption.
Qed.

Lemma assoc_rev_last {B} (k : str) (l : list (str * B)) v :
  assoc k (rev l) = Some v <-> exists pre post, l = pre ++ (k, v) :: post /\ ~ In k (map fst post).
Proof.
  induction l as [|[k0 v0] l IH] using rev_ind.
  - split; [discriminate|]. intros (pre & post & H & _). destruct pre; discriminate.
  - rewrite rev_app_distr. cbn [rev app assoc]. destruct (str_eqb k k0) eqn:E.
    + apply str_eqb_eq in E. subst k0. split.
      * intros H. injection H as <-. exists l, []. split; [reflexivity|intros []].
      * intros (pre & post & H & N). destruct post as [|a post] using rev_ind.
        -- apply app_inj_tail in H. destruct H as [_ H]. congruence.
        -- clear IHpost. rewrite app_comm_cons, app_assoc in H. apply app_inj_tail in H. destruct H as [_ <-].
           exfalso. apply N. rewrite map_app. apply in_or_app. right. left. reflexivity.
    + apply str_eqb_neq in E. rewrite IH. split.
      * intros (pre & post & -> & N). exists pre, (post ++ [(k0, v0)]). rewrite <- app_assoc. split; [reflexivity|].
        rewrite map_app. intros Hi. apply in_app_or in Hi. destruct Hi as [Hi|[Hi|[]]]; [contradiction|]. cbn in Hi. congruence.
      * intros (pre & post & H & N). destruct post as [|a post] using rev_ind.
        -- apply app_inj_tail in H. destruct H as [_ H]. injection H as -> ->. congruence.
        -- clear IHpost. rewrite app_comm_cons, app_assoc in H. apply app_inj_tail in H. destruct H as [-> <-].
           exists pre, post. split; [reflexivity|]. intros Hi. apply N. rewrite map_app. apply in_or_app. left. assumption.
Qed.

Lemma json_get_item_spec i : i <> PiNeg 0 -> forall v w, json_get_item v i = Some w <-> json_step v i w.
Proof.
  intros Hi v w. destruct v; cbn [json_get_item].
  all: try (split; [discriminate|intros H; inversion H; fail]).
  - change (match i with PiPos n => nth_error l n | PiNeg n => if Nat.leb n (length l) then nth_error l (length l - n) else None | PiS _ => None end = Some w <-> json_step (JArr l) i w).
    assert (E : match i with PiPos n => nth_error l n | PiNeg n => if Nat.leb n (length l) then nth_error l (length l - n) else None | PiS _ => None end = seq_get l i) by (destruct i; reflexivity).
    rewrite E, seq_get_spec by assumption. split; [constructor; assumption|]. intros H; inversion H; assumption.
  - destruct i as [k|n|n]; [|split; [discriminate|intros H; inversion H]..].
    unfold json_last. rewrite assoc_rev_last. split.
    + intros (pre & post & -> & N). constructor; assumption.
    + intros H. inversion H; subst. eauto.
Qed.

(** * Paths *)
Lemma try_fold_spec {V} (get : V -> path_item -> option V) (step : V -> path_item -> V -> Prop) :
  (forall i, i <> PiNeg 0 -> forall v w, get v i = Some w <-> step v i w) ->
  forall rest, Forall (fun i => i <> PiNeg 0) rest -> forall v w, try_fold get v rest = Some w <-> follow step v rest w.
Proof.
  intros G. induction rest as [|i rest IH]; intros F v w; cbn [try_fold].
  - split; [intros H; injection H as ->; constructor|]. intros H; inversion H; reflexivity.
  - inversion F; subst. split.
    + destruct (get v i) as [v1|] eqn:E; [|discriminate]. intros H. econstructor; [apply G; eassumption|]. apply IH; assumption.
    + intros H. inversion H; subst. match goal with S : step v i _ |- _ => apply G in S; [rewrite S|assumption] end. apply IH; assumption.
Qed.

Lemma first_path_spec {V} (first : str -> option V) (get : V -> path_item -> option V) (resolves : lookup_path -> V -> Prop) ps :
  (forall p, In p ps -> forall v, (exists v0, first (lp_first p) = Some v0 /\ try_fold get v0 (lp_rest p) = Some v) <-> resolves p v) ->
  forall p v, first_path first get ps = Some (p, v) <-> first_resolving resolves ps p v.
Proof.
  induction ps as [|q ps IH]; intros R p v; cbn [first_path].
  - split; [discriminate|]. intros (pre & post & H & _). destruct pre; discriminate.
  - assert (IH' := IH (fun p' I => R p' (or_intror I))). clear IH.
    assert (Rq := R q (or_introl eq_refl)).
    destruct (match first (lp_first q) with None => None | Some v0 => try_fold get v0 (lp_rest q) end) as [w|] eqn:E.
    + assert (X : match first (lp_first q) with None => first_path first get ps | Some v0 => match try_fold get v0 (lp_rest q) with Some v1 => Some (q, v1) | None => first_path first get ps end end = Some (q, w)).
      { destruct (first (lp_first q)) as [v0|]; [|discriminate]. rewrite E. reflexivity. }
      rewrite X. assert (Rw : resolves q w) by (apply Rq; destruct (first (lp_first q)) as [v0|]; [eauto|discriminate]).
      split.
      * intros H. injection H as <- <-. exists [], ps. split; [reflexivity|]. split; [assumption|]. intros ? [].
      * intros (pre & post & H & Rp & N). destruct pre as [|a pre].
        -- injection H as <- ->. apply Rq in Rp. destruct Rp as (v0 & F0 & F1). rewrite F0, F1 in E. congruence.
        -- injection H as <- ->. exfalso. eapply N; [left; reflexivity|eassumption].
    + assert (X : match first (lp_first q) with None => first_path first get ps | Some v0 => match try_fold get v0 (lp_rest q) with Some v1 => Some (q, v1) | None => first_path first get ps end end = first_path first get ps).
      { destruct (first (lp_first q)) as [v0|]; [|reflexivity]. rewrite E. reflexivity. }
      rewrite X. assert (Nq : forall w, ~ resolves q w). { intros w Hw. apply Rq in Hw. destruct Hw as (v0 & F0 & F1). rewrite F0, F1 in E. discriminate. }
      rewrite IH'. split.
      * intros (pre & post & -> & Rp & N). exists (q :: pre), post. split; [reflexivity|]. split; [assumption|]. intros q' [<-|I]; auto.
      * intros (pre & post & H & Rp & N). destruct pre as [|a pre].
        -- injection H as <- ->. exfalso. eapply Nq; eassumption.
        -- injection H as <- ->. exists pre, post. split; [reflexivity|]. split; [assumption|]. intros q' I. apply N. right; assumption.
Qed.

(** The three forms of key as one search. *)
Lemma py_get_dict_item_paths k d : built_key k ->
  py_get_dict_item k d = first_path (fun s => dict_get (PStr s) d) py_get_item (paths_of k).
Proof.
  intros [_ B]. destruct k as [p|p q|ps]; cbn [py_get_dict_item paths_of first_path].
  - rewrite B. cbn [try_fold]. destruct (dict_get _ d); reflexivity.
  - destruct B as [B1 B2]. rewrite B1, B2. cbn [try_fold]. destruct (dict_get _ d); [reflexivity|]. destruct (dict_get _ d); reflexivity.
  - reflexivity.
Qed.
Lemma json_get_paths k l : built_key k ->
  json_get k l = first_path (fun s => json_last s l) json_get_item (paths_of k).
Proof.
  intros [_ B]. destruct k as [p|p q|ps]; cbn [json_get paths_of first_path].
  - rewrite B. cbn [try_fold]. destruct (json_last _ l); reflexivity.
  - destruct B as [B1 B2]. rewrite B1, B2. cbn [try_fold]. destruct (json_last _ l); [reflexivity|]. destruct (json_last _ l); reflexivity.
  - reflexivity.
Qed.

(** * Python view of JSON *)
Lemma py_eq_str a b : py_eq (PStr a) (PStr b) = str_eqb a b.
Proof. reflexivity. Qed.

Definition str_keys (d : list (pyval * pyval)) : Prop := forall k v, In (k, v) d -> exists s, k = PStr s.
Lemma str_eqb_sym a b : str_eqb a b = str_eqb b a.
Proof. destruct (str_eqb a b) eqn:E; [apply str_eqb_eq in E; subst; symmetry; apply str_eqb_refl|]. destruct (str_eqb b a) eqn:F; [|reflexivity]. apply str_eqb_eq in F. subst. rewrite str_eqb_refl in E. discriminate. Qed.

Lemma dict_get_set_str d s k v : str_keys d ->
  dict_get (PStr s) (dict_set (PStr k) v d) = if str_eqb k s then Some v else dict_get (PStr s) d.
Proof.
  induction d as [|[k0 v0] d IH]; intros K; cbn [dict_set dict_get].
  - rewrite py_eq_str. destruct (str_eqb k s); reflexivity.
  - destruct (K k0 v0 (or_introl eq_refl)) as [t ->]. rewrite !py_eq_str.
    assert (K' : str_keys d) by (intros a b I; eapply K; right; eassumption).
    destruct (str_eqb t k) eqn:E1.
    + apply str_eqb_eq in E1. subst t. cbn [dict_get]. rewrite py_eq_str. destruct (str_eqb k s); reflexivity.
    + cbn [dict_get]. rewrite py_eq_str. destruct (str_eqb t s) eqn:E2.
      * apply str_eqb_eq in E2. subst t. rewrite str_eqb_sym, E1. reflexivity.
      * apply IH; assumption.
Qed.
Lemma str_keys_set d k v : str_keys d -> str_keys (dict_set (PStr k) v d).
Proof.
  induction d as [|[k0 v0] d IH]; intros K a b; cbn [dict_set].
  - intros [H|[]]. injection H as <- _. eauto.
  - destruct (K k0 v0 (or_introl eq_refl)) as [t ->]. rewrite py_eq_str. destruct (str_eqb t k).
    + intros [H|H]; [injection H as <- _; eauto|]. eapply K; right; eassumption.
    + intros [H|H]; [injection H as <- _; eauto|]. eapply IH; [intros ? ? I; eapply K; right; eassumption|eassumption].
Qed.

Definition fill (l : list (str * json)) (d : list (pyval * pyval)) :=
  fold_left (fun d kv => dict_set (PStr (fst kv)) (json_to_py (snd kv)) d) l d.
Lemma json_dict_get l : forall d s, str_keys d ->
  str_keys (fill l d) /\
  dict_get (PStr s) (fill l d) = match assoc s (rev l) with Some j => Some (json_to_py j) | None => dict_get (PStr s) d end.
Proof.
  induction l as [|[k j] l IH] using rev_ind; intros d s K.
  - split; [assumption|reflexivity].
  - unfold fill in *. rewrite fold_left_app. cbn [fold_left fst snd]. destruct (IH d s K) as [K1 G1]. split; [apply str_keys_set; assumption|].
    rewrite dict_get_set_str by assumption. rewrite rev_app_distr. cbn [rev app assoc].
    rewrite str_eqb_sym. destruct (str_eqb s k); [reflexivity|assumption].
Qed.
Lemma json_last_py s l : dict_get (PStr s) (fill l []) = option_map json_to_py (json_last s l).
Proof. destruct (json_dict_get l [] s) as [_ ->]; [intros ? ? []|]. unfold json_last. destruct (assoc s (rev l)); reflexivity. Qed.

Lemma int_not_str n d : str_keys d -> dict_get (PInt n) d = None.
Proof.
  induction d as [|[k v] d IH]; intros K; [reflexivity|]. cbn [dict_get]. destruct (K k v (or_introl eq_refl)) as [t ->].
  cbn [py_eq]. apply IH. intros ? ? I; eapply K; right; eassumption.
Qed.
Lemma nth_error_map' {A B} (f : A -> B) l n : nth_error (map f l) n = option_map f (nth_error l n).
Proof. revert n; induction l as [|a l IH]; intros [|n]; cbn; auto. Qed.

Lemma get_item_json i j : py_get_item (json_to_py j) i = option_map json_to_py (json_get_item j i).
Proof.
  destruct j as [| | | | |l|l]; try (destruct i; reflexivity).
  - cbn [json_to_py py_get_item json_get_item]. destruct i as [k|n|n]; unfold nth_pos, nth_neg; [reflexivity| |].
    + apply nth_error_map'.
    + rewrite map_length. destruct (Nat.leb n (length l)); [apply nth_error_map'|reflexivity].
  - change (json_to_py (JObj l)) with (PDict (fill l [])). cbn [py_get_item json_get_item].
    destruct (json_dict_get l [] [] ltac:(intros ? ? [])) as [K _].
    destruct i as [k|n|n]; cbn [item_key]; [apply json_last_py|apply int_not_str; assumption..].
Qed.
Lemma try_fold_json rest : forall j, try_fold py_get_item (json_to_py j) rest = option_map json_to_py (try_fold json_get_item j rest).
Proof.
  induction rest as [|i rest IH]; intros j; cbn [try_fold]; [reflexivity|].
  rewrite get_item_json. destruct (json_get_item j i) as [j'|]; cbn [option_map]; [apply IH|reflexivity].
Qed.
Lemma first_path_json l ps :
  first_path (fun s => dict_get (PStr s) (fill l [])) py_get_item ps
  = option_map (fun pj => (fst pj, json_to_py (snd pj))) (first_path (fun s => json_last s l) json_get_item ps).
Proof.
  induction ps as [|p ps IH]; cbn [first_path]; [reflexivity|].
  rewrite json_last_py. destruct (json_last (lp_first p) l) as [j|]; cbn [option_map]; [|assumption].
  rewrite try_fold_json. destruct (try_fold json_get_item j (lp_rest p)) as [j'|]; cbn [option_map fst snd]; [reflexivity|assumption].
Qed.

(** * Attributes *)
Section Attrs.
Variable getattr : pyval -> str -> attr_res.

Lemma py_get_attrs_spec v i r : i <> PiNeg 0 -> (py_get_attrs getattr v i = r <-> attr_step getattr v i r).
Proof.
  intros Hi. pose proof (py_get_item_spec i Hi v) as G.
  assert (N : py_get_item v i = None -> forall w, ~ py_step v i w) by (intros E w Hw; apply G in Hw; congruence).
  split.
  - intros <-. destruct i as [k|n|n]; cbn [py_get_attrs].
    + destruct (is_dict v) eqn:D; [|constructor; assumption].
      destruct (py_get_item v (PiS k)) as [w|] eqn:E; [apply as_dict; [assumption|apply G; reflexivity]|apply as_dict_missing; auto].
    + destruct (py_get_item v (PiPos n)) as [w|] eqn:E; [apply as_pos; [discriminate|apply G; reflexivity]|apply as_pos_missing; [discriminate|auto]].
    + destruct (py_get_item v (PiNeg n)) as [w|] eqn:E; [apply as_pos; [discriminate|apply G; reflexivity]|apply as_pos_missing; [discriminate|auto]].
  - intros H. inversion H; subst; cbn [py_get_attrs].
    + rewrite H0. apply G in H1. rewrite H1. reflexivity.
    + rewrite H0. destruct (py_get_item v (PiS k)) eqn:E; [exfalso; eapply H1; apply G; reflexivity|reflexivity].
    + rewrite H0. reflexivity.
    + apply G in H1. destruct i; [exfalso; eapply H0; reflexivity|..]; cbn [py_get_attrs]; rewrite H1; reflexivity.
    + destruct (py_get_item v i) eqn:E; [exfalso; eapply H1; apply G; reflexivity|]. destruct i; [exfalso; eapply H0; reflexivity|..]; cbn [py_get_attrs]; rewrite E; reflexivity.
Qed.

Lemma attrs_fold_spec rest : Forall (fun i => i <> PiNeg 0) rest -> forall v r, attrs_fold getattr v rest = r <-> attr_follow getattr v rest r.
Proof.
  induction rest as [|i rest IH]; intros F v r; cbn [attrs_fold].
  - split; [intros <-; constructor|intros H; inversion H; reflexivity].
  - inversion F; subst. split.
    + intros H. destruct (py_get_attrs getattr v i) as [v1| |e] eqn:E; apply py_get_attrs_spec in E; try assumption.
      * eapply af_cons; [eassumption|]. apply IH; assumption.
      * subst r. eapply af_stop; [assumption|discriminate].
      * subst r. eapply af_stop; [assumption|discriminate].
    + intros H. inversion H; subst.
      * match goal with S : attr_step _ _ _ _ |- _ => apply py_get_attrs_spec in S; [rewrite S|assumption] end. apply IH; assumption.
      * match goal with S : attr_step _ _ _ _ |- _ => apply py_get_attrs_spec in S; [rewrite S|assumption] end. destruct r; congruence.
Qed.

End Attrs.

(** * Building keys *)
Lemma item_from_py_spec a i : item_from_py a = BOk i <-> item_means a i.
Proof.
  destruct a as [s|z|l|]; cbn [item_from_py].
  - split; [intros H; injection H as <-; constructor|intros H; inversion H; reflexivity].
  - destruct ((0 <=? z)%Z && (z <? 2 ^ 64)%Z) eqn:E1.
    + apply andb_true_iff in E1. destruct E1 as [E1 E2]. apply Z.leb_le in E1. apply Z.ltb_lt in E2. split.
      * intros H. injection H as <-. rewrite <- (Z2Nat.id z) at 1 by lia. constructor. lia.
      * intros H. inversion H; subst; [rewrite Nat2Z.id; reflexivity|lia].
    + destruct ((- 2 ^ 63 <=? z)%Z && (z <? 0)%Z) eqn:E2.
      * apply andb_true_iff in E2. destruct E2 as [E2 E3]. apply Z.leb_le in E2. apply Z.ltb_lt in E3. split.
        -- intros H. injection H as <-. replace z with (- Z.of_nat (Z.to_nat (- z)))%Z at 1 by lia. constructor; lia.
        -- intros H. inversion H; subst; [lia|]. f_equal. f_equal. lia.
      * split; [discriminate|]. intros H. inversion H; subst.
        -- apply andb_false_iff in E1. rewrite Z.leb_gt, Z.ltb_ge in E1. lia.
        -- apply andb_false_iff in E2. rewrite Z.leb_gt, Z.ltb_ge in E2. lia.
  - split; [discriminate|intros H; inversion H].
  - split; [discriminate|intros H; inversion H].
Qed.
Lemma collect_spec {A B} (f : A -> build_res B) (R : A -> B -> Prop) :
  (forall a b, f a = BOk b <-> R a b) -> forall l r, collect f l = BOk r <-> Forall2 R l r.
Proof.
  intros F. induction l as [|a l IH]; intros r; cbn [collect].
  - split; [intros H; injection H as <-; constructor|intros H; inversion H; reflexivity].
  - split.
    + destruct (f a) as [b|] eqn:E; [|discriminate]. destruct (collect f l) as [bs|] eqn:C; [|discriminate].
      intros H. injection H as <-. constructor; [apply F; assumption|apply IH; reflexivity].
    + intros H. inversion H; subst. match goal with S : R a _ |- _ => apply F in S; rewrite S end.
      match goal with S : Forall2 R l _ |- _ => apply IH in S; rewrite S end. reflexivity.
Qed.
Lemma path_from_list_spec a p : path_from_list a = BOk p <-> path_means a p.
Proof.
  split.
  - destruct a as [|?|[|[s|?|?|] l]|]; cbn [path_from_list]; try discriminate.
    destruct (collect item_from_py l) eqn:E; [|discriminate]. intros H. injection H as <-. constructor. apply (collect_spec _ _ item_from_py_spec). assumption.
  - intros H. inversion H; subst. cbn [path_from_list]. apply (collect_spec _ _ item_from_py_spec) in H0. rewrite H0. reflexivity.
Qed.
Lemma means_good a p : path_means a p -> good_path p.
Proof.
  intros H. inversion H as [s rest r F]; subst. unfold good_path. cbn [lp_rest]. clear H.
  induction F as [|x y l r' I1 _ IH]; constructor; [inversion I1; congruence|assumption].
Qed.
Lemma key_from_py_ok a alt k : key_from_py a alt = BOk k ->
  built_key k /\ exists ps, alias_means a ps /\
  paths_of k = ps ++ match alt with Some n => [{| lp_first := n; lp_rest := [] |}] | None => [] end.
Proof.
  destruct a as [s|z|l|]; cbn [key_from_py]; try discriminate.
  - intros H. injection H as <-. destruct alt; (split; [split; cbn; repeat constructor|]); exists [{| lp_first := s; lp_rest := [] |}]; (split; [constructor|reflexivity]).
  - set (locs := match l with [] => BErr | _ => _ end). intros H.
    assert (X : forall ps, locs = BOk ps -> ps <> [] /\ Forall good_path ps /\ alias_means (ALi l) ps).
    { intros ps. unfold locs. destruct l as [|a l]; [discriminate|].
      assert (C : collect path_from_list (a :: l) = BOk ps -> ps <> [] /\ Forall good_path ps /\ alias_means (ALi (a :: l)) ps).
      { intros E. apply (collect_spec _ _ path_from_list_spec) in E. split; [inversion E; discriminate|]. split; [|apply am_choices; [discriminate|assumption]].
        clear - E. induction E; constructor; [eapply means_good; eassumption|assumption]. }
      destruct a as [s|z|l'|]; try exact C.
      destruct (path_from_list (ALi (ASt s :: l))) as [p|] eqn:E; [|discriminate]. intros H'. injection H' as <-. apply path_from_list_spec in E.
      split; [discriminate|]. split; [constructor; [eapply means_good; eassumption|constructor]|constructor; assumption]. }
    destruct locs as [ps|]; [|discriminate]. destruct (X ps eq_refl) as (X1 & X2 & X3). injection H as <-. split.
    + split; destruct alt; cbn [paths_of].
      * apply Forall_app. split; [assumption|]. repeat constructor.
      * assumption.
      * destruct ps; [congruence|discriminate].
      * assumption.
    + exists ps. split; [assumption|]. destruct alt; cbn [paths_of]; [reflexivity|symmetry; apply app_nil_r].
Qed.
Lemma key_from_py_total a alt ps : alias_means a ps -> exists k, key_from_py a alt = BOk k.
Proof.
  intros H. inversion H; subst; cbn [key_from_py]; [eauto| |].
  - apply path_from_list_spec in H0. rewrite H0. eauto.
  - apply (collect_spec _ _ path_from_list_spec) in H1. destruct l as [|a l]; [congruence|].
    destruct a as [s|z|l'|]; try (rewrite H1; eauto; fail).
    cbn [collect path_from_list] in H1. discriminate.
Qed.

(** When warnings are recorded. *)
From Coq Require Import List NArith ZArith Bool.
From Verif Require Import Base Float64 Utf8 Decimal Values BytesCodec Filter LookupKey Classes JsonText SerBase Ser SerInd SerSpec SerQuiet.
Import ListNotations.
Open Scope nat_scope.

Lemma silent_bind {A B} (m : M A) (f : A -> M B) : fst m = [] -> (forall a, fst (f a) = []) -> fst (bind m f) = [].
Proof. intros H F. unfold bind. destruct (snd m); cbn; [now rewrite H, F|exact H]. Qed.
Lemma silent_opt {A} (o : option A) : fst (opt o) = [].
Proof. now destruct o. Qed.
Lemma silent_res {A} (o : res A) : fst (res_opt o) = [].
Proof. now destruct o. Qed.
Lemma silent_to_str s : fst (to_str s) = [].
Proof. unfold to_str. now destruct (forallb _ _). Qed.
Lemma silent_put k v d : fst (put k v d) = [].
Proof. unfold put. now destruct (hashable k). Qed.
Lemma silent_new_set l : fst (new_set l) = [].
Proof. unfold new_set. now destruct (forallb _ _). Qed.
Lemma silent_str_key E v : fst (str_key E v) = [].
Proof. unfold str_key. apply silent_bind; [apply silent_opt|reflexivity]. Qed.

Lemma silent_filtered {A} f inc exc len (e : pyval -> option fval -> option fval -> M A) l : forall i,
  Forall (fun v => forall a b, fst (e v a b) = []) l -> fst (filtered f inc exc len e i l) = [].
Proof.
  induction l as [|v l IH]; intros i H; cbn [filtered]; [reflexivity|]. inversion H; subst. apply silent_bind; [apply silent_res|]. intros [[a b]|]; [|now apply IH].
  apply silent_bind; [auto|intros]. apply silent_bind; [now apply IH|reflexivity].
Qed.
Lemma silent_mapM {A B} (e : A -> M B) l : Forall (fun v => fst (e v) = []) l -> fst (mapM e l) = [].
Proof.
  induction 1 as [|v l H F IH]; cbn [mapM]; [reflexivity|]. apply silent_bind; [exact H|intros]. apply silent_bind; [exact IH|reflexivity].
Qed.
Lemma silent_pairs_py f inc exc key e l : 
  Forall (fun kv => fst (key (fst kv)) = [] /\ forall v a b, snd kv = Some v -> fst (e v a b) = []) l -> forall d, fst (pairs_py f inc exc key e l d) = [].
Proof.
  induction 1 as [|[k v] l [H1 H2] F IH]; intros d; cbn [pairs_py]; [reflexivity|]. destruct v as [v|]; [|reflexivity]. unfold opt.
  change (bind (ret v) ?f) with ([] ++ fst (f v), snd (f v)). cbn [app fst]. apply silent_bind; [apply silent_res|]. intros [[a b]|]; [|apply IH].
  apply silent_bind; [exact H1|intros]. apply silent_bind; [now apply H2|intros]. apply silent_bind; [apply silent_put|intros; apply IH].
Qed.
Lemma silent_pairs_js f inc exc key e l : 
  Forall (fun kv => fst (key (fst kv)) = [] /\ forall v a b, snd kv = Some v -> fst (e v a b) = []) l -> fst (pairs_js f inc exc key e l) = [].
Proof.
  induction 1 as [|[k v] l [H1 H2] F IH]; cbn [pairs_js]; [reflexivity|]. destruct v as [v|]; [|reflexivity]. unfold opt.
  change (bind (ret v) ?f) with ([] ++ fst (f v), snd (f v)). cbn [app fst]. apply silent_bind; [apply silent_res|]. intros [[a b]|]; [|apply IH].
  apply silent_bind; [exact H1|intros]. apply silent_bind; [now apply H2|intros]. apply silent_bind; [apply IH|reflexivity].
Qed.
Lemma silent_zip {A} f inc exc len (e : sz -> pyval -> option fval -> option fval -> M A) ss : forall l i,
  Forall2 (fun s v => forall a b, fst (e s v a b) = []) ss l -> fst (zip_items f inc exc len e i ss l) = [].
Proof.
  induction ss as [|s ss IH]; intros l i H; inversion H; subst; cbn [zip_items]; [reflexivity|]. apply silent_bind; [apply silent_res|]. intros [[a b]|]; [|now apply IH].
  apply silent_bind; [auto|intros]. apply silent_bind; [now apply IH|reflexivity].
Qed.

Section Fits.
Variable E : env.
Variable L : level.
Lemma fits_key s v x : is_key s = true -> fits s v = true -> fst (z_key (build E L s) v x) = [].
Proof.
  destruct s; try discriminate; intros _; cbn [fits build]; destruct v; try discriminate; intros _; cbn; try apply silent_str_key; try reflexivity.
  apply silent_opt.
Qed.

Lemma silent_build s : forall v, fits s v = true -> forall inc exc x,
  fst (z_py (build E L s) v inc exc x) = [] /\ fst (z_js (build E L s) v inc exc x) = [].
Proof.
  induction s using ser_ind'; intros u Hw inc exc x; cbn [fits] in Hw; try discriminate; cbn [build].
  - destruct u; try discriminate. now split.
  - destruct u; try discriminate. now split.
  - destruct u; try discriminate. now split.
  - destruct u; try discriminate. now split.
  - destruct u; try discriminate. split; [reflexivity|]. cbn. apply silent_bind; [apply silent_to_str|reflexivity].
  - destruct u; try discriminate. split; cbn; [destruct (x_json x); [|reflexivity]|]; (apply silent_bind; [apply silent_opt|reflexivity]).
  - cbn [nullable_ser simple z_py z_js]. destruct u; try (now split); now apply IHs.
  - now apply IHs.
  - destruct u; try discriminate. rewrite forallb_forall in Hw. split; cbn [list_ser simple z_py z_js down_list base];
      (apply silent_bind; [apply silent_filtered, Forall_forall; intros a I; intros; now apply IHs, Hw|reflexivity]).
  - destruct u; try discriminate. rewrite forallb_forall in Hw. split; cbn [set_ser simple z_py z_js down_set base];
      (apply silent_bind; [apply silent_mapM, Forall_forall; intros a I; now apply IHs, Hw|intros; try reflexivity]).
    destruct (x_json x); [reflexivity|]. apply silent_bind; [apply silent_new_set|reflexivity].
  - destruct u; try discriminate. rewrite forallb_forall in Hw. split; cbn [set_ser simple z_py z_js down_frozenset base];
      (apply silent_bind; [apply silent_mapM, Forall_forall; intros a I; now apply IHs, Hw|intros; try reflexivity]).
    destruct (x_json x); [reflexivity|]. apply silent_bind; [apply silent_new_set|reflexivity].
  - destruct v; [discriminate|]. destruct u as [| | | | | | |l'| | | | |]; try discriminate.
    assert (F2 : Forall2 (fun s v => forall a b y, fst (z_py s v a b y) = [] /\ fst (z_js s v a b y) = []) (map (build E L) l) l').
    { clear - H Hw. revert l' Hw. induction H as [|s l Hs F IH]; intros [|v l'] Hw; try discriminate; cbn [map]; constructor.
      - apply andb_prop in Hw. intros. now apply Hs.
      - apply andb_prop in Hw. now apply IH. }
    assert (LE : length l' = length (map (build E L) l)) by (clear - F2; induction F2; cbn; congruence).
    split; cbn [tuple_ser simple z_py z_js down_tuple base]; (apply silent_bind; [|reflexivity]); unfold tuple_each; cbv zeta; rewrite <- LE, Nat.eqb_refl; cbn [negb];
      rewrite andb_false_r; (apply silent_bind; [apply silent_zip; clear - F2; induction F2; constructor; [intros; now apply H|assumption]|]);
      intros r; rewrite skipn_all; reflexivity.
  - destruct u as [| | | | | | | | | |d| |]; try discriminate. rewrite forallb_forall in Hw.
    assert (Q : forall kv, In kv (items d) -> exists v, snd kv = Some v /\ is_key s1 = true /\ fits s1 (fst kv) = true /\ fits s2 v = true).
    { unfold items. intros kv I. apply in_map_iff in I. destruct I as [[k v] [<- I]]. exists v. specialize (Hw _ I). cbn in Hw. apply andb_prop in Hw. destruct Hw as [Hw A].
      apply andb_prop in Hw. destruct Hw. repeat split; assumption. }
    split; cbn [dict_ser simple z_py z_js down_dict base]; (apply silent_bind; [|reflexivity]).
    + apply silent_pairs_py, Forall_forall. intros kv I. destruct (Q kv I) as (v & S & A & B & C). split; [|rewrite S; intros u0 a b [= <-]; now apply IHs2].
      destruct (x_json x); [apply silent_bind; [now apply fits_key|reflexivity]|]. now apply IHs1.
    + apply silent_pairs_js, Forall_forall. intros kv I. destruct (Q kv I) as (v & S & A & B & C). split; [|rewrite S; intros u0 a b [= <-]; now apply IHs2].
      now apply fits_key.
Qed.

(** An unexpected value is recorded. *)
Lemma loud_bind {A B} w (m : M A) (f : A -> M B) : In w (fst m) -> In w (fst (bind m f)).
Proof. intros H. unfold bind. destruct (snd m); cbn; [apply in_or_app; now left|exact H]. Qed.
Lemma loud_fallback v x : x_check x = CNone -> x_collect x = true -> v <> PNone -> In (WFallback v) (fst (on_fallback v x)).
Proof. intros C W N. unfold on_fallback, register. rewrite C, W. destruct v; cbn; auto. Qed.
Lemma unexpected_loud s v inc exc x : x_check x = CNone -> x_collect x = true -> v <> PNone -> unexpected s v = true ->
  In (WFallback v) (fst (z_py (build E L s) v inc exc x)) /\ In (WFallback v) (fst (z_js (build E L s) v inc exc x)).
Proof.
  intros C W N U.
  assert (FP : In (WFallback v) (fst (fall_py L v inc exc x))) by now apply loud_bind, loud_fallback.
  assert (FJ : In (WFallback v) (fst (fall_js L v inc exc x))) by now apply loud_bind, loud_fallback.
  destruct s; cbn [unexpected] in U; try discriminate; cbn [build];
    destruct v as [| | | | | | | | | | | |c b]; try discriminate U; try (now (split; assumption)); try (now exfalso; apply N);
    destruct b; try discriminate U; split; assumption.
Qed.
End Fits.

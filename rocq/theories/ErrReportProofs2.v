(** Proofs about error messages and reports: messages of known errors, contexts,
    rebuilding. *)
From Coq Require Import List NArith ZArith Bool Lia.
From Verif Require Import Base Float64 Values Decimal VState ErrTable ErrReport ErrReportSpec ErrReportProofs.
Import ListNotations.
Open Scope Z_scope.

(** * Dictionaries with string keys *)
Definition sd (l : list (str * pyval)) : list (pyval * pyval) := map (fun kv => (PStr (fst kv), snd kv)) l.
Lemma str_dict_sd d : str_dict d -> exists l, d = sd l /\ NoDup (map fst l).
Proof.
  intros (names & N & E). revert names N E. induction d as [|[k v] d IH]; intros [|n names] N E; try discriminate.
  - exists []. split; [reflexivity|constructor].
  - cbn [map fst] in E. injection E as E1 E2. inversion N as [|? ? N1 N2]; subst.
    destruct (IH names N2 E2) as (l & -> & L). exists ((n, v) :: l). split; [reflexivity|].
    cbn [map fst]. constructor; [|exact L]. intro I. apply N1.
    assert (F : map fst l = names).
    { clear - E2. revert names E2. induction l as [|[a b] l IH]; intros [|n names] E; try discriminate; [reflexivity|].
      cbn [sd map fst] in *. injection E as E1 E2. subst. f_equal. apply IH. exact E2. }
    rewrite <- F. exact I.
Qed.
Lemma sd_str_dict l : NoDup (map fst l) -> str_dict (sd l).
Proof. intro N. exists (map fst l). split; [exact N|]. unfold sd. rewrite !map_map. reflexivity. Qed.

Fixpoint sset (k : str) (v : pyval) (l : list (str * pyval)) : list (str * pyval) :=
  match l with [] => [(k, v)] | (k', v') :: l' => if str_eqb k' k then (k', v) :: l' else (k', v') :: sset k v l' end.
Fixpoint sget (k : str) (l : list (str * pyval)) : option pyval :=
  match l with [] => None | (k', v) :: l' => if str_eqb k' k then Some v else sget k l' end.
Lemma py_eq_str a b : py_eq (PStr a) (PStr b) = str_eqb a b. Proof. reflexivity. Qed.
Lemma dict_set_sd k v l : dict_set (PStr k) v (sd l) = sd (sset k v l).
Proof.
  induction l as [|[k' v'] l IH]; [reflexivity|]. unfold sd in *. cbn [map fst snd dict_set sset]. rewrite py_eq_str.
  destruct (str_eqb k' k); [reflexivity|]. cbn [map fst snd]. rewrite IH. reflexivity.
Qed.
Lemma dict_get_sd k l : dict_get (PStr k) (sd l) = sget k l.
Proof.
  induction l as [|[k' v'] l IH]; [reflexivity|]. unfold sd in *. cbn [map fst snd dict_get sget]. rewrite py_eq_str.
  destruct (str_eqb k' k); [reflexivity|exact IH].
Qed.
Definition supd (e l : list (str * pyval)) : list (str * pyval) := fold_left (fun l kv => sset (fst kv) (snd kv) l) e l.
Lemma dupdate_sd e l : dupdate (sd e) (sd l) = sd (supd e l).
Proof.
  unfold dupdate, supd. revert l. induction e as [|[k v] e IH]; intro l; [reflexivity|].
  unfold sd at 1. cbn [map fold_left fst snd]. rewrite dict_set_sd. apply IH.
Qed.

Lemma sset_new k v l : ~ In k (map fst l) -> sset k v l = l ++ [(k, v)].
Proof.
  induction l as [|[k' v'] l IH]; intro N; [reflexivity|]. cbn [sset app].
  destruct (str_eqb_dec k' k) as [[E B]|[E B]]; rewrite B; [exfalso; apply N; left; exact E|].
  f_equal. apply IH. intro I. apply N. right. exact I.
Qed.
Lemma supd_new e l : NoDup (map fst e) -> (forall k, In k (map fst e) -> ~ In k (map fst l)) -> supd e l = l ++ e.
Proof.
  unfold supd. revert l. induction e as [|[k v] e IH]; intros l N D; [symmetry; apply app_nil_r|].
  cbn [map fst] in N. inversion N as [|? ? N1 N2]; subst. cbn [fold_left fst snd].
  rewrite sset_new by (apply D; left; reflexivity). rewrite IH.
  - rewrite <- app_assoc. reflexivity.
  - exact N2.
  - intros k' I J. rewrite map_app in J. apply in_app_or in J. destruct J as [J|[J|[]]].
    + apply (D k' (or_intror I) J).
    + cbn [fst] in J. subst k'. apply N1. exact I.
Qed.
Lemma sget_sset_same k v l : sget k (sset k v l) = Some v.
Proof.
  induction l as [|[k' v'] l IH]; cbn [sset sget]; [rewrite str_eqb_refl; reflexivity|].
  destruct (str_eqb k' k) eqn:B; cbn [sget]; rewrite B; [reflexivity|exact IH].
Qed.
Lemma sget_sset_other k k' v l : k <> k' -> sget k' (sset k v l) = sget k' l.
Proof.
  intro D. induction l as [|[a b] l IH]; cbn [sset sget].
  - destruct (str_eqb_dec k k') as [[E B]|[E B]]; [contradiction|]. rewrite B. reflexivity.
  - destruct (str_eqb_dec a k) as [[E B]|[E B]]; rewrite B; cbn [sget].
    + subst a. destruct (str_eqb_dec k k') as [[E' B']|[E' B']]; [contradiction|]. rewrite B'. reflexivity.
    + rewrite IH. reflexivity.
Qed.
Lemma sget_none k l : ~ In k (map fst l) -> sget k l = None.
Proof.
  induction l as [|[a b] l IH]; intro N; [reflexivity|]. cbn [sget].
  destruct (str_eqb_dec a k) as [[E B]|[E B]]; rewrite B; [exfalso; apply N; left; exact E|].
  apply IH. intro I. apply N. right. exact I.
Qed.
Lemma sget_some k l v : sget k l = Some v -> In (k, v) l.
Proof.
  induction l as [|[a b] l IH]; intro H; [discriminate|]. cbn [sget] in H.
  destruct (str_eqb_dec a k) as [[E B]|[E B]]; rewrite B in H.
  - injection H as ->. subst a. left. reflexivity.
  - right. apply IH. exact H.
Qed.
Lemma sget_in k l : In k (map fst l) -> exists v, sget k l = Some v.
Proof.
  induction l as [|[a b] l IH]; intro I; [destruct I|]. cbn [sget].
  destruct (str_eqb_dec a k) as [[E B]|[E B]]; rewrite B; [eexists; reflexivity|].
  destruct I as [I|I]; [cbn [fst] in I; contradiction|]. apply IH. exact I.
Qed.
Lemma sget_supd k e l : NoDup (map fst e) ->
  sget k (supd e l) = match sget k e with Some v => Some v | None => sget k l end.
Proof.
  unfold supd. revert l. induction e as [|[a b] e IH]; intros l N; [reflexivity|].
  cbn [map fst] in N. inversion N as [|? ? N1 N2]; subst. cbn [fold_left fst snd]. rewrite IH by exact N2. cbn [sget].
  destruct (str_eqb_dec a k) as [[E B]|[E B]]; rewrite B.
  - subst a. rewrite (sget_none k e N1). apply sget_sset_same.
  - rewrite sget_sset_other by exact E. reflexivity.
Qed.
(** Keys keep their places. *)
Lemma sset_keys k v l : map fst (sset k v l) = if existsb (fun k' => str_eqb k' k) (map fst l) then map fst l else map fst l ++ [k].
Proof.
  induction l as [|[a b] l IH]; [reflexivity|]. cbn [sset map fst existsb].
  destruct (str_eqb a k); [reflexivity|]. cbn [map fst orb]. rewrite IH. destruct (existsb _ _); reflexivity.
Qed.
Lemma sset_nodup k v l : NoDup (map fst l) -> NoDup (map fst (sset k v l)).
Proof.
  intro N. rewrite sset_keys. destruct (existsb _ _) eqn:E; [exact N|].
  apply NoDup_rev in N. rewrite <- (rev_involutive (map fst l ++ [k])). apply NoDup_rev. rewrite rev_app_distr. cbn [rev app].
  constructor; [|exact N]. intro I. apply in_rev in I.
  assert (existsb (fun k' => str_eqb k' k) (map fst l) = true); [|congruence].
  apply existsb_exists. exists k. split; [exact I|apply str_eqb_refl].
Qed.
Lemma supd_nodup e l : NoDup (map fst l) -> NoDup (map fst (supd e l)).
Proof.
  unfold supd. revert l. induction e as [|[a b] e IH]; intros l N; [exact N|]. cbn [fold_left]. apply IH. apply sset_nodup. exact N.
Qed.
Lemma sset_prefix k v l : exists rest, map fst (sset k v l) = map fst l ++ rest.
Proof. rewrite sset_keys. destruct (existsb _ _); [exists []; symmetry; apply app_nil_r|exists [k]; reflexivity]. Qed.
Lemma supd_prefix e l : exists rest, map fst (supd e l) = map fst l ++ rest.
Proof.
  unfold supd. revert l. induction e as [|[a b] e IH]; intro l; [exists []; symmetry; apply app_nil_r|].
  cbn [fold_left fst snd]. destruct (IH (sset a b l)) as [r1 H1]. destruct (sset_prefix a b l) as [r2 H2].
  rewrite H1, H2. exists (r2 ++ r1). rewrite app_assoc. reflexivity.
Qed.

(** A dictionary updating one with its first keys is itself again. *)
Lemma sset_hit k v v0 l r : ~ In k (map fst l) -> sset k v (l ++ (k, v0) :: r) = l ++ (k, v) :: r.
Proof.
  induction l as [|[a b] l IH]; intro N; cbn [app sset]; [rewrite str_eqb_refl; reflexivity|].
  destruct (str_eqb_dec a k) as [[E B]|[E B]]; rewrite B; [exfalso; apply N; left; exact E|].
  f_equal. apply IH. intro I. apply N. right. exact I.
Qed.
Lemma supd_same_keys done a b : map fst a = map fst b -> NoDup (map fst (done ++ b)) -> supd b (done ++ a) = done ++ b.
Proof.
  unfold supd. revert done a. induction b as [|[k v] b IH]; intros done [|[k0 v0] a] E N; try discriminate; [reflexivity|].
  cbn [map fst] in E. injection E as E1 E2. subst k0. cbn [fold_left fst snd].
  assert (K : ~ In k (map fst done)).
  { rewrite map_app in N. cbn [map fst] in N. apply NoDup_remove_2 in N. intro I. apply N. apply in_or_app. left. exact I. }
  rewrite sset_hit by exact K.
  replace (done ++ (k, v) :: a) with ((done ++ [(k, v)]) ++ a) by (rewrite <- app_assoc; reflexivity).
  rewrite IH; [rewrite <- app_assoc; reflexivity|exact E2|]. rewrite <- app_assoc. exact N.
Qed.
Lemma supd_app e1 e2 l : supd (e1 ++ e2) l = supd e2 (supd e1 l).
Proof. unfold supd. apply fold_left_app. Qed.
Lemma supd_first a b : NoDup (map fst b) -> (exists rest, map fst b = map fst a ++ rest) -> supd b a = b.
Proof.
  intros N [rest E].
  assert (S : exists b1 b2, b = b1 ++ b2 /\ map fst b1 = map fst a).
  { exists (firstn (length a) b), (skipn (length a) b). split; [symmetry; apply firstn_skipn|].
    rewrite <- firstn_map, E, <- (map_length fst a). rewrite firstn_app, Nat.sub_diag, firstn_all. cbn [firstn]. apply app_nil_r. }
  destruct S as (b1 & b2 & -> & E1). rewrite supd_app.
  rewrite map_app in N.
  assert (N1 : NoDup (map fst b1)). { clear - N. induction (map fst b1) as [|x xs IH]; [constructor|]. inversion N as [|? ? A B]; subst. constructor; [|apply IH; exact B]. intro I. apply A. apply in_or_app. left. exact I. }
  pose proof (supd_same_keys [] a b1 (eq_sym E1) N1) as H0. cbn [app] in H0. rewrite H0.
  apply supd_new.
  - clear - N. induction (map fst b1) as [|x xs IH]; [exact N|]. inversion N; subst. apply IH. assumption.
  - intros k I J. clear - N I J. induction (map fst b1) as [|x xs IH]; [destruct J|].
    inversion N as [|? ? A B]; subst. destruct J as [->|J]; [apply A; apply in_or_app; right; exact I|]. exact (IH B J).
Qed.

Lemma combine_keys {A} (ks : list str) (vs : list A) : length ks = length vs -> map fst (combine ks vs) = ks.
Proof. revert vs. induction ks as [|k ks IH]; intros [|v vs] L; try discriminate; [reflexivity|]. cbn [combine map fst]. f_equal. apply IH. injection L as L. exact L. Qed.

(** The dictionary of the fields. *)
Definition pairs (r : row) (vals : list fval) : list (str * pyval) := combine (map fst (r_fields r)) (map field_to_py vals).
Lemma combine_map_r {A B C} (f : B -> C) (l : list A) (m : list B) : combine l (map f m) = map (fun p => (fst p, f (snd p))) (combine l m).
Proof. revert m. induction l as [|a l IH]; intros [|b m]; try reflexivity. cbn [map combine fst snd]. rewrite IH. reflexivity. Qed.
Lemma fields_dict_sd r vals : In r table -> length (r_fields r) = length vals -> fields_dict r vals = sd (pairs r vals).
Proof.
  intros I L. unfold fields_dict, pairs.
  assert (G : forall l acc, fold_left (fun d kv => dict_set (PStr (fst kv)) (field_to_py (snd kv)) d) l (sd acc)
                 = sd (supd (map (fun p => (fst p, field_to_py (snd p))) l) acc)).
  { induction l as [|[k f] l IH]; intro acc; [reflexivity|]. cbn [fold_left fst snd]. rewrite dict_set_sd, IH. reflexivity. }
  specialize (G (combine (map fst (r_fields r)) vals) []). change (sd []) with (@nil (pyval * pyval)) in G. rewrite G.
  rewrite combine_map_r. rewrite supd_new; [reflexivity| |intros k _ []].
  rewrite map_map. change (NoDup (map fst (combine (map fst (r_fields r)) vals))). pose proof (combine_keys (map fst (r_fields r)) vals) as K. rewrite map_length in K.
  rewrite K by exact L. apply row_fields_nodup. exact I.
Qed.
Lemma pairs_keys r vals : length (r_fields r) = length vals -> map fst (pairs r vals) = map fst (r_fields r).
Proof. intro L. unfold pairs. apply combine_keys. rewrite !map_length. exact L. Qed.

Section S.
Variable as_index : pyval -> option Z.
Variable as_float : pyval -> option f64.

(** * What is built from a context *)
Lemma map_res_Forall2 {A B} (f : A -> res B) l bs : map_res f l = Ok bs <-> Forall2 (fun a b => f a = Ok b) l bs.
Proof.
  revert bs. induction l as [|a l IH]; intro bs; cbn [map_res].
  - split; [intros [= <-]; constructor|intro F; inversion F; reflexivity].
  - split.
    + intro H. destruct (f a) as [b|x] eqn:E; [|discriminate]. cbn [bind] in H.
      destruct (map_res f l) as [bs'|x] eqn:E'; [|discriminate]. cbn [bind] in H. injection H as <-.
      constructor; [exact E|]. apply IH. reflexivity.
    + intro F. inversion F as [|? b ? bs' E1 E2]; subst. rewrite E1. cbn [bind]. rewrite (proj2 (IH bs') E2). reflexivity.
Qed.

Lemma extract_back t f : has_type t f -> small f -> extract_field as_index as_float t (field_to_py f) = Some f.
Proof.
  assert (R : forall lo hi z, in_Z lo hi z -> in_range lo hi z = Some z).
  { intros lo hi z [H1 H2]. unfold in_range. rewrite (proj2 (Z.leb_le _ _) H1), (proj2 (Z.ltb_lt _ _) H2). reflexivity. }
  intros T S. destruct T; cbn [extract_field field_to_py]; try reflexivity.
  - unfold extract_int, index_of. cbn [bare]. rewrite R by assumption. reflexivity.
  - unfold extract_int, index_of. cbn [bare]. rewrite R by assumption. reflexivity.
  - unfold extract_int, index_of. cbn [bare]. rewrite R by assumption. reflexivity.
  - unfold extract_number, extract_i64, extract_int, index_of. cbn [bare]. rewrite R by assumption. reflexivity.
  - destruct S.
  - unfold extract_int, index_of. cbn [bare]. rewrite R by assumption. reflexivity.
  - destruct v; try reflexivity. contradiction H. reflexivity.
Qed.

Lemma Forall2_len {A B} (R : A -> B -> Prop) l m : Forall2 R l m -> length l = length m.
Proof. induction 1; [reflexivity|]. cbn [length]. f_equal. assumption. Qed.

Lemma sget_combine k (ks : list str) (vs : list pyval) i : NoDup ks -> nth_error ks i = Some k -> forall v, nth_error vs i = Some v -> sget k (combine ks vs) = Some v.
Proof.
  revert vs i. induction ks as [|k0 ks IH]; intros [|v0 vs] [|i] N K v V; try discriminate.
  - cbn [nth_error] in *. injection K as ->. injection V as ->. cbn [combine sget]. rewrite str_eqb_refl. reflexivity.
  - cbn [nth_error] in *. inversion N as [|? ? N1 N2]; subst. cbn [combine sget].
    destruct (str_eqb_dec k0 k) as [[E B]|[E B]]; rewrite B; [exfalso; apply N1; rewrite E; apply nth_error_In with i; exact K|].
    apply (IH vs i N2 K v V).
Qed.

Lemma Forall2_nth {A B} (R : A -> B -> Prop) l m : length l = length m ->
  (forall i a b, nth_error l i = Some a -> nth_error m i = Some b -> R a b) -> Forall2 R l m.
Proof.
  revert m. induction l as [|a l IH]; intros [|b m] L H; try discriminate; constructor.
  - apply (H 0%nat); reflexivity.
  - apply IH; [injection L as L; exact L|]. intros i x y X Y. apply (H (S i)); assumption.
Qed.
Lemma Forall2_at {A B} (R : A -> B -> Prop) l m i a b : Forall2 R l m -> nth_error l i = Some a -> nth_error m i = Some b -> R a b.
Proof.
  intro F. revert i. induction F as [|x y l m Rxy F IH]; intros [|i] X Y; try discriminate.
  - cbn [nth_error] in *. injection X as ->. injection Y as ->. exact Rxy.
  - apply (IH i); assumption.
Qed.

(** The known errors that are raised: their row, as many values as fields, a context
    that gives the values back. *)
Definition gives (d : option (list (str * pyval))) (r : row) (vals : list fval) : Prop :=
  Forall2 (fun kt f => exists v, match d with Some l => sget (fst kt) l | None => None end = Some v /\ extract_field as_index as_float (snd kt) v = Some f)
          (r_fields r) vals.

Lemma gives_new r vals l : In r table -> NoDup (map fst l) -> gives (Some l) r vals ->
  new_error as_index as_float (row_type r) (Some (sd l)) = Ok (Known r vals (Some (sd l))).
Proof.
  intros I N G. unfold new_error. rewrite lookup_row by exact I.
  assert (M : map_res (fun kt => field_from_context as_index as_float (Some (sd l)) (fst kt) (snd kt)) (r_fields r) = Ok vals).
  { apply map_res_Forall2. unfold gives in G. clear - G. induction G as [|[k t] f ks fs [v [V E]] G IH]; constructor; [|exact IH].
    unfold field_from_context. cbn [fst snd] in *. rewrite dict_get_sd, V, E. reflexivity. }
  rewrite M. reflexivity.
Qed.

Lemma raised_shape e : raised as_index as_float e ->
  exists r vals ctx, e = Known r vals (option_map sd ctx) /\ In r table /\ length (r_fields r) = length vals
    /\ match ctx with
       | None => Forall2 has_type (map snd (r_fields r)) vals /\ Forall small vals
       | Some l => NoDup (map fst l) /\ gives (Some l) r vals
       end.
Proof.
  intros [r vals I T S|t ctx e' D H].
  - exists r, vals, None. repeat split; try assumption. apply Forall2_len in T. rewrite map_length in T. exact T.
  - unfold new_error in H. destruct (lookup t) as [r|] eqn:L; [|discriminate].
    apply lookup_some in L. destruct L as [I _].
    destruct (map_res _ (r_fields r)) as [vals|x] eqn:M; [|discriminate]. cbn [bind] in H. injection H as <-.
    apply map_res_Forall2 in M.
    destruct ctx as [d|].
    + destruct (str_dict_sd d D) as (l & -> & N). exists r, vals, (Some l). split; [reflexivity|]. split; [exact I|].
      split; [apply Forall2_len in M; exact M|]. split; [exact N|].
      unfold gives. clear - M. induction M as [|[k t] f ks fs E M IH]; constructor; [|exact IH].
      unfold field_from_context in E. cbn [fst snd] in *. rewrite dict_get_sd in E.
      destruct (sget k l) as [v|]; [|discriminate]. exists v. split; [reflexivity|].
      destruct (extract_field as_index as_float t v); [injection E as ->; reflexivity|discriminate].
    + exists r, vals, None. split; [reflexivity|]. split; [exact I|]. split; [apply Forall2_len in M; exact M|].
      unfold field_from_context in M. destruct (r_fields r) as [|kt fs].
      * inversion M; subst. split; constructor.
      * inversion M as [|? ? ? ? E _]; discriminate.
Qed.

(** Its dictionary, and the error built from that dictionary. *)
Lemma raised_rebuilt e : raised as_index as_float e ->
  exists e', new_error as_index as_float (type_string e) (py_dict e) = Ok e' /\ py_dict e' = py_dict e
    /\ exists r vals c c', e = Known r vals c /\ e' = Known r vals c'.
Proof.
  intro R. destruct (raised_shape e R) as (r & vals & ctx & -> & I & L & C).
  cbn [type_string].
  destruct ctx as [l|]; cbn [option_map py_dict].
  - destruct C as [N G]. rewrite (fields_dict_sd r vals I L). rewrite dupdate_sd.
    set (b := supd l (pairs r vals)).
    assert (Nb : NoDup (map fst b)). { apply supd_nodup. rewrite pairs_keys by exact L. apply row_fields_nodup. exact I. }
    assert (Gb : gives (Some b) r vals).
    { unfold gives in *. unfold b. clear - G N. revert G. generalize (pairs r vals). intros ps G.
      induction G as [|[k t] f ks fs [v [V E]] G IH]; constructor; [|exact IH].
      cbn [fst snd] in *. exists v. split; [|exact E]. rewrite sget_supd by exact N. rewrite V. reflexivity. }
    exists (Known r vals (Some (sd b))). split; [apply gives_new; assumption|]. split.
    + cbn [py_dict]. rewrite (fields_dict_sd r vals I L), dupdate_sd. do 2 f_equal. apply supd_first; [exact Nb|].
      unfold b. destruct (supd_prefix l (pairs r vals)) as [rest E]. exists rest. exact E.
    + exists r, vals, (Some (sd l)), (Some (sd b)). split; reflexivity.
  - destruct C as [T S]. rewrite (fields_dict_sd r vals I L).
    destruct (pairs r vals) as [|p ps] eqn:P.
    + cbn [sd map]. unfold new_error. rewrite lookup_row by exact I.
      assert (r_fields r = [] /\ vals = []) as [F V].
      { unfold pairs in P. destruct (r_fields r) as [|kt fs]; destruct vals as [|f fs']; try discriminate. split; reflexivity. }
      rewrite F. cbn [map_res bind]. exists (Known r [] None). split; [reflexivity|]. split.
      * cbn [py_dict]. unfold fields_dict. rewrite F. reflexivity.
      * exists r, vals, None, None. subst vals. split; reflexivity.
    + assert (Np : NoDup (map fst (p :: ps))). { rewrite <- P. rewrite pairs_keys by exact L. apply row_fields_nodup. exact I. }
      assert (Gp : gives (Some (p :: ps)) r vals).
      { rewrite <- P. apply Forall2_nth; [exact L|]. intros i [k t] f K F.
        exists (field_to_py f). split.
        - unfold pairs. apply (sget_combine k (map fst (r_fields r)) (map field_to_py vals) i).
          + apply row_fields_nodup. exact I.
          + rewrite nth_error_map, K. reflexivity.
          + rewrite nth_error_map, F. reflexivity.
        - apply extract_back.
          + apply (Forall2_at has_type (map snd (r_fields r)) vals i); [exact T| |exact F]. rewrite nth_error_map, K. reflexivity.
          + rewrite Forall_forall in S. apply S. apply nth_error_In with i. exact F. }
      assert (E : match sd (p :: ps) with [] => None | d => Some d end = Some (sd (p :: ps))) by reflexivity.
      rewrite E. exists (Known r vals (Some (sd (p :: ps)))). split; [apply gives_new; assumption|]. split.
      * cbn [py_dict]. rewrite (fields_dict_sd r vals I L), dupdate_sd. do 2 f_equal. rewrite P.
        apply supd_first; [exact Np|]. exists []. symmetry. apply app_nil_r.
      * exists r, vals, None, (Some (sd (p :: ps))). split; reflexivity.
Qed.
End S.

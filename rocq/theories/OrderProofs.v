From Coq Require Import List NArith ZArith Bool Permutation Lia.
From Verif Require Import Base Float64 IntParse Numbers BytesCodec Values VState LookupKey Collections Child Inputs Scalars Literal Wrappers Union TaggedUnion Tuple ModelFields TypedDict Assign Arguments Classes Interp InterpSpec InterpProofs StrictSpec LooseSpec LooseQuiet LooseOff OrderSpec.
Import ListNotations.
Open Scope nat_scope.

Inductive Ropt {A} (R : A -> A -> Prop) : option A -> option A -> Prop :=
| RNone : Ropt R None None
| RSome a1 a2 : R a1 a2 -> Ropt R (Some a1) (Some a2).

(** ** Lookups *)
Definition str_keys (d : list (pyval * pyval)) : Prop := Forall (fun kv => exists k, fst kv = PStr k) d.
Lemma eq_str a b : py_eq (PStr a) (PStr b) = str_eqb a b. Proof. reflexivity. Qed.
Lemma get_perm k d d1 : Permutation d d1 -> str_keys d -> NoDup (map fst d) -> dict_get (PStr k) d = dict_get (PStr k) d1.
Proof.
  induction 1 as [|[a x] l l' P IH|[a x] [b y] l|l l' l'' P IH P' IH']; intros K N; cbn [dict_get]; [reflexivity| | |].
  - inversion K; subst. inversion N; subst. destruct (py_eq a (PStr k)); auto.
  - inversion K as [|? ? [ka A] K2]; subst. inversion K2 as [|? ? [kb B] K3]; subst. cbn [fst] in A, B. subst a b. cbn [map fst] in N.
    inversion N as [|? ? N1 N2]; subst. rewrite !eq_str. destruct (str_eqb kb k) eqn:E1, (str_eqb ka k) eqn:E2; try reflexivity.
    apply str_eqb_eq in E1, E2. subst. destruct N1. now left.
  - rewrite IH by assumption. apply IH'; [now apply (Permutation_Forall P)|now apply (Permutation_NoDup (Permutation_map fst P))].
Qed.
Lemma get_f2 k d d' : Forall2 (fun a b => fst a = fst b /\ reordered (snd a) (snd b)) d d' -> Ropt reordered (dict_get k d) (dict_get k d').
Proof.
  induction 1 as [|[a x] [b y] l l' [A B] F IH]; cbn [dict_get fst snd] in *; [constructor|]. subst b. destruct (py_eq a k); [now constructor|exact IH].
Qed.
Lemma get_reo k d d1 d' : str_keys d -> NoDup (map fst d) -> Permutation d d1 ->
  Forall2 (fun a b => fst a = fst b /\ reordered (snd a) (snd b)) d1 d' -> Ropt reordered (dict_get (PStr k) d) (dict_get (PStr k) d').
Proof. intros K N P F. rewrite (get_perm _ _ _ P K N). now apply get_f2. Qed.
Lemma get_other k d : str_keys d -> (forall t, py_eq (PStr t) k = false) -> dict_get k d = None.
Proof. intros K H. induction K as [|[a x] l [t A] K IH]; cbn [dict_get]; [reflexivity|]. cbn in A. subst a. now rewrite H. Qed.
Lemma f2_keys d d' : str_keys d -> Forall2 (fun a b => fst a = fst b /\ reordered (snd a) (snd b)) d d' -> str_keys d'.
Proof. intros K F. induction F as [|[a x] [b y] l l' [A B] F IH]; [constructor|]. inversion K; subst. cbn in A. subst b. constructor; [assumption|now apply IH]. Qed.

Lemma f2_nth A (R : A -> A -> Prop) l l' n : Forall2 R l l' -> Ropt R (nth_error l n) (nth_error l' n).
Proof. intros F. revert n. induction F; intros [|n]; cbn; try constructor; auto. Qed.
Lemma f2_length A B (R : A -> B -> Prop) l l' : Forall2 R l l' -> length l = length l'.
Proof. induction 1; cbn; congruence. Qed.
Lemma nth_neg_reo A (R : A -> A -> Prop) l l' n : Forall2 R l l' -> Ropt R (nth_neg l n) (nth_neg l' n).
Proof. intros F. unfold nth_neg. rewrite (f2_length _ _ _ _ _ F). destruct (_ <=? _); [now apply f2_nth|constructor]. Qed.
Lemma ropt_refl A (R : A -> A -> Prop) o : (forall a, R a a) -> Ropt R o o.
Proof. intros H. destruct o; constructor. apply H. Qed.

Lemma item_reo v v' i : reordered v v' -> Ropt reordered (py_get_item v i) (py_get_item v' i).
Proof.
  intros [w|l l' F|l l' F|d d1 d' K N P F].
  - apply ropt_refl. constructor.
  - cbn [py_get_item]. destruct i; [constructor|now apply f2_nth|now apply nth_neg_reo].
  - cbn [py_get_item]. destruct i; [constructor|now apply f2_nth|now apply nth_neg_reo].
  - cbn [py_get_item]. destruct i as [k|n|n]; cbn [item_key]; [now apply (get_reo _ _ d1)|..].
    all: rewrite !get_other; try constructor; try reflexivity; try assumption.
    all: apply (f2_keys d1); [now apply (Permutation_Forall P)|assumption].
Qed.
Lemma fold_reo V (R : V -> V -> Prop) get (G : forall v v' i, R v v' -> Ropt R (get v i) (get v' i)) rest : forall v v', R v v' -> Ropt R (try_fold get v rest) (try_fold get v' rest).
Proof.
  induction rest as [|i rest IH]; intros v v' H; cbn [try_fold]; [now constructor|]. destruct (G _ _ i H); [constructor|now apply IH].
Qed.
Definition Rfound {V} (R : V -> V -> Prop) (p p' : lookup_path * V) : Prop := fst p = fst p' /\ R (snd p) (snd p').
Lemma first_path_reo V (R : V -> V -> Prop) first first' get (G : forall v v' i, R v v' -> Ropt R (get v i) (get v' i)) ps :
  (forall k, Ropt R (first k) (first' k)) -> Ropt (Rfound R) (first_path first get ps) (first_path first' get ps).
Proof.
  intros H. induction ps as [|p ps IH]; cbn [first_path]; [constructor|]. destruct (H (lp_first p)) as [|v v' V0]; [exact IH|].
  destruct (fold_reo V R get G (lp_rest p) _ _ V0); [exact IH|]. now constructor.
Qed.
Lemma map_found V (R : V -> V -> Prop) p o o' : Ropt R o o' -> Ropt (Rfound R) (option_map (pair p) o) (option_map (pair p) o').
Proof. intros []; constructor. now split. Qed.
Lemma dict_item_reo k d d1 d' : str_keys d -> NoDup (map fst d) -> Permutation d d1 ->
  Forall2 (fun a b => fst a = fst b /\ reordered (snd a) (snd b)) d1 d' -> Ropt (Rfound reordered) (py_get_dict_item k d) (py_get_dict_item k d').
Proof.
  intros K N P F. pose proof (fun k => get_reo k _ _ _ K N P F) as G. unfold py_get_dict_item. destruct k as [p|p1 p2|ps].
  - now apply map_found.
  - destruct (G (lp_first p1)); [now apply map_found|now constructor].
  - apply first_path_reo; [apply item_reo|exact G].
Qed.

(** JSON. *)
Lemma assoc_perm A k (l l1 : list (str * A)) : Permutation l l1 -> NoDup (map fst l) -> assoc k l = assoc k l1.
Proof.
  induction 1 as [|[a x] l l' P IH|[a x] [b y] l|l l' l'' P IH P' IH']; intros N; cbn [assoc]; [reflexivity| | |].
  - inversion N; subst. destruct (str_eqb _ _); auto.
  - cbn [map fst] in N. inversion N as [|? ? N1 N2]; subst. destruct (str_eqb k b) eqn:E1, (str_eqb k a) eqn:E2; try reflexivity.
    apply str_eqb_eq in E1, E2. subst. destruct N1. now left.
  - rewrite IH by assumption. apply IH'. now apply (Permutation_NoDup (Permutation_map fst P)).
Qed.
Lemma assoc_f2 k l l' : Forall2 (fun a b : str * json => fst a = fst b /\ jreordered (snd a) (snd b)) l l' -> Ropt jreordered (assoc k l) (assoc k l').
Proof.
  induction 1 as [|[a x] [b y] l l' [A B] F IH]; cbn [assoc fst snd] in *; [constructor|]. subst b. destruct (str_eqb _ _); [now constructor|exact IH].
Qed.
Lemma json_last_reo k l l1 l' : NoDup (map fst l) -> Permutation l l1 ->
  Forall2 (fun a b : str * json => fst a = fst b /\ jreordered (snd a) (snd b)) l1 l' -> Ropt jreordered (json_last k l) (json_last k l').
Proof.
  intros N P F. unfold json_last.
  assert (N' : NoDup (map fst l')).
  { replace (map fst l') with (map fst l1); [now apply (Permutation_NoDup (Permutation_map fst P))|]. clear - F. induction F as [|a b l l' [A B] F IH]; cbn; congruence. }
  rewrite (assoc_perm _ k (rev l) l1); [|now rewrite <- Permutation_rev|rewrite map_rev; now apply NoDup_rev].
  rewrite <- (assoc_perm _ k l' (rev l')); [|apply Permutation_rev|exact N']. now apply assoc_f2.
Qed.
Lemma jitem_reo v v' i : jreordered v v' -> Ropt jreordered (json_get_item v i) (json_get_item v' i).
Proof.
  intros [w|l l' F|d d1 d' N P F].
  - apply ropt_refl. constructor.
  - cbn [json_get_item]. destruct i; [constructor|now apply f2_nth|]. rewrite (f2_length _ _ _ _ _ F). destruct (_ <=? _); [now apply f2_nth|constructor].
  - cbn [json_get_item]. destruct i; [now apply (json_last_reo _ _ d1)|constructor|constructor].
Qed.
Lemma json_get_reo k l l1 l' : NoDup (map fst l) -> Permutation l l1 ->
  Forall2 (fun a b : str * json => fst a = fst b /\ jreordered (snd a) (snd b)) l1 l' -> Ropt (Rfound jreordered) (json_get k l) (json_get k l').
Proof.
  intros N P F. pose proof (fun k => json_last_reo k _ _ _ N P F) as G. unfold json_get. destruct k as [p|p1 p2|ps].
  - now apply map_found.
  - destruct (G (lp_first p1)); [now apply map_found|now constructor].
  - apply first_path_reo; [apply jitem_reo|exact G].
Qed.

(** ** Results side by side *)
Notation rin := reordered_input.
Definition Rlines (l l' : list line_error) : Prop := Permutation (map error_kind l) (map error_kind l').
Inductive Rerr : verror -> verror -> Prop :=
| RLines l1 l2 : Rlines l1 l2 -> Rerr (LineErrors l1) (LineErrors l2)
| REq e : Rerr e e.
Inductive Rr {A} (R : A -> A -> Prop) : vres A -> vres A -> Prop :=
| ROk a1 a2 : R a1 a2 -> Rr R (VOk a1) (VOk a2)
| RErr e1 e2 : Rerr e1 e2 -> Rr R (VErr e1) (VErr e2).
Inductive RP {A} (R : A -> A -> Prop) : vres A * state -> vres A * state -> Prop :=
| RPair r1 r2 s : Rr R r1 r2 -> off s -> RP R (r1, s) (r2, s).
Definition rv (v : validator) : Prop := forall i i' s, rin i i' -> off s -> RP eq (v i s) (v i' s).
Definition rcv (c : cv) : Prop := rv (cv_validate c) /\ dkeeps (cv_default c).

Lemma Rlines_refl l : Rlines l l. Proof. apply Permutation_refl. Qed.
Lemma Rlines_nil l1 l2 : Rlines l1 l2 -> is_nil l1 = is_nil l2.
Proof. unfold Rlines. intros P. apply Permutation_length in P. rewrite !map_length in P. now destruct l1, l2. Qed.
Lemma Rlines_app a1 a2 b1 b2 : Rlines a1 a2 -> Rlines b1 b2 -> Rlines (a1 ++ b1) (a2 ++ b2).
Proof. unfold Rlines. rewrite !map_app. apply Permutation_app. Qed.
Lemma Rlines_one t l i1 i2 : Rlines [{| le_type := t; le_loc := l; le_input := i1 |}] [{| le_type := t; le_loc := l; le_input := i2 |}].
Proof. apply Permutation_refl. Qed.
Definition rel_fun (f : line_error -> line_error) : Prop := exists g, forall e, error_kind (f e) = g (error_kind e).
Lemma Rlines_map f l1 l2 : rel_fun f -> Rlines l1 l2 -> Rlines (map f l1) (map f l2).
Proof.
  intros [g G] P. unfold Rlines. rewrite !map_map. rewrite (map_ext _ _ G). rewrite (map_ext (fun x => error_kind (f x)) _ G).
  rewrite <- !(map_map error_kind g). now apply Permutation_map.
Qed.
Lemma rel_outer l : rel_fun (with_outer l).
Proof. exists (fun p => (fst p, loc_with_outer l (snd p))). reflexivity. Qed.
Lemma rel_comp f g : rel_fun f -> rel_fun g -> rel_fun (fun e => f (g e)).
Proof. intros [h H] [k K]. exists (fun p => h (k p)). intros e. now rewrite H, K. Qed.
Lemma rel_set_type t : rel_fun (set_type t).
Proof. exists (fun p => (match t with EUnionTagInvalid _ => EUnionTagInvalid [] | t => t end, snd p)). intros e. now destruct t. Qed.
Lemma rel_id : rel_fun (fun e => e). Proof. now exists (fun p => p). Qed.
Lemma rel_apply p lba n : rel_fun (fun e => apply_error_loc p e lba n).
Proof.
  unfold apply_error_loc. destruct lba; [|apply rel_outer].
  apply (rel_comp (with_outer _)); [apply rel_outer|]. generalize (rev (lp_rest p)). induction l as [|i l IH]; cbn [fold_left]; [apply rel_id|].
  apply (rel_comp (fold_left _ l)); [exact IH|apply rel_outer].
Qed.
Lemma Rerr_refl e : Rerr e e. Proof. apply REq. Qed.
Lemma Rr_refl A (r : vres A) : Rr eq r r. Proof. destruct r; constructor; [reflexivity|apply REq]. Qed.
Lemma Rr_val_err A (R : A -> A -> Prop) t i1 i2 : Rr R (val_err t i1) (val_err t i2).
Proof. constructor. constructor. apply Rlines_one. Qed.
Lemma Rerr_outer l e1 e2 : Rerr e1 e2 -> Rerr (with_outer_err l e1) (with_outer_err l e2).
Proof. intros []; cbn; [|apply REq]. constructor. apply Rlines_map; [apply rel_outer|assumption]. Qed.
Lemma Rerr_cases e1 e2 : Rerr e1 e2 -> (exists l1 l2, e1 = LineErrors l1 /\ e2 = LineErrors l2 /\ Rlines l1 l2) \/ (e1 = e2 /\ forall l, e1 <> LineErrors l).
Proof. intros [l1 l2 H|[l| | | |]]; [left; eauto|left; exists l, l; auto using Rlines_refl|right; split; congruence..]. Qed.
Lemma RP_intro A (R : A -> A -> Prop) r1 r2 s : Rr R r1 r2 -> off s -> RP R (r1, s) (r2, s).
Proof. now constructor. Qed.
Lemma RP_refl A (p : vres A * state) : off (snd p) -> RP eq p p.
Proof. destruct p as [r s]. intros O. constructor; [apply Rr_refl|exact O]. Qed.
Lemma rv_keeps v : rv v -> keeps v.
Proof. intros V i s O. specialize (V i i s (RI_same i) O). destruct (v i s). now inversion V. Qed.
(** Two inputs that really differ. *)
Inductive differ : input -> input -> Prop :=
| D_list l l' : Forall2 reordered l l' -> differ (IPy (PList l)) (IPy (PList l'))
| D_tuple l l' : Forall2 reordered l l' -> differ (IPy (PTuple l)) (IPy (PTuple l'))
| D_dict d d1 d' : str_keys d -> NoDup (map fst d) -> Permutation d d1 ->
    Forall2 (fun a b => fst a = fst b /\ reordered (snd a) (snd b)) d1 d' -> differ (IPy (PDict d)) (IPy (PDict d'))
| D_arr l l' : Forall2 jreordered l l' -> differ (IJson (JArr l)) (IJson (JArr l'))
| D_obj l l1 l' : NoDup (map fst l) -> Permutation l l1 ->
    Forall2 (fun a b => fst a = fst b /\ jreordered (snd a) (snd b)) l1 l' -> differ (IJson (JObj l)) (IJson (JObj l'))
| D_slist l l' : differ (IStrings (PList l)) (IStrings (PList l'))
| D_stuple l l' : differ (IStrings (PTuple l)) (IStrings (PTuple l'))
| D_sdict d d1 d' : str_keys d -> NoDup (map fst d) -> Permutation d d1 ->
    Forall2 (fun a b => fst a = fst b /\ reordered (snd a) (snd b)) d1 d' -> differ (IStrings (PDict d)) (IStrings (PDict d')).
Lemma rin_cases i i' : rin i i' -> i = i' \/ differ i i'.
Proof.
  intros [j|v v' H|j j' H|v v' H]; [now left| | |]; destruct H; try (now left); right; econstructor; eassumption.
Qed.
Lemma differ_rin i i' : differ i i' -> rin i i' \/ (exists v v', i = IStrings v /\ i' = IStrings v').
Proof.
  intros []; try (left; constructor; econstructor; eassumption); right; eauto.
Qed.
Lemma rv_of v : keeps v -> (forall i i' s, differ i i' -> rin i i' -> off s -> RP eq (v i s) (v i' s)) -> rv v.
Proof. intros K H i i' s I O. destruct (rin_cases _ _ I) as [<-|D]; [apply RP_refl, K, O|now apply H]. Qed.
Lemma Rin_undefined i i' : rin i i' -> is_undefined i = is_undefined i'.
Proof. intros I. destruct (rin_cases _ _ I) as [<-|[]]; reflexivity. Qed.
Lemma Rin_none i i' : rin i i' -> is_none_input i = is_none_input i'.
Proof. intros I. destruct (rin_cases _ _ I) as [<-|[]]; reflexivity. Qed.
Lemma rebind_rel A (R : A -> A -> Prop) f s (k1 k2 : state -> vres A * state) : off s ->
  (forall s, off s -> RP R (k1 s) (k2 s)) -> RP R (rebind f s k1) (rebind f s k2).
Proof.
  intros O K. unfold rebind. specialize (K (set_extra (f (st_extra s)) s) O). destruct K as [r1 r2 t Hr Ht]. now constructor.
Qed.

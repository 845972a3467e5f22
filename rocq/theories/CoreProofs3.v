(** Which schemas can be built, and what is built: arguments, definitions, everything. *)
From Coq Require Import List NArith ZArith Bool Lia.
From Verif Require Import Base Float64 IntParse Numbers BytesCodec Values VState LookupKey Collections Child Inputs Scalars Literal Wrappers Union TaggedUnion Tuple ModelFields TypedDict Assign Arguments Classes Interp InterpSpec SerOf Core CoreSpec CoreProofs CoreProofs2.
Import ListNotations.
Open Scope nat_scope.
Section Build.
Variable name_of : schema -> str.
Variable compile : bool -> str -> option (str -> bool + pyexc).
Notation build := (build name_of compile).
Notation good := (good compile).
Notation good_node := (good_node compile).
Notation meets := (meets name_of compile).
Lemma triple_with : forall A (m : B A) P M Q, triple m P M Q -> triple m P M (fun a => P /\ Q a).
Proof. intros A m P M Q [H K]. split; [|exact K]. intros n a n' E. destruct (H _ _ _ E) as (p & F & q). auto. Qed.
Lemma gives_has : forall s, gives_default s <-> has_default s = true.
Proof.
  intros s. split.
  - intros (k & o & v & x & -> & N). destruct k; [now destruct N|reflexivity|reflexivity].
  - destruct s; cbn; try discriminate. intros H. exists k, o, validate, s. split; [reflexivity|]. now destruct k.
Qed.
Lemma ordered_same : forall (l : list (param_keys * core)) r, Forall2 (fun p x => result (snd p) (snd x) /\ pi_mode (fst x) = param_mode p) l r -> forall d kw,
  ordered _ (fun p => defaulted (snd p)) kw_param d kw l -> ordered _ (fun x : pinfo * schema => has_default (snd x)) (fun x => is_kw_only (pi_mode (fst x))) d kw r.
Proof.
  intros l r F. induction F as [|p x l r [(_ & D & _) M] F IH]; intros d kw O; [exact I|]. cbn [ordered] in *. rewrite D, M. destruct O. split; [assumption|now apply IH].
Qed.
Lemma kw_only : forall m, is_kw_only m = true <-> m = KwOnly.
Proof. intros []; cbn; split; congruence. Qed.
Definition unpack_word (w : option str) : bool := match w with Some w => str_eqb w (lit "unpacked-typed-dict") | None => false end.
Lemma build_arguments : forall k l a b, Forall (fun p => meets (snd p)) l -> all_opt meets a -> all_opt meets b -> meets (KArguments k l a b).
Proof.
  intros k l a b H Ha Hb g. cbn [Core.build]. eapply triple_weak.
  - eapply triple_bind; [apply triple_with, triple_params, H|]. intros r ((_ & _ & Ord) & R & Om).
    eapply triple_bind; [apply triple_unpacked|]. intros u U.
    eapply triple_bind; [apply triple_meets_opt, Hb|]. intros rb Rb.
    assert (W : u && match rb with Some _ => false | None => true end = unpack_word (ak_mode k) && match b with Some _ => false | None => true end).
    { replace (unpack_word (ak_mode k)) with u; [destruct b, rb; try contradiction; reflexivity|]. unfold unpack_word. destruct u; [rewrite (proj1 U eq_refl); reflexivity|].
      destruct (ak_mode k) as [w|]; [|reflexivity]. word w (lit "unpacked-typed-dict") X; [|reflexivity]. discriminate (proj2 U eq_refl). }
    rewrite W.
    eapply triple_if; [apply triple_fail with (Q := result (KArguments k l a b))|]. intros N.
    eapply triple_bind; [apply triple_meets_opt, Ha|]. intros ra Ra.
    eapply triple_fmap; [apply triple_extra; discriminate|]. intros e E.
    apply node_result; try reflexivity.
    + split; [|exact I]. cbn. split; [|split].
      * intros ->. destruct b, rb; try contradiction; [discriminate|]. cbn in W. rewrite <- W in N. discriminate N.
      * intros p P. apply omits_leaves. rewrite Forall_forall in Om. now apply Om.
      * intros before p after -> (q & Q & D) P. apply (ordered_same _ _ R) in Ord. rewrite ordered_iff in Ord.
        destruct (Ord before p after eq_refl) as [X|(q' & Q' & K)]; [right; exists q; split; [exact Q|now apply gives_has]| |discriminate|exists q'; split; [exact Q'|now apply kw_only]].
        destruct (has_default (snd p)) eqn:Hd; [|reflexivity]. apply gives_has in Hd. contradiction.
    + cbn [children mentions]. intros x X. apply in_app_or in X. destruct X as [X|X]; [|apply in_app_or in X; destruct X as [X|X]].
      * eapply (results_fine _ _ snd snd); [|apply incl_appl, incl_refl|exact X]. clear - R. induction R as [|? ? ? ? [K _] R IH]; constructor; auto.
      * eapply opt_fine; [exact Ra| |exact X]. apply incl_appr, incl_appr, incl_refl.
      * eapply opt_fine; [exact Rb| |exact X]. apply incl_appr, incl_appl, incl_refl.
  - rewrite good_iff. cbn [parts CoreSpec.good_node]. rewrite map_app, !(in_parts_app good), !(in_parts_opt g good), (in_parts _ snd g good), ordered_iff.
    assert (Wd : unpack_word (ak_mode k) && match b with Some _ => false | None => true end = false <-> (ak_mode k = Some (lit "unpacked-typed-dict") -> b <> None)).
    { unfold unpack_word. split.
      - intros E E'. rewrite E' in E. destruct b; [discriminate|discriminate E].
      - intros E. destruct (ak_mode k) as [w|]; [|reflexivity]. word w (lit "unpacked-typed-dict") X; [|reflexivity]. destruct b; [reflexivity|]. now destruct (E eq_refl). }
    rewrite Wd. rewrite (Forall_forall (fun p : param_keys * core => alias_ok (qk_alias (fst p)) (qk_name (fst p)) /\ omitting (snd p) = false)).
    assert (O : (forall before p after, l = before ++ p :: after -> false = true \/ (exists q : param_keys * core, In q before /\ defaulted (snd q) = true) -> defaulted (snd p) = false -> false = true \/ exists q, In q (before ++ [p]) /\ kw_param q = true) <->
      (forall before p after, l = before ++ p :: after -> (exists q, In q before /\ defaulted (snd q) = true) -> defaulted (snd p) = false -> exists q, In q (before ++ [p]) /\ param_mode q = KwOnly)).
    { split; intros K before p after E.
      - intros D F. destruct (K before p after E (or_intror D) F) as [X|(q & Q & X)]; [discriminate X|]. exists q. split; [exact Q|now apply kw_only].
      - intros [D|D] F; [discriminate D|]. destruct (K before p after E D F) as (q & Q & X). right. exists q. split; [exact Q|now apply kw_only]. }
    rewrite O. tauto.
  - cbn. now rewrite app_nil_r.
  - auto.
Qed.

Lemma find_none : forall k l, find_def k l = None <-> ~ In k (map fst l).
Proof.
  intros k l. induction l as [|[j s] l IH]; cbn; [tauto|]. destruct (k =? j) eqn:E.
  - apply Nat.eqb_eq in E. subst. split; [discriminate|]. tauto.
  - apply Nat.eqb_neq in E. rewrite IH. intuition congruence.
Qed.
Lemma NoDup_left : forall A (a b : list A), NoDup (a ++ b) -> NoDup a.
Proof. intros A a b N. induction a as [|x a IH]; [constructor|]. cbn in N. inversion N; subst. constructor; [intros I; apply H1; apply in_or_app; now left|now apply IH]. Qed.
Lemma NoDup_snoc : forall A (l : list A) x, NoDup l -> ~ In x l -> NoDup (l ++ [x]).
Proof. intros A l x N. induction N as [|y l H N IH]; cbn; intros I; [constructor; [intros []|constructor]|]. constructor; [rewrite in_app_iff; cbn; intuition|apply IH; tauto]. Qed.
Lemma NoDup_snoc_not : forall A (l : list A) x, NoDup (l ++ [x]) -> ~ In x l.
Proof. intros A l x N I. apply in_split in I. destruct I as (a & b & ->). rewrite <- app_assoc in N. apply NoDup_remove_2 in N. apply N. rewrite !in_app_iff. cbn. tauto. Qed.
Lemma triple_definition : forall g k c, meets c -> triple (bind (build g c) (define k)) (good g c) (mentions c ++ [Declares k]) (fun _ => True).
Proof.
  intros g k c T. destruct (T g) as [H K]. split.
  - intros n a n' E. unfold bind in E. destruct (build g c n) as [[s n1]| |] eqn:Em; try discriminate E. cbn in E. unfold define in E.
    destruct (find_def k (kn_defs n1)) eqn:F; [discriminate E|]. injection E as <- <-. destruct (H _ _ _ Em) as (G & (new & D & N & U & R & A) & Q).
    split; [exact G|]. split; [|exact I]. exists (new ++ [(k, s)]). cbn [kn_defs kn_refs names]. rewrite D, <- app_assoc, declared_app, used_app, map_app, N. cbn [map declared used flat_map app fst]. rewrite app_nil_r.
    repeat split; auto.
    + intros X. unfold names. cbn [kn_defs]. rewrite app_assoc, <- D, map_app. apply NoDup_snoc; [now apply U|now apply find_none].
    + apply Forall_app. split; [eapply Forall_impl; [|exact A]; intros d; apply fine_more, incl_appl, incl_refl|]. constructor; [|constructor]. cbn. eapply result_fine; [|exact Q]. apply incl_appl, incl_refl.
  - intros n G X. rewrite declared_app, app_assoc in X. destruct (K n G (NoDup_left _ _ _ X)) as (s & n1 & E). unfold bind. rewrite E. cbn. unfold define.
    destruct (H _ _ _ E) as (_ & A & _). apply names_after in A. replace (find_def k (kn_defs n1)) with (@None schema); [eauto|]. symmetry. apply find_none. fold (names n1). rewrite A. apply (NoDup_snoc_not _ _ _ X).
Qed.
Lemma build_definitions : forall l c, Forall (fun p => meets (snd p)) l -> meets c -> meets (KDefinitions l c).
Proof.
  intros l c H T g. cbn [Core.build]. eapply triple_weak.
  - eapply triple_bind. { apply triple_map with (P := fun p => good g (snd p)) (M := fun p : nat * core => mentions (snd p) ++ [Declares (fst p)]) (Q := fun _ _ => True). eapply Forall_impl; [|exact H]. intros p M. apply triple_definition, M. }
    intros r _. apply T.
  - symmetry; etransitivity; [apply good_iff|]. cbn [parts CoreSpec.good_node]. rewrite (in_parts_app good), (in_parts_one good), (in_parts _ snd g good). tauto.
  - reflexivity.
  - intros s (F & D & O). split; [|now split]. eapply fine_more; [|exact F]. apply incl_appr, incl_refl.
Qed.

Theorem build_meets : forall c, meets c.
Proof.
  apply core_induction; intros.
  all: first [apply build_leaves; exact I|now apply build_list|now apply build_set|now apply build_tuple|now apply build_dict|now apply build_default|now apply build_chain|now apply build_union|now apply build_tagged
    |now apply build_model_fields|now apply build_typed_dict|now apply build_arguments|now apply build_dataclass_args|now apply build_model|now apply build_dataclass|now apply build_definitions|idtac].
  - now apply (build_wrappers name_of compile _ c).
  - now apply (build_two name_of compile _ a b).
  - now apply (build_two name_of compile _ a b).
  - destruct t; [now apply (build_wrappers name_of compile _ c)|apply build_custom_error_none].
  - now apply (build_wrappers name_of compile _ c).
  - now apply (build_wrappers name_of compile _ c).
  - now apply (build_wrappers name_of compile _ c).
Qed.
End Build.

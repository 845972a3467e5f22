From Coq Require Import List NArith ZArith Bool Lia.
From Verif Require Import Base Float64 Values VState LookupKey Collections Child Inputs Scalars Wrappers ModelFields TypedDict Interp InterpSpec InterpProofs ConformSpec ConformProofs ConformProofs2 ConformProofs4 ConformProofs5 StableSpec StableProofs.
Import ListNotations.
Open Scope nat_scope.

(** ** The order of the entries of a typed dict *)
Inductive sub {A} : list A -> list A -> Prop :=
| sub_nil : sub [] []
| sub_skip x l m : sub l m -> sub l (x :: m)
| sub_take x l m : sub l m -> sub (x :: l) (x :: m).
Lemma sub_in A (l m : list A) x : sub l m -> In x l -> In x m.
Proof. induction 1; cbn; [easy|auto|]. intros [->|J]; auto. Qed.
Lemma sub_empty A (m : list A) : sub [] m. Proof. induction m; [constructor|now constructor]. Qed.

Lemma str_neq a n : a <> n -> py_eq (PStr a) (PStr n) = false.
Proof. intros H. destruct (py_eq _ _) eqn:Q; [|reflexivity]. apply str_key_eq in Q. contradiction. Qed.
Lemma dict_set_str_new n v d ks : map fst d = map PStr ks -> ~ In n ks -> dict_set (PStr n) v d = d ++ [(PStr n, v)].
Proof.
  intros M N. apply dict_set_new. apply Forall_forall. intros [a b] J. cbn. apply (in_map fst) in J. cbn in J. rewrite M in J. apply in_map_iff in J. destruct J as (m & <- & J).
  apply str_neq. intros ->. contradiction.
Qed.

Definition all_unaliased (fs : list field) : Prop := forall f, In f fs -> unaliased (f_name f) (f_keys f).
Lemma select_simple f ba bn key : unaliased (f_name f) (f_keys f) -> collection_select (f_keys f) ba bn = BOk key -> key = Simple (path_from_str (f_name f)).
Proof. intros -> H. destruct ba, bn; cbn in H; congruence. Qed.

Lemma td_loop_order c md i last p ba bn fs : forall a s a' s' ks, td_loop c md i last p ba bn fs a s = (VOk a', s') -> all_unaliased fs -> NoDup (map f_name fs) ->
  map fst (fa_dict a) = map PStr ks -> (forall n, In n (map f_name fs) -> ~ In n ks) ->
  exists B ks', fa_dict a' = fa_dict a ++ B /\ map fst B = map PStr ks' /\ sub ks' (map f_name fs) /\ incl (fa_used a) (fa_used a') /\
    (forall f x, In f fs -> md_get md (Simple (path_from_str (f_name f))) = VOk (Some (path_from_str (f_name f), x)) -> In (f_name f) (fa_used a')).
Proof.
  induction fs as [|f fs IH]; intros a s a' s' ks H U ND M N; cbn [td_loop] in H.
  - injection H as <- _. exists [], []. rewrite app_nil_r. split; [reflexivity|]. split; [reflexivity|]. split; [constructor|]. split; [apply incl_refl|easy].
  - cbn [map] in ND. inversion ND as [|? ? ND1 ND2]; subst. assert (U' : all_unaliased fs) by (intros g G; apply U; now right).
    assert (SKIP : forall a1 s1, td_loop c md i last p ba bn fs a1 s1 = (VOk a', s') -> fa_dict a1 = fa_dict a -> incl (fa_used a) (fa_used a1) ->
      (forall x, md_get md (Simple (path_from_str (f_name f))) = VOk (Some (path_from_str (f_name f), x)) -> In (f_name f) (fa_used a1)) ->
      exists B ks', fa_dict a' = fa_dict a ++ B /\ map fst B = map PStr ks' /\ sub ks' (map f_name (f :: fs)) /\ incl (fa_used a) (fa_used a') /\
      (forall g x, In g (f :: fs) -> md_get md (Simple (path_from_str (f_name g))) = VOk (Some (path_from_str (f_name g), x)) -> In (f_name g) (fa_used a'))).
    { intros a1 s1 Q DE UI UF. destruct (IH a1 s1 a' s' ks Q U' ND2) as (B & ks' & E1 & E2 & E3 & E4 & E5); [now rewrite DE|intros m J; apply N; now right|].
      exists B, ks'. rewrite E1, DE. split; [reflexivity|]. split; [exact E2|]. split; [now constructor|]. split; [intros m J; apply E4, UI, J|].
      intros g x [<-|G] MG; [apply E4, (UF x), MG|exact (E5 g x G MG)]. }
    assert (PUT : forall a1 s1 v, td_loop c md i last p ba bn fs a1 s1 = (VOk a', s') -> fa_dict a1 = dict_set (PStr (f_name f)) v (fa_dict a) -> incl (fa_used a) (fa_used a1) ->
      (forall x, md_get md (Simple (path_from_str (f_name f))) = VOk (Some (path_from_str (f_name f), x)) -> In (f_name f) (fa_used a1)) ->
      exists B ks', fa_dict a' = fa_dict a ++ B /\ map fst B = map PStr ks' /\ sub ks' (map f_name (f :: fs)) /\ incl (fa_used a) (fa_used a') /\
      (forall g x, In g (f :: fs) -> md_get md (Simple (path_from_str (f_name g))) = VOk (Some (path_from_str (f_name g), x)) -> In (f_name g) (fa_used a'))).
    { intros a1 s1 v Q DE UI UF. rewrite (dict_set_str_new _ _ _ ks M (N _ (or_introl eq_refl))) in DE.
      destruct (IH a1 s1 a' s' (ks ++ [f_name f]) Q U' ND2) as (B & ks' & E1 & E2 & E3 & E4 & E5).
      - rewrite DE, !map_app, M. reflexivity.
      - intros m J K. apply in_app_or in K. destruct K as [K|[<-|[]]]; [revert K; apply N; now right|contradiction].
      - exists ((PStr (f_name f), v) :: B), (f_name f :: ks'). rewrite E1, DE, <- app_assoc. split; [reflexivity|]. split; [cbn; now rewrite E2|]. split; [now constructor|]. split; [intros m J; apply E4, UI, J|].
        intros g x [<-|G] MG; [apply E4, (UF x), MG|exact (E5 g x G MG)]. }
    cbv zeta in H. destruct (collection_select _ _ _) as [key|] eqn:SEL; [|discriminate]. apply select_simple in SEL; [|apply U; now left]. subst key.
    destruct (md_get md _) as [[[path value]|]|e] eqn:GET.
    + unfold rebind in H. destruct (cv_validate _ _ _) as [[v|[es|e| | |]] s2]; try discriminate.
      * eapply PUT; [exact H|reflexivity|intros m J; now right|]. intros x [= -> _]. now left.
      * destruct (negb _ || _); eapply SKIP; try exact H; try reflexivity; try (intros m J; now right); intros x [= -> _]; now left.
      * eapply SKIP; [exact H|reflexivity|intros m J; now right|]. intros x [= -> _]. now left.
    + destruct (cv_default _ _ _) as [[[v|]|[es|e| | |]] s2]; try discriminate.
      * eapply PUT; [exact H|reflexivity|apply incl_refl|discriminate].
      * destruct (f_required f); [destruct (key_error _ _ _ _ _); [|discriminate]|]; (eapply SKIP; [exact H|reflexivity|apply incl_refl|discriminate]).
      * eapply SKIP; [exact H|reflexivity|apply incl_refl|discriminate].
      * eapply SKIP; [exact H|reflexivity|apply incl_refl|discriminate].
    + destruct e; try discriminate. destruct (last_is _ _); (eapply SKIP; [exact H|reflexivity|apply incl_refl|discriminate]).
Qed.

Definition outside (names : list str) (kv : pyval * pyval) : Prop := exists n, fst kv = PStr n /\ ~ In n names.
Lemma dict_set_app k v d1 d2 : Forall (fun a => py_eq (fst a) k = false) d1 -> dict_set k v (d1 ++ d2) = d1 ++ dict_set k v d2.
Proof. induction 1 as [|[a b] d Q _ IH]; [reflexivity|]. cbn in Q |- *. now rewrite Q, IH. Qed.
Lemma dict_set_outside names n v d : ~ In n names -> Forall (outside names) d -> Forall (outside names) (dict_set (PStr n) v d).
Proof.
  intros N. induction 1 as [|[a b] d Q F IH]; cbn; [repeat constructor; now exists n|]. destruct (py_eq a (PStr n)); constructor; auto.
Qed.
Lemma td_extras_order c md used last p fp names all es : md_ok false md -> md_is_attr md = false -> md_iter md = VOk all -> incl es all ->
  (forall n x, In n names -> md_get md (Simple (path_from_str n)) = VOk (Some (path_from_str n, x)) -> In n used) ->
  (exists ks, map fst fp = map PStr ks /\ incl ks names) ->
  forall ep errors s out' errors' s', Forall (outside names) ep -> td_extras c used last p es (fp ++ ep) errors s = (VOk (out', errors'), s') ->
  exists ep', out' = fp ++ ep' /\ Forall (outside names) ep'.
Proof.
  intros MD NA MI SUB US (ks & FK & KN). revert SUB. induction es as [|en es IH]; intros SUB ep errors s out' errors' s' F H; cbn [td_extras] in H.
  - injection H as <- _ _. now exists ep.
  - assert (SUB' : incl es all) by (intros e J; apply SUB; now right). specialize (IH SUB'). destruct en as [key kl value|]; [|discriminate].
    destruct (key_str key) as [k|[l|x| | |]] eqn:KS; try discriminate; [|exact (IH _ _ _ _ _ _ F H)].
    destruct (mem_str k used) eqn:MEM; [exact (IH _ _ _ _ _ _ F H)|].
    assert (NK : ~ In k names).
    { intros J. destruct (mo_found _ _ MD eq_refl NA _ _ _ _ _ MI (SUB _ (or_introl eq_refl)) KS) as [x G]. exact (mem_false _ _ MEM (US _ _ J G)). }
    assert (PUT : forall v, dict_set (PStr k) v (fp ++ ep) = fp ++ dict_set (PStr k) v ep).
    { intros v. apply dict_set_app. apply Forall_forall. intros [a b] J. apply (in_map fst) in J. rewrite FK in J. cbn in J |- *. apply in_map_iff in J. destruct J as (m & <- & J). apply str_neq. intros ->. apply NK, KN, J. }
    destruct (fc_extra c); [|exact (IH _ _ _ _ _ _ F H)|exact (IH _ _ _ _ _ _ F H)].
    destruct (fc_extras c) as [v|].
    + destruct (v value _) as [[x|[l|x| | |]] s2]; try discriminate; [|exact (IH _ _ _ _ _ _ F H)]. rewrite PUT in H. eapply IH; [|exact H]. now apply dict_set_outside.
    + rewrite PUT in H. eapply IH; [|exact H]. now apply dict_set_outside.
Qed.
Lemma typed_dict_order c repr i s v s' : all_unaliased (fc_fields c) -> NoDup (map f_name (fc_fields c)) -> allowed false i ->
  typed_dict_validate c (validate_dict repr) i s = (VOk v, s') ->
  exists fp ep ks, v = PDict (fp ++ ep) /\ map fst fp = map PStr ks /\ sub ks (map f_name (fc_fields c)) /\ Forall (outside (map f_name (fc_fields c))) ep.
Proof.
  intros U ND A. unfold typed_dict_validate. destruct (validate_dict repr _ i) as [md|] eqn:VD; [|discriminate]. destruct (validate_dict_ok false _ _ _ _ A VD) as [MD NA]. cbv zeta. unfold rebind.
  set (last := if is_active _ then _ else _). set (s1 := set_extra _ s). destruct (td_loop c md i last _ _ _ _ fa_init s1) as [[a|e] s2] eqn:L; [|discriminate].
  destruct (td_loop_order _ _ _ _ _ _ _ _ _ _ _ _ [] L U ND eq_refl) as (B & ks & E1 & E2 & E3 & E4 & E5); [intros n _ []|]. cbn in E1. 
  destruct (_ || _).
  - destruct (is_nil _); [|discriminate]. intros [= <- _]. exists B, [], ks. rewrite app_nil_r, E1. auto.
  - destruct (md_iter md) as [es|] eqn:MI; [|discriminate]. rewrite E1.
    match goal with |- context [td_extras c ?u last ?p es B ?er ?s3] => destruct (td_extras c u last p es B er s3) as [[[out errs]|] s4] eqn:X end; [|discriminate].
    destruct (is_nil _); [|discriminate]. intros [= <- _].
    destruct (td_extras_order c md (fa_used a) last (st_partial s) B (map f_name (fc_fields c)) es es MD NA MI (incl_refl _)) with (ep := @nil (pyval * pyval)) (errors := fa_errors a) (out' := out) (errors' := errs) (s' := s4)
      (s := set_extra (st_extra s) (add_fields_set (length (fa_set a)) s2)) as (ep & -> & F).
    + intros n x J G. apply in_map_iff in J. destruct J as (f & <- & J). exact (E5 f x J G).
    + exists ks. split; [exact E2|]. intros n J. exact (sub_in _ _ _ _ E3 J).
    + constructor.
    + rewrite app_nil_r. exact X.
    + exists B, ep, ks. auto.
Qed.

(** ** Validating the entries again *)
Lemma calm_back s s' : calm s -> calm s' -> calm (set_extra (st_extra s) s').
Proof. intros (A & B & C & _) (_ & _ & _ & D). repeat split; assumption. Qed.
Lemma apply_loc_type p e b n : le_type (apply_error_loc p e b n) = le_type e.
Proof.
  unfold apply_error_loc. destruct b; [|reflexivity]. cbn. generalize (rev (lp_rest p)). intros l. revert e. induction l as [|i l IH]; intros e; [reflexivity|]. cbn. now rewrite IH.
Qed.

Section TypedForward.
Variable lim : bool.
Variable c : fields_cfg.
Variable repr : pyval -> str.
Variable d : list (pyval * pyval).
Variable i : input.
Variables ba bn : bool.
Hypothesis sel : ba = true \/ bn = true.
Notation get n := (dict_get (PStr n) d).
Notation md := (py_mdict repr d).
Definition picked (names : list str) : list (pyval * pyval) := flat_map (fun n => match get n with Some v => [(PStr n, v)] | None => [] end) names.
Definition again (f : field) : Prop :=
  unaliased (f_name f) (f_keys f) /\ (forall v, get (f_name f) = Some v -> fixes lim (cv_validate (f_cv f)) v) /\
  (get (f_name f) = None -> f_required f = false /\ forall l s, cv_default (f_cv f) l s = (VOk None, s)).

Lemma td_loop_forward fs : Forall again fs -> NoDup (map f_name fs) -> forall a s ks, calm s -> map fst (fa_dict a) = map PStr ks -> (forall n, In n (map f_name fs) -> ~ In n ks) ->
  exists a' s', td_loop c md i None PartialOff ba bn fs a s = (VOk a', s') /\ calm s' /\
    (forall n, In n (fa_used a') -> In n (map f_name fs) \/ In n (fa_used a)) /\ incl (fa_used a) (fa_used a') /\
    (forall n v, In n (map f_name fs) -> get n = Some v -> In n (fa_used a')) /\
    (lim = true /\ badl (fa_errors a') \/ fa_errors a' = fa_errors a /\ fa_dict a' = fa_dict a ++ picked (map f_name fs)) /\
    (lim = true /\ badl (fa_errors a) -> badl (fa_errors a')) /\
    (exists ks', map fst (fa_dict a') = map PStr (ks ++ ks') /\ incl ks' (map f_name fs)).
Proof.
  induction 1 as [|f fs (U & HV & HN) F IH]; intros ND a s ks C M N; cbn [td_loop map].
  - exists a, s. split; [reflexivity|]. split; [exact C|]. split; [now right|]. split; [apply incl_refl|]. split; [easy|]. split; [right; now rewrite app_nil_r|]. split; [easy|]. exists []. rewrite app_nil_r. split; [exact M|easy].
  - cbn [map] in ND. inversion ND as [|? ? ND1 ND2]; subst. specialize (IH ND2). cbv zeta.
    assert (S : collection_select (f_keys f) ba bn = BOk (Simple (path_from_str (f_name f)))). { rewrite U. destruct ba, bn; try reflexivity. destruct sel; discriminate. }
    rewrite S. cbn [py_mdict md_get py_get_dict_item path_from_str lp_first].
    destruct (get (f_name f)) as [v|] eqn:G; cbn [option_map fst snd].
    + cbn [lp_first last_is]. unfold rebind. set (s1 := set_extra (set_field_name _ _) _).
      assert (C1 : calm s1) by (apply calm_name, calm_partial, calm_data, C). destruct (HV v eq_refl s1 C1) as [C2 R]. destruct (cv_validate (f_cv f) (IPy v) s1) as [r s2]. cbn in C2, R.
      match goal with |- context [set_extra ?x s2] => assert (C3 : calm (set_extra x s2)) by (apply (calm_back (set_partial PartialOff (set_extra (set_data (Some (fa_dict a)) (st_extra s)) s))); [apply calm_partial, calm_data, C|exact C2]) end.
      destruct R as [->|(L & e & -> & l & -> & BL)].
      * match goal with |- context [td_loop c md i None PartialOff ba bn fs ?a1 ?s3] => destruct (IH a1 s3 (ks ++ [f_name f]) C3) as (a' & s' & -> & C' & I1 & I2 & I3 & I4 & I5 & ks' & I6 & I7) end.
        -- cbn. rewrite (dict_set_str_new _ _ _ ks M (N _ (or_introl eq_refl))), !map_app, M. reflexivity.
        -- intros m J K. apply in_app_or in K. destruct K as [K|[<-|[]]]; [revert K; apply N; now right|contradiction].
        -- exists a', s'. split; [reflexivity|]. split; [exact C'|]. split; [|split; [|split; [|split; [|split]]]].
           ++ intros n J. destruct (I1 n J) as [K|[<-|K]]; [left; now right|left; now left|now right].
           ++ intros n J. apply I2. now right.
           ++ intros n w [<-|J] W; [apply I2; now left|exact (I3 n w J W)].
           ++ destruct I4 as [I4|[I4 I4']]; [now left|right]. split; [exact I4|]. cbn in I4'. rewrite (dict_set_str_new _ _ _ ks M (N _ (or_introl eq_refl))) in I4'. rewrite I4'. cbn [picked flat_map]. rewrite G, <- app_assoc. reflexivity.
           ++ exact I5.
           ++ exists (f_name f :: ks'). rewrite I6, <- app_assoc. split; [reflexivity|]. intros n [<-|J]; [now left|right; now apply I7].
      * rewrite orb_true_l. match goal with |- context [td_loop c md i None PartialOff ba bn fs ?a1 ?s3] => assert (BB : badl (fa_errors a1)) end.
        { cbn. apply badl_r, badl_outer; [intros x; apply apply_loc_type|exact BL]. }
        match goal with |- context [td_loop c md i None PartialOff ba bn fs ?a1 ?s3] => destruct (IH a1 s3 ks C3) as (a' & s' & -> & C' & I1 & I2 & I3 & I4 & I5 & ks' & I6 & I7) end.
        -- exact M.
        -- intros m J K. revert K. apply N. now right.
        -- exists a', s'. split; [reflexivity|]. split; [exact C'|]. split; [|split; [|split; [|split; [|split]]]].
           ++ intros n J. destruct (I1 n J) as [K|[<-|K]]; [left; now right|left; now left|now right].
           ++ intros n J. apply I2. now right.
           ++ intros n w [<-|J] W; [apply I2; now left|exact (I3 n w J W)].
           ++ left. split; [exact L|]. now apply I5.
           ++ intros _. now apply I5.
           ++ exists ks'. split; [exact I6|]. intros n J. right. now apply I7.
    + destruct (HN eq_refl) as [RQ DF]. rewrite DF, RQ.
      match goal with |- context [td_loop c md i None PartialOff ba bn fs a ?s3] => destruct (IH a s3 ks (calm_data _ _ C) M) as (a' & s' & -> & C' & I1 & I2 & I3 & I4 & I5 & ks' & I6 & I7) end.
      * intros m J K. revert K. apply N. now right.
      * exists a', s'. split; [reflexivity|]. split; [exact C'|]. split; [|split; [|split; [|split; [|split]]]].
        -- intros n J. destruct (I1 n J) as [K|K]; [left; now right|now right].
        -- exact I2.
        -- intros n w [<-|J] W; [congruence|exact (I3 n w J W)].
        -- destruct I4 as [I4|[I4 I4']]; [now left|right]. split; [exact I4|]. rewrite I4'. cbn [picked flat_map]. now rewrite G.
        -- exact I5.
        -- exists ks'. split; [exact I6|]. intros n J. right. now apply I7.
Qed.

Lemma td_extras_forward used es : fc_extra c = ExtraAllow \/ (forall a b, In (a, b) es -> exists n, a = PStr n /\ mem_str n used = true) ->
  (forall a b, In (a, b) es -> exists n, a = PStr n /\ (mem_str n used = true \/ forall v, fc_extras c = Some v -> fixes lim v b)) ->
  distinct fst es -> forall out errors s, calm s -> (forall a b, In (a, b) es -> (exists n, a = PStr n /\ mem_str n used = true) \/ Forall (fun kv => py_eq (fst kv) a = false) out) ->
  exists out' errors' s', td_extras c used None PartialOff (py_entries repr es) out errors s = (VOk (out', errors'), s') /\ calm s' /\
    (lim = true /\ badl errors' \/ errors' = errors /\ out' = out ++ filter (fun kv => match fst kv with PStr n => negb (mem_str n used) | _ => false end) es) /\
    (badl errors -> badl errors').
Proof.
  induction es as [|[a b] es IH]; intros X H D out errors s C N; cbn [py_entries map td_extras].
  - exists out, errors, s. split; [reflexivity|]. split; [exact C|]. split; [right; now rewrite app_nil_r|auto].
  - inversion D as [|? ? D1 D2]; subst. 
    assert (X' : fc_extra c = ExtraAllow \/ (forall a b, In (a, b) es -> exists n, a = PStr n /\ mem_str n used = true)) by (destruct X as [X|X]; [now left|right; intros; eapply X; right; eassumption]).
    assert (H' : forall a b, In (a, b) es -> exists n, a = PStr n /\ (mem_str n used = true \/ forall v, fc_extras c = Some v -> fixes lim v b)) by (intros; eapply H; right; eassumption).
    specialize (IH X' H' D2). destruct (H a b (or_introl eq_refl)) as (n & -> & HB). cbn [fst snd key_str as_str filter]. fold (py_entries repr es).
    assert (N' : forall a b, In (a, b) es -> (exists n, a = PStr n /\ mem_str n used = true) \/ Forall (fun kv => py_eq (fst kv) a = false) out) by (intros; eapply N; right; eassumption).
    destruct (mem_str n used) eqn:MEM; cbn [negb]; [exact (IH out errors s C N')|].
    destruct HB as [HB|HB]; [discriminate|]. destruct X as [X|X]; [|destruct (X _ _ (or_introl eq_refl)) as (m & [= <-] & Q); congruence]. rewrite X.
    assert (NW : Forall (fun kv => py_eq (fst kv) (PStr n) = false) out). { destruct (N _ _ (or_introl eq_refl)) as [(m & [= <-] & Q)|Q]; [congruence|exact Q]. }
    assert (N2 : forall a b', In (a, b') es -> (exists n, a = PStr n /\ mem_str n used = true) \/ Forall (fun kv => py_eq (fst kv) a = false) (out ++ [(PStr n, b)])).
    { intros a' b' J. destruct (N' _ _ J) as [Q|Q]; [now left|right]. apply Forall_app. split; [exact Q|]. constructor; [|constructor]. cbn. rewrite Forall_forall in D1. exact (D1 _ J). }
    destruct (fc_extras c) as [v|] eqn:FX.
    + cbn [last_is]. destruct (HB v eq_refl _ (calm_partial _ C)) as [C2 R]. destruct (v (IPy b) _) as [r s2]. cbn in C2, R. destruct R as [->|(L & e & -> & l & -> & BL)].
      * rewrite (dict_set_new _ _ _ NW). destruct (IH (out ++ [(PStr n, b)]) errors s2 C2 N2) as (out' & errs' & s' & -> & C' & Q & Q').
        exists out', errs', s'. split; [reflexivity|]. split; [exact C'|]. rewrite <- app_assoc in Q. now split.
      * destruct (IH out (errors ++ map (with_outer (py_loc repr (PStr n))) l) s2 C2 N') as (out' & errs' & s' & -> & C' & Q & Q').
        assert (BB : badl errs') by (apply Q', badl_r, badl_outer; [reflexivity|exact BL]). exists out', errs', s'. split; [reflexivity|]. split; [exact C'|]. split; [left; now split|auto].
    + cbn [input_object]. rewrite (dict_set_new _ _ _ NW). destruct (IH (out ++ [(PStr n, b)]) errors s C N2) as (out' & errs' & s' & -> & C' & Q & Q').
      exists out', errs', s'. split; [reflexivity|]. split; [exact C'|]. rewrite <- app_assoc in Q. now split.
Qed.
End TypedForward.
Lemma get_outside names n ep : In n names -> Forall (outside names) ep -> dict_get (PStr n) ep = None.
Proof.
  intros J. induction 1 as [|[a b] ep (m & Q & NM) F IH]; [reflexivity|]. cbn in Q |- *. subst a. rewrite str_neq; [exact IH|]. intros ->. contradiction.
Qed.
Lemma get_absent n d ks ep : map fst d = map PStr ks -> ~ In n ks -> dict_get (PStr n) (d ++ ep) = dict_get (PStr n) ep.
Proof.
  revert ks. induction d as [|[a b] d IH]; intros ks M N; [reflexivity|]. destruct ks as [|k ks]; [discriminate|]. cbn in M. injection M as -> M. cbn [dict_get app]. rewrite str_neq; [|intros ->; apply N; now left]. apply (IH ks M). intros Q. apply N. now right.
Qed.
Lemma picked_all names ep : forall ks fp, NoDup names -> sub ks names -> map fst fp = map PStr ks -> Forall (outside names) ep -> picked (fp ++ ep) names = fp.
Proof.
  assert (G : forall ks names', sub ks names' -> forall fp, NoDup names' -> incl names' names -> map fst fp = map PStr ks -> Forall (outside names) ep -> picked (fp ++ ep) names' = fp).
  { induction 1 as [|x ks m S IH|x ks m S IH]; intros fp ND IN M F.
    - destruct fp; [reflexivity|discriminate].
    - inversion ND; subst. cbn [picked flat_map]. rewrite (get_absent x fp ks ep M); [|intros J; apply (sub_in _ _ _ _ S) in J; contradiction].
      rewrite (get_outside names x ep); [|apply IN; now left|exact F]. cbn [app]. apply IH; auto. intros y Y. apply IN. now right.
    - inversion ND as [|? ? NX ND']; subst. destruct fp as [|[a v] fp]; [discriminate|]. cbn [map fst] in M. injection M as -> M.
      cbn [picked flat_map app dict_get]. rewrite str_key_refl. cbn [app]. f_equal.
      transitivity (picked (fp ++ ep) m); [|apply IH; auto; intros y Y; apply IN; now right].
      assert (C : forall l, (forall y, In y l -> y <> x) -> picked ((PStr x, v) :: fp ++ ep) l = picked (fp ++ ep) l).
      { induction l as [|y l IHl]; intros Y; [reflexivity|]. cbn [picked flat_map dict_get]. rewrite str_neq by (intros Z; apply (Y y (or_introl eq_refl)); congruence). f_equal. apply IHl. intros; apply Y; now right. }
      apply C. intros y Y ->. contradiction. }
  intros. eapply G; eauto. apply incl_refl.
Qed.
Lemma mem_true n l : In n l -> mem_str n l = true.
Proof. intros J. destruct (mem_str n l) eqn:Q; [reflexivity|]. now apply mem_false in Q. Qed.
Lemma mem_not n l : ~ In n l -> mem_str n l = false.
Proof. intros J. destruct (mem_str n l) eqn:Q; [|reflexivity]. exfalso. apply J. unfold mem_str in Q. apply existsb_exists in Q. destruct Q as (m & M & E). apply str_eqb_eq in E. now subst m. Qed.
Lemma get_some_first n v d : dict_get (PStr n) d = Some v -> (forall a, In a (map fst d) -> exists m, a = PStr m) -> In (PStr n, v) d.
Proof.
  induction d as [|[a b] d IH]; [discriminate|]. cbn [dict_get]. intros H S. destruct (S a (or_introl eq_refl)) as [m ->]. destruct (py_eq _ _) eqn:Q; [apply str_key_eq in Q; injection H as ->; left; congruence|].
  right. apply IH; [exact H|]. intros x X. apply S. now right.
Qed.
Lemma get_in n v d : distinct fst d -> In (PStr n, v) d -> dict_get (PStr n) d = Some v.
Proof.
  induction d as [|[a b] d IH]; [easy|]. intros D J. inversion D as [|? ? D1 D2]; subst. cbn [dict_get]. destruct J as [[= -> ->]|J]; [now rewrite str_key_refl|].
  rewrite Forall_forall in D1. pose proof (D1 _ J) as Q. cbn in Q. rewrite Q. exact (IH D2 J).
Qed.

Lemma typed_stays lim c repr fp ep ks :
  let names := map f_name (fc_fields c) in let d := fp ++ ep in
  NoDup names -> distinct fst d -> map fst fp = map PStr ks -> sub ks names -> Forall (outside names) ep ->
  (ep <> [] -> fc_extra c = ExtraAllow) -> (forall a b v, In (a, b) ep -> fc_extras c = Some v -> fixes lim v b) ->
  Forall (again lim d) (fc_fields c) -> (fc_by_alias c <> Some false \/ fc_by_name c = Some true) ->
  fixes lim (typed_dict_validate c (validate_dict repr)) (PDict d).
Proof.
  intros names d ND D MF SB OUT EA EX AG SEL s C. unfold typed_dict_validate, validate_dict. cbn [dict_items strip]. cbv zeta. rewrite (calm_off _ C). cbn [is_active]. cbv iota.
  set (ba := validate_by_alias_or s (fc_by_alias c)). set (bn := validate_by_name_or s (fc_by_name c)).
  assert (SEL' : ba = true \/ bn = true).
  { destruct C as (_ & A & B & _). unfold ba, bn, validate_by_alias_or, validate_by_name_or. rewrite A, B. cbn. destruct SEL as [SEL|SEL]; [left|right]; [destruct (fc_by_alias c) as [[]|]; [reflexivity|now destruct SEL|reflexivity]|now rewrite SEL]. }
  unfold rebind. set (s1 := set_extra _ s). assert (C1 : calm s1) by (apply calm_data, C).
  destruct (td_loop_forward lim c repr d (IPy (PDict d)) ba bn SEL' (fc_fields c) AG ND fa_init s1 [] C1 eq_refl (fun _ _ F => F)) as (a & s2 & -> & C2 & U1 & _ & U2 & R & _ & ks' & DK & DN).
  assert (C3 : calm (set_extra (st_extra s) (add_fields_set (length (fa_set a)) s2))) by (apply (calm_back s); [exact C|apply calm_fields, C2]).
  set (s3 := set_extra _ (add_fields_set _ s2)) in *. fold names in U1, U2, R. cbn [fa_init fa_dict fa_errors fa_used app] in R, U1. unfold d in R. rewrite (picked_all names ep ks fp ND SB MF OUT) in R.
  assert (FIN : forall out errs (s' : state), calm s' -> (lim = true /\ badl errs \/ errs = [] /\ out = d) -> back lim (PDict d) (if is_nil errs then (VOk (PDict out), s') else (VErr (LineErrors errs), s'))).
  { intros out errs s' C' [[L B]|[-> ->]]; [|split; [exact C'|now left]]. rewrite (badl_nonnil _ B). split; [exact C'|right]. split; [exact L|]. eexists. split; [reflexivity|]. now exists errs. }
  destruct (extra_behavior_eqb (fc_extra c) ExtraIgnore || md_is_attr (py_mdict repr d)) eqn:IG.
  - apply FIN; [exact C3|]. destruct R as [R|[R1 R2]]; [now left|right]. split; [exact R1|]. rewrite R2. unfold d. destruct ep as [|x ep]; [now rewrite app_nil_r|]. rewrite EA in IG by discriminate. discriminate.
  - cbn [py_mdict md_iter]. fold (py_entries repr d).
    assert (MU : forall n, In n ks -> mem_str n (fa_used a) = true).
    { intros n J. apply mem_true. assert (K : In (PStr n) (map fst fp)) by (rewrite MF; now apply in_map). apply in_map_iff in K. destruct K as ([x v] & Q & K). cbn in Q. subst x.
      apply (U2 n v); [exact (sub_in _ _ _ _ SB J)|]. apply get_in; [exact D|]. apply in_or_app. now left. }
    assert (FPE : forall x b, In (x, b) fp -> exists n, x = PStr n /\ In n ks). { intros x b J. apply (in_map fst) in J. rewrite MF in J. apply in_map_iff in J. destruct J as (n & Q & J). cbn [fst] in Q. now exists n. }
    assert (EPE0 : forall x b, In (x, b) ep -> exists n, x = PStr n /\ ~ In n names). { intros x b J. rewrite Forall_forall in OUT. destruct (OUT _ J) as (n & Q & K). now exists n. }
    assert (EPE : forall x b, In (x, b) ep -> exists n, x = PStr n /\ mem_str n (fa_used a) = false).
    { intros x b J. rewrite Forall_forall in OUT. destruct (OUT _ J) as (n & Q & K). cbn in Q. exists n. split; [exact Q|]. apply mem_not. intros W. apply U1 in W. destruct W as [W|W]; [contradiction|exact W]. }
    destruct (td_extras_forward lim c repr (fa_used a) d) with (out := fa_dict a) (errors := fa_errors a) (s := s3) as (out & errs & s4 & -> & C4 & Q & Q').
    + destruct ep as [|x ep']; [right|left; apply EA; discriminate]. intros x b J. unfold d in J. rewrite app_nil_r in J. destruct (FPE x b J) as (n & -> & K). exists n. split; [reflexivity|now apply MU].
    + intros x b J. unfold d in J. apply in_app_or in J. destruct J as [J|J].
      * destruct (FPE x b J) as (n & -> & K). exists n. split; [reflexivity|left; now apply MU].
      * destruct (EPE x b J) as (n & -> & K). exists n. split; [reflexivity|right]. intros v V. exact (EX _ _ _ J V).
    + exact D.
    + exact C3.
    + intros x b J. unfold d in J. apply in_app_or in J. destruct J as [J|J].
      * left. destruct (FPE x b J) as (n & -> & K). exists n. split; [reflexivity|now apply MU].
      * right. destruct (EPE0 x b J) as (n & -> & K). apply Forall_forall. intros [y w] Y. apply (in_map fst) in Y. rewrite DK in Y. apply in_map_iff in Y. destruct Y as (m & Q & Y). cbn in Q |- *. subst y. apply str_neq. intros ->. apply K. now apply DN.
    + apply FIN; [exact C4|]. destruct R as [[L B]|[R1 R2]]; [left; split; [exact L|now apply Q']|]. destruct Q as [Q|[Q1 Q2]]; [now left|right]. split; [congruence|]. rewrite Q2, R2. unfold d. f_equal.
      rewrite filter_app. assert (Z1 : filter (fun kv : pyval * pyval => match fst kv with PStr n => negb (mem_str n (fa_used a)) | _ => false end) fp = []).
      { clear - FPE MU. induction fp as [|[x b] fp IH]; [reflexivity|]. cbn. destruct (FPE x b (or_introl eq_refl)) as (n & -> & K). rewrite (MU n K). cbn. apply IH. intros; eapply FPE; right; eassumption. }
      assert (Z2 : filter (fun kv : pyval * pyval => match fst kv with PStr n => negb (mem_str n (fa_used a)) | _ => false end) ep = ep).
      { clear - EPE. induction ep as [|[x b] ep IH]; [reflexivity|]. cbn. destruct (EPE x b (or_introl eq_refl)) as (n & -> & K). rewrite K. cbn. f_equal. apply IH. intros; eapply EPE; right; eassumption. }
      rewrite Z1, Z2. reflexivity.
Qed.

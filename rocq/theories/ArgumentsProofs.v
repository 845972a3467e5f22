(** Lemmas about call arguments. *)
From Coq Require Import List NArith ZArith Bool Lia Arith.
From Verif Require Import Base Float64 Values VState LookupKey LookupKeySpec LookupKeyProofs LookupKeyProps Collections CollectionsSpec CollectionsProofs Child Inputs ModelFields ModelFieldsSpec ModelFieldsProofs Assign AssignSpec AssignProofs Arguments ArgumentsSpec.
Import ListNotations.
Open Scope nat_scope.

Lemma key_error_at key t i b n : built_key key ->
  exists e, key_error key t i b n = Some e /\ [e] = map (fun p => error_at t i (field_loc b p n)) (firstn 1 (paths_of key)).
Proof.
  intros [_ B]. unfold key_error, field_loc, error_at.
  assert (F : exists p, first_of key = Some p /\ firstn 1 (paths_of key) = [p]).
  { destruct key as [p|p q|ps]; [exists p; split; reflexivity..|]. destruct ps as [|p ps]; [congruence|]. exists p; split; reflexivity. }
  destruct F as (p & F1 & F2). rewrite F2. destruct b.
  - rewrite F1. eexists. split; [reflexivity|]. cbn [map]. unfold items. cbn [map rev to_loc_item]. rewrite map_rev. reflexivity.
  - eexists. split; [reflexivity|]. reflexivity.
Qed.

Definition not_line {A} (r : vres A) : Prop := match r with VErr (LineErrors _) => False | _ => True end.
Definition stops {A} (r : vres A * state) : Prop := exists e s, r = (VErr e, s).

Lemma forall_dec {A} (l : list A) (P : A -> Prop) : (forall x, P x \/ ~ P x) -> Forall P l \/ ~ Forall P l.
Proof.
  intros D. induction l as [|x l [IH|IH]]; [left; constructor| |right; intros F; inversion F; contradiction].
  destruct (D x); [left; constructor; assumption|right; intros F; inversion F; contradiction].
Qed.
Lemma surplus_regular_dec o : surplus_regular o \/ ~ surplus_regular o.
Proof. destruct o as [x [[|[| | | |]]|]]; cbn; auto. Qed.
Lemma kout_regular_dec o : kout_regular o \/ ~ kout_regular o.
Proof. destruct o as [| | | |k [|[| | | |]]]; cbn; auto. Qed.

(** * Parameters *)
Definition use_keys (ks : list str) (l : list str) : list str := fold_left (fun l k => use_key k l) ks l.
Lemma use_keys_In ks : forall l k, In k (use_keys ks l) <-> In k ks \/ In k l.
Proof.
  induction ks as [|x ks IH]; intros l k; [cbn; tauto|]. cbn [use_keys fold_left]. fold (use_keys ks (use_key x l)). rewrite IH. unfold use_key.
  destruct (mem_str x l) eqn:E.
  - apply mem_str_In in E. cbn [In]. split; [tauto|]. intros [[->|H]|H]; auto.
  - cbn [In]. tauto.
Qed.
Lemma use_keys_NoDup ks : forall l, NoDup l -> NoDup (use_keys ks l).
Proof.
  induction ks as [|x ks IH]; intros l H; [exact H|]. cbn [use_keys fold_left]. fold (use_keys ks (use_key x l)). apply IH. unfold use_key.
  destruct (mem_str x l) eqn:E; [assumption|]. constructor; [apply mem_str_not_In; assumption|assumption].
Qed.
Lemma use_keys_mem ks k : mem_str k (use_keys ks []) = mem_str k ks.
Proof.
  destruct (mem_str k ks) eqn:E.
  - apply mem_str_In. apply use_keys_In. left. apply mem_str_In. assumption.
  - apply mem_str_not_In. rewrite use_keys_In. apply mem_str_not_In in E. intros [H|[]]; contradiction.
Qed.
Lemma puts_app d a b : puts d (a ++ b) = puts (puts d a) b.
Proof. apply fold_left_app. Qed.

Section Call.
Variables (c : args_cfg) (ai : arg_input) (i : input) (ba bn : bool) (key_of : param -> lookup_key).
Definition good_param (p : param) : Prop :=
  by_keyword (pa_mode p) = true -> collection_select (pa_keys p) ba bn = BOk (key_of p) /\ built_key (key_of p).

Definition call_after (a : aacc) (vs : list (nat * param * pout)) : aacc :=
  {| aa_args := aa_args a ++ flat_map by_position vs;
     aa_kwargs := puts (aa_kwargs a) (flat_map by_name vs);
     aa_errors := aa_errors a ++ flat_map (param_errors (ac_loc_by_alias c) i key_of) vs;
     aa_used := use_keys (call_keys vs) (aa_used a) |}.
Lemma call_after_cons a x vs : call_after a (x :: vs) = call_after (call_after a [x]) vs.
Proof.
  unfold call_after. cbn [aa_args aa_kwargs aa_errors aa_used flat_map]. rewrite !app_nil_r, !app_assoc, puts_app. f_equal.
  unfold call_keys, use_keys. cbn [flat_map]. rewrite fold_left_app, app_nil_r. reflexivity.
Qed.

Lemma params_step k p ps a s o s1 : good_param p ->
  give (pa_name p) (pa_cv p) (if positional (pa_mode p) then nth_error (args_list ai) k else None)
       (keyword_value ai (if by_keyword (pa_mode p) then Some (key_of p) else None)) s = (o, s1) ->
  (pout_regular o -> params_loop c ai i ba bn k (p :: ps) a s = params_loop c ai i ba bn (S k) ps (call_after a [(k, p, o)]) s1) /\
  (~ pout_regular o -> stops (params_loop c ai i ba bn k (p :: ps) a s)).
Proof.
  intros G L. cbn [params_loop].
  replace (match ai_args ai with Some l => if positional (pa_mode p) then nth_error l k else None | None => None end)
    with (if positional (pa_mode p) then nth_error (args_list ai) k else None).
  2:{ unfold args_list, unwrap_or. destruct (ai_args ai), (positional (pa_mode p)); try reflexivity. destruct k; reflexivity. }
  set (pos := if positional (pa_mode p) then _ else None) in *.
  assert (K : exists key, (if by_keyword (pa_mode p) then match collection_select (pa_keys p) ba bn with BOk k => Some (BOk k) | BErr => Some BErr end else None) = option_map BOk key
      /\ (if by_keyword (pa_mode p) then Some (key_of p) else None) = key /\ (forall k, key = Some k -> built_key k) /\ (key = None <-> by_keyword (pa_mode p) = false)).
  { unfold good_param in G. destruct (by_keyword (pa_mode p)) eqn:B.
    - destruct (G eq_refl) as [G1 G2]. rewrite G1. exists (Some (key_of p)). split; [reflexivity|]. split; [reflexivity|]. split; [intros k' [= <-]; assumption|]. split; discriminate.
    - exists None. split; [reflexivity|]. split; [reflexivity|]. split; [discriminate|]. split; reflexivity. }
  destruct K as (key & -> & Ek & Bk & Nk). rewrite Ek in L. clear G.
  assert (KV : (match ai_kwargs ai, option_map BOk key with Some (md, _), Some (BOk k0) => md_get md k0 | _, _ => VOk None end) = keyword_value ai key).
  { unfold keyword_value. destruct (ai_kwargs ai) as [[md len]|], key; reflexivity. }
  rename KV into KV0.
  destruct key as [key|]; cbn [option_map] in *; rewrite KV0; unfold give in L.
  - destruct (keyword_value ai (Some key)) as [[[path x]|]|e].
    3:{ injection L as <- <-. split; [intros []|]. intros _. eexists _, _. reflexivity. }
    + destruct pos as [y|].
      * injection L as <- <-. split; [|intros H; destruct H; exact I]. intros _. f_equal. unfold call_after, call_keys, aa_use, aa_add. cbn. rewrite !app_nil_r. reflexivity.
      * destruct (rebind _ s _) as [r s'] eqn:R. injection L as <- <-.
        destruct r as [v|[es| | | |]]; cbn [pout_regular]; (split; [intros Hr; try destruct Hr|intros Hr; first [destruct Hr; exact I | eexists _, _; reflexivity]]).
        -- f_equal. unfold call_after, call_keys, aa_use, aa_put. cbn. rewrite !app_nil_r. reflexivity.
        -- f_equal. unfold call_after, call_keys, aa_use, aa_add. cbn. rewrite !app_nil_r. f_equal. f_equal. apply map_ext. intros e. apply apply_error_loc_under.
    + destruct pos as [y|].
      * destruct (rebind _ s _) as [r s'] eqn:R. injection L as <- <-.
        destruct r as [v|[es| | | |]]; cbn [pout_regular]; (split; [intros Hr; try destruct Hr|intros Hr; first [destruct Hr; exact I | eexists _, _; reflexivity]]).
        -- f_equal. unfold call_after, call_keys, aa_push. cbn. rewrite !app_nil_r. reflexivity.
        -- f_equal. unfold call_after, call_keys, aa_add. cbn. rewrite !app_nil_r. reflexivity.
      * destruct (rebind _ s _) as [r s'] eqn:R. injection L as <- <-.
        destruct r as [[v|]|e]; cbn [pout_regular]; (split; [intros Hr; try destruct Hr|intros Hr; first [destruct Hr; exact I | eexists _, _; reflexivity]]).
        -- f_equal. unfold call_after, call_keys, aa_put, aa_push. cbn [flat_map by_position by_name snd fst param_errors pout_key app use_keys fold_left].
           rewrite !app_nil_r. destruct (by_keyword (pa_mode p)); cbn; rewrite ?app_nil_r; reflexivity.
        -- destruct (key_error_at key (if positional (pa_mode p) then EMissingArgument else EMissingKeywordOnly) i (ac_loc_by_alias c) (pa_name p) (Bk _ eq_refl)) as (e & -> & Ee).
           f_equal. unfold call_after, call_keys, aa_add. cbn [flat_map by_position by_name snd fst param_errors pout_key app use_keys fold_left puts]. rewrite !app_nil_r.
           destruct (pa_mode p); cbn [by_keyword] in *; [discriminate| |]; injection Ek as ->; cbn [positional] in Ee; rewrite Ee; reflexivity.
  - assert (M : pa_mode p = PosOnly) by (pose proof (proj1 Nk eq_refl) as M; destruct (pa_mode p); [reflexivity|discriminate M..]).
    assert (KN : keyword_value ai None = VOk None) by (unfold keyword_value; destruct (ai_kwargs ai) as [[? ?]|]; reflexivity).
    rewrite KN in *. destruct pos as [y|].
    + destruct (rebind _ s _) as [r s'] eqn:R. injection L as <- <-.
      destruct r as [v|[es| | | |]]; cbn [pout_regular]; (split; [intros Hr; try destruct Hr|intros Hr; first [destruct Hr; exact I | eexists _, _; reflexivity]]).
      * f_equal. unfold call_after, call_keys, aa_push. cbn. rewrite !app_nil_r. reflexivity.
      * f_equal. unfold call_after, call_keys, aa_add. cbn. rewrite !app_nil_r. reflexivity.
    + destruct (rebind _ s _) as [r s'] eqn:R. injection L as <- <-.
      destruct r as [[v|]|e]; cbn [pout_regular]; (split; [intros Hr; try destruct Hr|intros Hr; first [destruct Hr; exact I | eexists _, _; reflexivity]]).
      * f_equal. unfold call_after, call_keys, aa_put, aa_push. cbn [flat_map by_position by_name snd fst param_errors pout_key app use_keys fold_left].
        rewrite M. cbn. rewrite !app_nil_r. reflexivity.
      * f_equal. unfold call_after, call_keys, aa_add. cbn [flat_map by_position by_name snd fst param_errors pout_key app use_keys fold_left puts]. rewrite M, !app_nil_r. reflexivity.
Qed.

Lemma pout_regular_dec o : pout_regular o \/ ~ pout_regular o.
Proof. destruct o as [|p x|[|[| | | |]]|p [|[| | | |]]|[|]]; cbn; auto. Qed.

Lemma params_run ps : forall k a s vs s', Forall good_param ps -> params_trace ai key_of k ps s = (vs, s') ->
  (Forall (fun kpo => pout_regular (snd kpo)) vs -> params_loop c ai i ba bn k ps a s = (VOk (call_after a vs), s')) /\
  (~ Forall (fun kpo => pout_regular (snd kpo)) vs -> stops (params_loop c ai i ba bn k ps a s)).
Proof.
  induction ps as [|p ps IH]; intros k a s vs s' G T.
  - cbn in T. injection T as <- <-. split; [|intros H; destruct H; constructor]. intros _. cbn. unfold call_after, call_keys. cbn. rewrite !app_nil_r. destruct a; reflexivity.
  - cbn [params_trace] in T. destruct (give _ _ _ _ s) as [o s1] eqn:L. destruct (params_trace ai key_of (S k) ps s1) as [os s2] eqn:T2. injection T as <- <-.
    inversion G as [|? ? G1 G2]; subst. destruct (params_step k p ps a s o s1 G1 L) as [S1 S2].
    destruct (IH (S k) (call_after a [(k, p, o)]) s1 os s2 G2 T2) as [I1 I2]. split.
    + intros F. inversion F; subst. rewrite S1 by assumption. rewrite (call_after_cons a (k, p, o) os). apply I1. assumption.
    + intros F. destruct (pout_regular_dec o) as [D|D]; [|apply S2; exact D].
      rewrite S1 by assumption. apply I2. intros F'. apply F. constructor; assumption.
Qed.
End Call.

(** * Surplus positional arguments *)
Lemma surplus_run v xs : forall k a s os s', surplus_trace v xs s = (os, s') ->
  (Forall surplus_regular os -> var_args_loop v k xs a s =
     (VOk {| aa_args := aa_args a ++ surplus_values os; aa_kwargs := aa_kwargs a; aa_errors := aa_errors a ++ surplus_errors k os; aa_used := aa_used a |}, s')) /\
  (~ Forall surplus_regular os -> stops (var_args_loop v k xs a s)).
Proof.
  induction xs as [|x xs IH]; intros k a s os s' T.
  - cbn in T. injection T as <- <-. split; [|intros H; destruct H; constructor]. intros _. cbn. rewrite !app_nil_r. destruct a; reflexivity.
  - cbn [surplus_trace] in T. cbn [var_args_loop]. destruct v as [v|].
    + destruct (v x s) as [r s1] eqn:V. destruct (surplus_trace (Some v) xs s1) as [os1 s2] eqn:T1. injection T as <- <-.
      destruct r as [w|[es| | | |]].
      * destruct (IH (S k) (aa_push w a) s1 os1 s2 T1) as [I1 I2]. split.
        -- intros F. inversion F; subst. rewrite I1 by assumption. cbn. rewrite <- app_assoc. reflexivity.
        -- intros F. apply I2. intros F'. apply F. constructor; [exact I|assumption].
      * destruct (IH (S k) (aa_add (map (with_outer (index_loc k)) es) a) s1 os1 s2 T1) as [I1 I2]. split.
        -- intros F. inversion F; subst. rewrite I1 by assumption. cbn. rewrite <- app_assoc. reflexivity.
        -- intros F. apply I2. intros F'. apply F. constructor; [exact I|assumption].
      * split; [intros F; inversion F; contradiction|]. intros _. eexists _, _. reflexivity.
      * split; [intros F; inversion F; contradiction|]. intros _. eexists _, _. reflexivity.
      * split; [intros F; inversion F; contradiction|]. intros _. eexists _, _. reflexivity.
      * split; [intros F; inversion F; contradiction|]. intros _. eexists _, _. reflexivity.
    + destruct (surplus_trace None xs s) as [os1 s2] eqn:T1. injection T as <- <-.
      destruct (IH (S k) (aa_add [new_error_loc EUnexpectedPositional x (index_loc k)] a) s os1 s2 T1) as [I1 I2]. split.
      -- intros F. inversion F; subst. rewrite I1 by assumption. cbn. rewrite <- app_assoc. reflexivity.
      -- intros F. apply I2. intros F'. apply F. constructor; [exact I|assumption].
Qed.

(** * Surplus keyword arguments *)
Lemma key_str_err key e : key_str key = VErr e -> e = LineErrors [new_error EStringType key].
Proof. unfold key_str, val_err. destruct key as [v|[| | | | | |]|k|v]; try (destruct (as_str v)); congruence. Qed.

Definition keys_after (c : args_cfg) (a : aacc) (xs : list (input * loc_item * input)) (os : list kout) : aacc :=
  {| aa_args := aa_args a; aa_kwargs := if ac_unpacked c then aa_kwargs a else puts (aa_kwargs a) (kout_kept os);
     aa_errors := aa_errors a ++ flat_map kout_errors (combine xs os); aa_used := aa_used a |}.

Lemma keys_run c xs : forall rem a s os s', keys_trace (aa_used a) (call_policy c) xs s = (os, s') ->
  (Forall kout_regular os -> var_kwargs_loop c (map to_entry xs) rem a s =
     (VOk (keys_after c a xs os, if ac_unpacked c then puts rem (kout_kept os) else rem), s')) /\
  (~ Forall kout_regular os -> stops (var_kwargs_loop c (map to_entry xs) rem a s)).
Proof.
  induction xs as [|x xs IH]; intros rem a s os s' T.
  - cbn in T. injection T as <- <-. split; [|intros H; destruct H; constructor]. intros _. cbn. unfold keys_after. cbn. rewrite app_nil_r. destruct (ac_unpacked c), a; reflexivity.
  - cbn [keys_trace] in T. destruct (key_look _ _ x s) as [o s1] eqn:L. destruct (keys_trace _ _ xs s1) as [os1 s2] eqn:T1. injection T as <- <-.
    destruct x as [[key kloc] value]. unfold key_look in L. cbn [fst snd] in L. cbn [map]. change (to_entry (key, kloc, value)) with (Entry key kloc value). cbn [var_kwargs_loop].
    assert (K : forall rem' a', aa_used a' = aa_used a -> kout_regular o ->
      keys_after c a' xs os1 = keys_after c a ((key, kloc, value) :: xs) (o :: os1) ->
      (if ac_unpacked c then puts rem' (kout_kept os1) else rem') = (if ac_unpacked c then puts rem (kout_kept (o :: os1)) else rem) ->
      (Forall kout_regular (o :: os1) -> var_kwargs_loop c (map to_entry xs) rem' a' s1 = (VOk (keys_after c a ((key, kloc, value) :: xs) (o :: os1), if ac_unpacked c then puts rem (kout_kept (o :: os1)) else rem), s2)) /\
      (~ Forall kout_regular (o :: os1) -> stops (var_kwargs_loop c (map to_entry xs) rem' a' s1))).
    { intros rem' a' U R E1 E2. destruct (IH rem' a' s1 os1 s2) as [I1 I2]; [rewrite U; exact T1|]. split.
      - intros F. inversion F; subst. rewrite I1 by assumption. rewrite E1, E2. reflexivity.
      - intros F. apply I2. intros F'. apply F. constructor; assumption. }
    destruct (key_str key) as [k|e] eqn:Ek.
    2:{ rewrite (key_str_err key e Ek). injection L as <- <-. apply K; try exact I; try reflexivity. unfold keys_after, aa_add. cbn. rewrite <- app_assoc. reflexivity. }
    destruct (mem_str k (aa_used a)).
    { injection L as <- <-. apply K; try exact I; try reflexivity. }
    unfold call_policy in L. destruct (ac_unpacked c) eqn:U.
    { injection L as <- <-. apply K; try exact I; try reflexivity. unfold keys_after. rewrite U. reflexivity. }
    destruct (ac_var_kwargs c) as [v|].
    + destruct (v value s) as [r s3] eqn:V. injection L as <- <-. destruct r as [w|[es| | | |]].
      * apply K; try exact I; try reflexivity. unfold keys_after, aa_put. rewrite U. reflexivity.
      * apply K; try exact I; try reflexivity. unfold keys_after, aa_add. cbn. rewrite <- app_assoc, U. reflexivity.
      * split; [intros F; inversion F; contradiction|]. intros _. eexists _, _. reflexivity.
      * split; [intros F; inversion F; contradiction|]. intros _. eexists _, _. reflexivity.
      * split; [intros F; inversion F; contradiction|]. intros _. eexists _, _. reflexivity.
      * split; [intros F; inversion F; contradiction|]. intros _. eexists _, _. reflexivity.
    + injection L as <- <-. destruct (ac_extra c).
      * apply K; try exact I; try reflexivity.
      * apply K; try exact I; try reflexivity. unfold keys_after, aa_add. cbn. rewrite <- app_assoc, U. reflexivity.
      * apply K; try exact I; try reflexivity.
Qed.
Lemma keys_trace_ext used used' pol xs : (forall k, mem_str k used = mem_str k used') -> forall s, keys_trace used pol xs s = keys_trace used' pol xs s.
Proof.
  intros U. induction xs as [|x xs IH]; intros s; [reflexivity|]. cbn [keys_trace]. unfold key_look. destruct (key_str (fst (fst x))) as [k|e]; [rewrite U|].
  - destruct (mem_str k used'); [|destruct (pol k (snd x) s) as [o s1]]; rewrite IH; reflexivity.
  - rewrite IH. reflexivity.
Qed.
(** No keyword is left when all of them are used. *)
Lemma keys_all_used used pol xs s : (forall x, In x xs -> exists k, key_str (fst (fst x)) = VOk k /\ mem_str k used = true) ->
  keys_trace used pol xs s = (map (fun _ => KeyUsed) xs, s).
Proof.
  induction xs as [|x xs IH]; intros H; [reflexivity|]. cbn [keys_trace map]. unfold key_look. destruct (H x (or_introl eq_refl)) as (k & -> & ->).
  rewrite IH; [reflexivity|]. intros y I. apply H. right; assumption.
Qed.
Definition key_list (xs : list (input * loc_item * input)) : list str := flat_map (fun x => match key_str (fst (fst x)) with VOk k => [k] | _ => [] end) xs.
Lemma key_list_length xs : length (key_list xs) <= length xs.
Proof. induction xs as [|x xs IH]; [cbn; lia|]. cbn [key_list flat_map length]. fold (key_list xs). rewrite app_length. destruct (key_str _); cbn; lia. Qed.
Lemma key_list_full xs : length (key_list xs) = length xs -> forall x, In x xs -> exists k, key_str (fst (fst x)) = VOk k.
Proof.
  induction xs as [|x xs IH]; intros E y; [intros []|intros [<-|I]].
  - destruct (key_str (fst (fst x))) as [k|e] eqn:K; [eauto|]. cbn [key_list flat_map] in E. fold (key_list xs) in E. rewrite K in E. cbn in E. pose proof (key_list_length xs). lia.
  - apply IH; [|assumption]. cbn [key_list flat_map] in E. fold (key_list xs) in E. rewrite app_length in E. pose proof (key_list_length xs). destruct (key_str (fst (fst x))); cbn in E; lia.
Qed.
Lemma used_up used xs : NoDup used -> (forall k, In k used -> In k (key_list xs)) -> length xs <= length used ->
  forall x, In x xs -> exists k, key_str (fst (fst x)) = VOk k /\ mem_str k used = true.
Proof.
  intros Nd Sub Le x I.
  assert (L1 : length used <= length (key_list xs)) by (apply NoDup_incl_length; assumption).
  pose proof (key_list_length xs) as L2.
  destruct (key_list_full xs ltac:(lia) x I) as (k & K). exists k. split; [assumption|]. apply mem_str_In.
  apply (NoDup_length_incl Nd (l' := key_list xs)); [lia|assumption|]. unfold key_list. apply in_flat_map. exists x. rewrite K. cbn. auto.
Qed.

(** The used keys are among the keyword arguments. *)
Lemma give_key ai name cv pos key s o s1 xs : kwargs_are (ai_kwargs ai) xs -> give name cv pos (keyword_value ai key) s = (o, s1) ->
  forall k, In k (pout_key o) -> In k (key_list xs).
Proof.
  intros Hk G k Ik. unfold give, keyword_value in G. destruct (ai_kwargs ai) as [[md len]|]; [destruct key as [key|]|].
  - destruct Hk as (_ & _ & Hk). destruct (md_get md key) as [[[p x]|]|e] eqn:Eg.
    + destruct (Hk _ _ _ Eg) as (e & Ie & Ke).
      assert (k = lp_first p).
      { destruct pos; [|destruct (rebind _ s _)]; injection G as <- <-; cbn in Ik; destruct Ik as [<-|[]]; reflexivity. }
      subst k. apply in_flat_map. exists e. rewrite Ke. cbn. auto.
    + destruct pos; destruct (rebind _ s _); injection G as <- <-; destruct Ik.
    + injection G as <- <-. destruct Ik.
  - destruct pos; destruct (rebind _ s _); injection G as <- <-; destruct Ik.
  - destruct pos; destruct (rebind _ s _); injection G as <- <-; destruct Ik.
Qed.
Lemma call_keys_in ai key_of xs : kwargs_are (ai_kwargs ai) xs -> forall ps k s vs s', params_trace ai key_of k ps s = (vs, s') ->
  forall x, In x (call_keys vs) -> In x (key_list xs).
Proof.
  intros Hk. induction ps as [|p ps IH]; intros k s vs s' T x I.
  - cbn in T. injection T as <- <-. destruct I.
  - cbn [params_trace] in T. destruct (give _ _ _ _ s) as [o s1] eqn:L. destruct (params_trace ai key_of (S k) ps s1) as [os s2] eqn:T2. injection T as <- <-.
    cbn [call_keys flat_map snd] in I. apply in_app_or in I. destruct I as [I|I].
    + eapply give_key; eassumption.
    + eapply IH; eassumption.
Qed.

Lemma positional_count_ordered ps : forall k, ordered ps -> positional_count_from k ps = (if Nat.eqb (positionals ps) 0 then 0 else k + positionals ps).
Proof.
  induction ps as [|p ps IH]; intros k; [reflexivity|]. intros [O1 O2]. cbn [positional_count_from]. rewrite (IH (S k) O2). unfold positionals. cbn [filter].
  destruct (positional (pa_mode p)) eqn:P.
  - cbn [length]. destruct (Nat.eqb_spec (length (filter (fun p0 => positional (pa_mode p0)) ps)) 0) as [E|E]; cbn [Nat.eqb]; lia.
  - assert (Z : filter (fun p0 => positional (pa_mode p0)) ps = []).
    { destruct (pa_mode p); try discriminate P. clear - O1. induction ps as [|q ps IH]; [reflexivity|]. inversion O1 as [|? ? A B]; subst. cbn [filter].
      destruct (pa_mode q); cbn in A; try lia. cbn [positional]. apply IH. assumption. }
    rewrite Z. reflexivity.
Qed.

(** * The whole validator *)
Definition call_surplus (c : args_cfg) (ai : arg_input) : list input := skipn (positional_count c) (args_list ai).

Lemma surplus_none (v : option validator) (n : nat) (l : list input) (s : state) : length l <= n -> surplus_trace v (skipn n l) s = ([], s).
Proof. intros H. rewrite skipn_all2 by assumption. reflexivity. Qed.

Lemma combine_used_errors xs : flat_map kout_errors (combine xs (map (fun _ : input * loc_item * input => KeyUsed) xs)) = [].
Proof. induction xs as [|[[a b] c] xs IH]; [reflexivity|]. cbn. exact IH. Qed.
Lemma kept_used {A} (xs : list A) : kout_kept (map (fun _ => KeyUsed) xs) = [].
Proof. induction xs; [reflexivity|]. assumption. Qed.

Section Whole.
Variables (c : args_cfg) (va : input -> vres arg_input) (i : input) (s : state) (ai : arg_input)
  (xs : list (input * loc_item * input)) (key_of : param -> lookup_key)
  (vs : list (nat * param * pout)) (ps : list (input * option (vres pyval))) (ks : list kout) (s1 s2 s3 : state).
Hypothesis Hin : va i = VOk ai.
Hypothesis Hk : kwargs_are (ai_kwargs ai) xs.
Hypothesis Hg : Forall (good_param (validate_by_alias_or s (ac_by_alias c)) (validate_by_name_or s (ac_by_name c)) key_of) (ac_params c).
Hypothesis T1 : params_trace ai key_of 0 (ac_params c) (set_partial PartialOff s) = (vs, s1).
Hypothesis T2 : surplus_trace (ac_var_args c) (call_surplus c ai) s1 = (ps, s2).
Hypothesis T3 : keys_trace (call_keys vs) (call_policy c) xs s2 = (ks, s3).

Lemma call_run :
  (call_regular vs ps ks -> arguments_validate c va i s = call_finish c i key_of xs vs ps ks s3) /\
  (~ call_regular vs ps ks -> stops (arguments_validate c va i s)).
Proof.
  unfold arguments_validate. rewrite Hin. change (validate_by_alias_or (set_partial PartialOff s)) with (validate_by_alias_or s).
  change (validate_by_name_or (set_partial PartialOff s)) with (validate_by_name_or s).
  destruct (params_run c ai i _ _ key_of (ac_params c) 0 aa_init _ _ _ Hg T1) as [P1 P2].
  destruct (forall_dec vs (fun kpo => pout_regular (snd kpo)) (fun x => pout_regular_dec (snd x))) as [D1|D1].
  2:{ destruct (P2 D1) as (e & s' & ->). split; [intros [H _]; contradiction|]. intros _. eexists _, _. reflexivity. }
  rewrite (P1 D1). clear P1 P2.
  set (a1 := call_after c i key_of aa_init vs).
  set (a2 := {| aa_args := aa_args a1 ++ surplus_values ps; aa_kwargs := aa_kwargs a1; aa_errors := aa_errors a1 ++ surplus_errors (positional_count c) ps; aa_used := aa_used a1 |}).
  assert (R2 : (Forall surplus_regular ps -> var_args_stage c ai a1 s1 = (VOk a2, s2)) /\ (~ Forall surplus_regular ps -> stops (var_args_stage c ai a1 s1))).
  { unfold var_args_stage.
    assert (Short : length (args_list ai) <= positional_count c -> ps = [] /\ s2 = s1 /\ a2 = a1).
    { intros Hl. pose proof T2 as T2'. unfold call_surplus in T2'. rewrite surplus_none in T2' by assumption. injection T2' as E1 E2.
      split; [symmetry; assumption|]. split; [symmetry; assumption|]. unfold a2. rewrite <- E1. cbn. rewrite !app_nil_r. reflexivity. }
    destruct (ai_args ai) as [l|] eqn:Ea.
    - destruct (Nat.ltb_spec (positional_count c) (length l)) as [Hl|Hl].
      + apply surplus_run. pose proof T2 as T2'. unfold call_surplus, args_list, unwrap_or in T2'. rewrite Ea in T2'. exact T2'.
      + destruct Short as (E1 & E2 & E3); [unfold args_list; rewrite Ea; exact Hl|]. rewrite E1, E2, E3. split; [reflexivity|]. intros F. destruct F. constructor.
    - destruct Short as (E1 & E2 & E3); [unfold args_list; rewrite Ea; cbn; lia|]. rewrite E1, E2, E3. split; [reflexivity|]. intros F. destruct F. constructor. }
  destruct (forall_dec ps surplus_regular surplus_regular_dec) as [D2|D2].
  2:{ destruct (proj2 R2 D2) as (e & s' & ->). split; [intros (_ & H & _); contradiction|]. intros _. eexists _, _. reflexivity. }
  rewrite (proj1 R2 D2). clear R2.
  set (a3 := keys_after c a2 xs ks).
  assert (T3' : keys_trace (aa_used a2) (call_policy c) xs s2 = (ks, s3)).
  { rewrite <- T3. apply keys_trace_ext. intros k. apply use_keys_mem. }
  assert (R3 : (Forall kout_regular ks -> var_kwargs_stage c ai a2 s2 = (VOk (a3, if ac_unpacked c then dict_of (kout_kept ks) else []), s3)) /\ (~ Forall kout_regular ks -> stops (var_kwargs_stage c ai a2 s2))).
  { unfold var_kwargs_stage. pose proof (call_keys_in ai key_of xs Hk _ _ _ _ _ T1) as Sub.
    unfold kwargs_are in Hk. destruct (ai_kwargs ai) as [[md len]|].
    - destruct Hk as (Hi & -> & _). destruct (Nat.ltb_spec (length (aa_used a2)) (length xs)) as [Hl|Hl].
      + rewrite Hi. apply keys_run. assumption.
      + assert (U : keys_trace (aa_used a2) (call_policy c) xs s2 = (map (fun _ => KeyUsed) xs, s2)).
        { apply keys_all_used. apply used_up.
          - apply use_keys_NoDup. constructor.
          - intros k Ik. apply use_keys_In in Ik. destruct Ik as [Ik|[]]. auto.
          - assumption. }
        rewrite U in T3'. injection T3' as E1 E2. subst a3. rewrite <- E1, E2. split.
        * intros _. unfold keys_after. rewrite combine_used_errors, kept_used, app_nil_r. destruct (ac_unpacked c); reflexivity.
        * intros F. destruct F. clear. induction xs; constructor; [exact I|assumption].
    - rewrite Hk in *. cbn in T3'. injection T3' as E1 E2. subst a3. rewrite <- E1, E2. split.
      + intros _. unfold keys_after. rewrite Hk. cbn [combine flat_map kout_kept puts fold_left]. rewrite ?app_nil_r. destruct (ac_unpacked c); reflexivity.
      + intros F. destruct F. constructor. }
  destruct (forall_dec ks kout_regular kout_regular_dec) as [D3|D3].
  2:{ destruct (proj2 R3 D3) as (e & s' & ->). split; [intros (_ & _ & H); contradiction|]. intros _. eexists _, _. reflexivity. }
  rewrite (proj1 R3 D3). split; [|intros H; destruct H; repeat split; assumption]. intros _.
  assert (E3 : aa_errors a3 = call_errors c i key_of xs vs ps ks).
  { unfold a3, keys_after, a2, a1, call_after, call_errors. cbn [aa_errors aa_init app]. rewrite app_assoc. reflexivity. }
  unfold unpacked_stage, call_finish, call_result. destruct (ac_unpacked c) eqn:U.
  - destruct (ac_var_kwargs c) as [v|]; [|reflexivity]. destruct (v _ s3) as [[w|[es| | | |]] s']; try reflexivity.
    + destruct (as_dict w) as [d|]; [|reflexivity]. unfold args_finish. cbn [aa_errors aa_args aa_kwargs]. rewrite E3. unfold a3, keys_after. rewrite U.
      destruct (call_errors c i key_of xs vs ps ks); reflexivity.
    + unfold args_finish. cbn [aa_errors aa_args aa_kwargs aa_add]. rewrite E3. unfold a3, keys_after. rewrite U. cbn [aa_args aa_kwargs].
      destruct (call_errors c i key_of xs vs ps ks ++ es); reflexivity.
  - unfold args_finish. rewrite E3. unfold a3, keys_after. rewrite U. cbn [aa_args aa_kwargs]. unfold dict_of. rewrite fold_left_app.
    destruct (call_errors c i key_of xs vs ps ks); reflexivity.
Qed.
End Whole.

(** * Binding *)
Definition pushed (x : nat * param * pout) : bool :=
  match snd x with AtPos _ => true | Dflt _ => negb (by_keyword (pa_mode (snd (fst x)))) | _ => false end.
Definition valued (x : nat * param * pout) : Prop := pout_value (snd x) <> None.
Lemma valued_value x : valued x -> exists v, pout_value (snd x) = Some v /\
  by_position x = (if pushed x then [v] else []) /\ by_name x = (if pushed x then [] else [(pa_name (snd (fst x)), v)]).
Proof.
  destruct x as [[k p] o]. unfold valued, by_position, by_name, pushed. cbn [fst snd]. destruct o as [|? ?|[v|]|? [v|]|[[v|]|]]; cbn; try congruence; intros _; exists v; repeat split.
  - destruct (by_keyword (pa_mode p)); reflexivity.
  - destruct (by_keyword (pa_mode p)); reflexivity.
Qed.

Lemma trace_nth ai key_of ps : forall k s vs s', params_trace ai key_of k ps s = (vs, s') -> forall j x, nth_error vs j = Some x ->
  exists p, nth_error ps j = Some p /\ fst x = (k + j, p) /\
    (valued x -> (pushed x = true <-> (pa_mode p = PosOnly \/ (pa_mode p = PosOrKw /\ k + j < length (args_list ai))))).
Proof.
  induction ps as [|p ps IH]; intros k s vs s' T j x N.
  - cbn in T. injection T as <- <-. destruct j; discriminate.
  - cbn [params_trace] in T. destruct (give _ _ _ _ s) as [o s1] eqn:L. destruct (params_trace ai key_of (S k) ps s1) as [os s2] eqn:T2. injection T as <- <-.
    destruct j as [|j].
    + injection N as <-. exists p. split; [reflexivity|]. split; [cbn; rewrite Nat.add_0_r; reflexivity|]. intros V. rewrite Nat.add_0_r.
      unfold valued, pushed in *. cbn [fst snd] in *.
      assert (Hl : forall y, nth_error (args_list ai) k = Some y -> k < length (args_list ai)) by (intros y H; apply nth_error_Some; congruence).
      assert (Hn : nth_error (args_list ai) k = None -> ~ k < length (args_list ai)) by (intros H; apply nth_error_None in H; lia).
      unfold give, keyword_value in L.
      destruct (pa_mode p) eqn:M; cbn [positional by_keyword negb] in *.
      * replace (match ai_kwargs ai with Some _ => VOk None | None => VOk None end) with (@VOk (option (lookup_path * input)) None) in L by (destruct (ai_kwargs ai) as [[? ?]|]; reflexivity).
        destruct (ai_kwargs ai) as [[? ?]|]; destruct (nth_error (args_list ai) k); destruct (rebind _ s _); injection L as <- <-; split; auto.
      * destruct (match ai_kwargs ai with Some _ => _ | None => _ end) as [[[pa x]|]|e].
        -- destruct (nth_error (args_list ai) k) as [y|] eqn:Na.
           ++ injection L as <- <-. cbn in V. congruence.
           ++ destruct (rebind _ s _); injection L as <- <-. split; [discriminate|]. intros [H|[_ H]]; [discriminate|]. destruct (Hn eq_refl H).
        -- destruct (nth_error (args_list ai) k) as [y|] eqn:Na; destruct (rebind _ s _); injection L as <- <-.
           ++ split; [|reflexivity]. intros _. right. split; [reflexivity|]. eapply Hl; reflexivity.
           ++ split; [discriminate|]. intros [H|[_ H]]; [discriminate|]. destruct (Hn eq_refl H).
        -- injection L as <- <-. cbn in V. congruence.
      * destruct (match ai_kwargs ai with Some _ => _ | None => _ end) as [[[pa x]|]|e]; [destruct (rebind _ s _)..|]; injection L as <- <-.
        -- split; [discriminate|]. intros [H|[H _]]; discriminate.
        -- split; [discriminate|]. intros [H|[H _]]; discriminate.
        -- cbn in V. congruence.
    + cbn [nth_error] in *. destruct (IH (S k) s1 os s2 T2 j x N) as (q & Q1 & Q2 & Q3). exists q. split; [assumption|].
      replace (k + S j) with (S k + j) by lia. auto.
Qed.
Lemma trace_length ai key_of ps : forall k s vs s', params_trace ai key_of k ps s = (vs, s') -> length vs = length ps.
Proof.
  induction ps as [|p ps IH]; intros k s vs s' T; cbn [params_trace] in T; [injection T as <- <-; reflexivity|].
  destruct (give _ _ _ _ s) as [o s1]. destruct (params_trace ai key_of (S k) ps s1) as [os s2] eqn:T2. injection T as <- <-. cbn. f_equal. eapply IH; eassumption.
Qed.
Lemma ordered_nth ps : ordered ps -> forall i j p q, i <= j -> nth_error ps i = Some p -> nth_error ps j = Some q -> rank (pa_mode p) <= rank (pa_mode q).
Proof.
  induction ps as [|x ps IH]; intros O i j p q Le Ni Nj; [destruct i; discriminate|]. destruct O as [O1 O2].
  destruct i as [|i], j as [|j]; cbn in Ni, Nj; try lia.
  - injection Ni as <-. injection Nj as <-. lia.
  - injection Ni as <-. rewrite Forall_forall in O1. apply O1. eapply nth_error_In; eassumption.
  - apply (IH O2 i j); try assumption. lia.
Qed.

(** When the pushed elements are a prefix, they are passed in order. *)
Lemma pushed_prefix vs : Forall valued vs ->
  (forall i j x y, i <= j -> nth_error vs i = Some x -> nth_error vs j = Some y -> pushed y = true -> pushed x = true) ->
  forall j x, nth_error vs j = Some x ->
    if pushed x then nth_error (flat_map by_position vs) j = pout_value (snd x) else length (flat_map by_position vs) <= j.
Proof.
  induction vs as [|x vs IH]; intros V Mono j y N; [destruct j; discriminate|].
  inversion V as [|? ? V1 V2]; subst. destruct (valued_value x V1) as (v & Ev & Ep & _).
  cbn [flat_map]. rewrite Ep. destruct (pushed x) eqn:P.
  - destruct j as [|j].
    + injection N as <-. rewrite P, Ev. reflexivity.
    + cbn [nth_error] in N. cbn [app]. specialize (IH V2). cbn [length nth_error].
      assert (H := IH (fun i j x y Le Ni Nj => Mono (S i) (S j) x y ltac:(lia) Ni Nj) j y N). destruct (pushed y); [assumption|]. lia.
  - assert (Z : forall z, In z vs -> pushed z = false).
    { intros z I. apply In_nth_error in I. destruct I as (n & Nz). destruct (pushed z) eqn:Pz; [|reflexivity].
      rewrite (Mono 0 (S n) x z ltac:(lia) eq_refl Nz Pz) in P. discriminate. }
    assert (E : flat_map by_position vs = []).
    { clear - V2 Z. induction vs as [|z vs IH]; [reflexivity|]. inversion V2 as [|? ? A B]; subst. cbn [flat_map]. destruct (valued_value z A) as (w & _ & -> & _).
      rewrite (Z z (or_introl eq_refl)). apply IH; [assumption|]. intros; apply Z; right; assumption. }
    rewrite E. cbn [app length]. assert (Py : pushed y = false) by (destruct j; [injection N as <-; exact P|apply Z; eapply nth_error_In; exact N]).
    rewrite Py. lia.
Qed.

Lemma keyed_puts kvs : forall d, keyed d -> keyed (puts d kvs).
Proof. induction kvs as [|[k v] kvs IH]; intros d H; [exact H|]. cbn [puts fold_left fst snd]. apply (IH (dict_set (PStr k) v d)). apply keyed_set. assumption. Qed.
Lemma keyed_dict_of kvs : keyed (dict_of kvs).
Proof. apply (keyed_puts kvs []). apply keyed_nil. Qed.
Lemma puts_other kvs : forall d n, keyed d -> ~ In n (map fst kvs) -> dict_get (PStr n) (puts d kvs) = dict_get (PStr n) d.
Proof.
  induction kvs as [|[k v] kvs IH]; intros d n Hd N; [reflexivity|]. cbn [puts fold_left fst snd]. fold (puts (dict_set (PStr k) v d) kvs).
  rewrite IH; [|apply keyed_set; assumption|cbn in N; tauto]. rewrite dict_get_set by assumption. destruct (str_eqb n k) eqn:E; [|reflexivity]. apply str_eqb_eq in E. cbn in N. subst. tauto.
Qed.
Lemma puts_in kvs : forall d n v, keyed d -> NoDup (map fst kvs) -> In (n, v) kvs -> dict_get (PStr n) (puts d kvs) = Some v.
Proof.
  induction kvs as [|[k w] kvs IH]; intros d n v Hd Nd I; [destruct I|]. cbn [puts fold_left fst snd]. fold (puts (dict_set (PStr k) w d) kvs). cbn [map fst] in Nd. inversion Nd; subst.
  destruct I as [[= -> ->]|I].
  - rewrite puts_other; [|apply keyed_set; assumption|assumption]. rewrite dict_get_set by assumption. rewrite str_eqb_refl. reflexivity.
  - apply IH; try assumption. apply keyed_set. assumption.
Qed.

Lemma by_name_in vs n : In n (map fst (flat_map by_name vs)) -> exists x, In x vs /\ pa_name (snd (fst x)) = n /\ by_name x <> [].
Proof.
  intros I. apply in_map_iff in I. destruct I as ([n' v] & <- & I). apply in_flat_map in I. destruct I as (x & Ix & I). exists x. split; [assumption|]. cbn [fst].
  unfold by_name in *. destruct (snd x) as [|? ?|[?|?]|pa [w|]|[[w|]|]]; try contradiction; try (destruct (by_keyword (pa_mode (snd (fst x)))); [|contradiction]); try (destruct I as [[= <- <-]|[]]; split; [reflexivity|discriminate]).
Qed.
Lemma by_name_NoDup vs : NoDup (map (fun x => pa_name (snd (fst x))) vs) -> NoDup (map fst (flat_map by_name vs)).
Proof.
  induction vs as [|x vs IH]; intros Nd; [constructor|]. cbn [map] in Nd. inversion Nd as [|? ? N1 N2]; subst. cbn [flat_map]. rewrite map_app.
  assert (Sub : forall n, In n (map fst (flat_map by_name vs)) -> In n (map (fun x => pa_name (snd (fst x))) vs)).
  { intros n I. destruct (by_name_in vs n I) as (y & Iy & E & _). apply in_map_iff. exists y. auto. }
  assert (C : by_name x = [] \/ exists v, by_name x = [(pa_name (snd (fst x)), v)]).
  { unfold by_name. destruct (snd x) as [|? ?|?|p [w|]|[[w|]|]]; eauto. destruct (by_keyword (pa_mode (snd (fst x)))); eauto. }
  destruct C as [->|(v & ->)]; [exact (IH N2)|]. cbn. constructor; [|exact (IH N2)]. intros I. apply N1. apply Sub. assumption.
Qed.

Lemma nodup_map_nth {A B} (f : A -> B) l : NoDup (map f l) -> forall i j x y, nth_error l i = Some x -> nth_error l j = Some y -> f x = f y -> i = j.
Proof.
  intros Nd i j x y Ni Nj E. eapply (proj1 (NoDup_nth_error (map f l)) Nd i j).
  - rewrite map_length. apply nth_error_Some. congruence.
  - rewrite !nth_error_map, Ni, Nj. cbn. congruence.
Qed.
Lemma trace_params ai key_of ps : forall k s vs s', params_trace ai key_of k ps s = (vs, s') -> map (fun x => snd (fst x)) vs = ps.
Proof.
  induction ps as [|p ps IH]; intros k s vs s' T; cbn [params_trace] in T; [injection T as <- <-; reflexivity|].
  destruct (give _ _ _ _ s) as [o s1]. destruct (params_trace ai key_of (S k) ps s1) as [os s2] eqn:T2. injection T as <- <-. cbn. f_equal. eapply IH; eassumption.
Qed.
Lemma positional_le ps : ordered ps -> forall j p, nth_error ps j = Some p -> positional (pa_mode p) = true -> j < positionals ps.
Proof.
  induction ps as [|q ps IH]; intros O j p N P; [destruct j; discriminate|]. destruct O as [O1 O2]. unfold positionals. cbn [filter].
  assert (Q : positional (pa_mode q) = true).
  { destruct j as [|j]; cbn in N; [injection N as ->; assumption|]. rewrite Forall_forall in O1. pose proof (O1 p (nth_error_In _ _ N)) as R. destruct (pa_mode q), (pa_mode p); cbn in *; try reflexivity; try discriminate; lia. }
  rewrite Q. cbn [length]. destruct j as [|j]; [lia|]. cbn in N. specialize (IH O2 j p N P). unfold positionals in IH. lia.
Qed.
Lemma positional_prefix ps : ordered ps -> forall j p, nth_error ps j = Some p -> j < positionals ps -> positional (pa_mode p) = true.
Proof.
  induction ps as [|q ps IH]; intros O j p N L; [destruct j; discriminate|]. destruct O as [O1 O2]. unfold positionals in L. cbn [filter] in L.
  destruct (positional (pa_mode q)) eqn:Q.
  - destruct j as [|j]; cbn in N; [injection N as ->; assumption|]. apply (IH O2 j p N). unfold positionals. cbn [length] in L. lia.
  - exfalso. assert (Z : filter (fun p0 => positional (pa_mode p0)) ps = []).
    { destruct (pa_mode q); try discriminate Q. clear - O1. induction ps as [|r ps IH]; [reflexivity|]. inversion O1 as [|? ? A B]; subst. cbn [filter].
      destruct (pa_mode r); cbn in A; try lia. cbn [positional]. apply IH. assumption. }
    rewrite Z in L. cbn in L. lia.
Qed.

Section Binding.
Variables (c : args_cfg) (ai : arg_input) (key_of : param -> lookup_key) (s s1 s2 : state)
  (vs : list (nat * param * pout)) (ps : list (input * option (vres pyval))) (extra : list (pyval * pyval)).
Hypothesis T1 : params_trace ai key_of 0 (ac_params c) s = (vs, s1).
Hypothesis T2 : surplus_trace (ac_var_args c) (call_surplus c ai) s1 = (ps, s2).
Hypothesis Ord : ordered (ac_params c).
Hypothesis Names : NoDup (map pa_name (ac_params c)).
Hypothesis V : Forall valued vs.
Hypothesis Kex : keyed extra.
Hypothesis Fresh : forall p, In p (ac_params c) -> by_keyword (pa_mode p) = true -> dict_get (PStr (pa_name p)) extra = None.

Lemma pushed_mono : forall i j x y, i <= j -> nth_error vs i = Some x -> nth_error vs j = Some y -> pushed y = true -> pushed x = true.
Proof.
  intros i j x y Le Ni Nj P. rewrite Forall_forall in V.
  destruct (trace_nth _ _ _ _ _ _ _ T1 i x Ni) as (p & P1 & _ & P3). destruct (trace_nth _ _ _ _ _ _ _ T1 j y Nj) as (q & Q1 & _ & Q3).
  apply P3; [apply V; eapply nth_error_In; eassumption|]. apply Q3 in P; [|apply V; eapply nth_error_In; eassumption].
  pose proof (ordered_nth _ Ord i j p q Le P1 Q1) as R. destruct P as [P|[P Lt]]; rewrite P in R; destruct (pa_mode p); cbn in R; try lia; auto. right. split; [reflexivity|lia].
Qed.
Lemma names_vs : NoDup (map (fun x : nat * param * pout => pa_name (snd (fst x))) vs).
Proof. rewrite <- (map_map (fun x => snd (fst x)) pa_name). rewrite (trace_params _ _ _ _ _ _ _ T1). exact Names. Qed.
Lemma count_eq : positional_count c = positionals (ac_params c).
Proof. unfold positional_count. rewrite positional_count_ordered by assumption. destruct (Nat.eqb_spec (positionals (ac_params c)) 0); lia. Qed.

Lemma short_surplus j p : nth_error (ac_params c) j = Some p -> positional (pa_mode p) = true -> length (args_list ai) <= j -> ps = [].
Proof.
  intros N P L. pose proof T2 as T. unfold call_surplus in T. rewrite surplus_none in T; [congruence|]. rewrite count_eq. pose proof (positional_le _ Ord j p N P). lia.
Qed.

Lemma bound_once j x : nth_error vs j = Some x ->
  exists v, pout_value (snd x) = Some v /\
    python_binds (ac_params c) (flat_map by_position vs ++ surplus_values ps) (dict_update extra (dict_of (flat_map by_name vs))) j = Bound v.
Proof.
  intros N. assert (Vx : valued x) by (rewrite Forall_forall in V; apply V; eapply nth_error_In; eassumption).
  destruct (trace_nth _ _ _ _ _ _ _ T1 j x N) as (p & Np & Ex & Px). specialize (Px Vx). cbn [plus] in Ex, Px. assert (Ep : snd (fst x) = p) by (rewrite Ex; reflexivity).
  destruct (valued_value x Vx) as (v & Ev & Bp & Bn). exists v. split; [assumption|].
  pose proof (pushed_prefix vs V pushed_mono j x N) as PP. unfold python_binds. rewrite Np.
  assert (KW : by_keyword (pa_mode p) = true -> dict_get (PStr (pa_name p)) (dict_update extra (dict_of (flat_map by_name vs))) = dict_get (PStr (pa_name p)) (dict_of (flat_map by_name vs))).
  { intros B. rewrite dict_get_update; [|assumption|apply keyed_dict_of]. rewrite (Fresh p (nth_error_In _ _ Np) B). reflexivity. }
  destruct (pushed x) eqn:P.
  - assert (Pos : positional (pa_mode p) = true) by (destruct (proj1 Px eq_refl) as [M|[M _]]; rewrite M; reflexivity).
    rewrite Pos. rewrite nth_error_app1; [|apply nth_error_Some; rewrite PP, Ev; discriminate]. rewrite PP, Ev.
    destruct (by_keyword (pa_mode p)) eqn:B; [|reflexivity]. rewrite KW by reflexivity. unfold dict_of. fold (puts [] (flat_map by_name vs)).
    rewrite (puts_other (flat_map by_name vs) [] (pa_name p)); [reflexivity|apply keyed_nil|].
    intros I. destruct (by_name_in vs _ I) as (y & Iy & En & Ne). apply In_nth_error in Iy. destruct Iy as (n & Nn).
    assert (n = j) by (eapply (nodup_map_nth _ vs names_vs); [exact Nn|exact N|cbn; rewrite En, Ep; reflexivity]). subst n. rewrite N in Nn. injection Nn as ->. rewrite Bn in Ne. congruence.
  - assert (Pos : positional (pa_mode p) = true -> nth_error (flat_map by_position vs ++ surplus_values ps) j = None).
    { intros Pos. apply nth_error_None. rewrite (short_surplus j p Np Pos).
      - cbn. rewrite app_nil_r. exact PP.
      - destruct (pa_mode p) eqn:M; try discriminate Pos.
        + assert (false = true) by (apply Px; left; reflexivity). discriminate.
        + destruct (Nat.le_gt_cases (length (args_list ai)) j); [assumption|]. assert (false = true) by (apply Px; right; split; [reflexivity|lia]). discriminate. }
    assert (B : by_keyword (pa_mode p) = true).
    { destruct (pa_mode p) eqn:M; try reflexivity. assert (false = true) by (apply Px; left; reflexivity). discriminate. }
    rewrite B, KW by assumption. unfold dict_of. fold (puts [] (flat_map by_name vs)). rewrite (puts_in (flat_map by_name vs) [] (pa_name p) v).
    + destruct (positional (pa_mode p)) eqn:Q; [rewrite Pos by reflexivity; reflexivity|reflexivity].
    + apply keyed_nil.
    + apply by_name_NoDup. exact names_vs.
    + apply in_flat_map. exists x. split; [eapply nth_error_In; eassumption|]. rewrite Bn, Ep. cbn. auto.
Qed.

(** The rest goes to *args and **kwargs. *)
Lemma rest_args : length (args_list ai) > positionals (ac_params c) -> skipn (positionals (ac_params c)) (flat_map by_position vs ++ surplus_values ps) = surplus_values ps.
Proof.
  intros L. assert (E : length (flat_map by_position vs) = positionals (ac_params c)).
  { assert (Le : positionals (ac_params c) <= length vs).
    { rewrite (trace_length _ _ _ _ _ _ _ T1). unfold positionals. clear. induction (ac_params c) as [|p l IH]; cbn; [lia|]. destruct (positional (pa_mode p)); cbn; lia. }
    assert (A : forall j x, nth_error vs j = Some x -> (pushed x = true <-> j < positionals (ac_params c))).
    { intros j x N. assert (Vx : valued x) by (rewrite Forall_forall in V; apply V; eapply nth_error_In; eassumption).
      destruct (trace_nth _ _ _ _ _ _ _ T1 j x N) as (p & Np & Ex & Px). specialize (Px Vx). cbn [plus] in Px. rewrite Px. split.
      - intros [M|[M _]]; apply (positional_le _ Ord j p Np); rewrite M; reflexivity.
      - intros Lt. pose proof (positional_prefix _ Ord j p Np Lt). destruct (pa_mode p); try discriminate; auto. right. split; [reflexivity|lia]. }
    set (P := positionals (ac_params c)) in *.
    assert (Up : length (flat_map by_position vs) <= P).
    { destruct (nth_error vs P) as [x|] eqn:N.
      - pose proof (pushed_prefix vs V pushed_mono P x N) as H. destruct (pushed x) eqn:Px; [apply (A P x N) in Px; lia|exact H].
      - apply nth_error_None in N. assert (Len : length (flat_map by_position vs) <= length vs); [|lia].
        clear - V. induction vs as [|x l IH]; [cbn; lia|]. inversion V; subst. cbn [flat_map length]. rewrite app_length. destruct (valued_value x) as (w & _ & -> & _); [assumption|]. specialize (IH ltac:(assumption)). destruct (pushed x); cbn; lia. }
    destruct P as [|P'] eqn:EP; [lia|].
    destruct (nth_error vs P') as [x|] eqn:N; [|apply nth_error_None in N; lia].
    pose proof (pushed_prefix vs V pushed_mono P' x N) as H. rewrite (proj2 (A P' x N)) in H by lia.
    assert (P' < length (flat_map by_position vs)); [|lia]. apply nth_error_Some. rewrite H. rewrite Forall_forall in V. apply V. eapply nth_error_In; eassumption. }
  rewrite skipn_app. rewrite skipn_all2 by lia. rewrite <- E, Nat.sub_diag. reflexivity.
Qed.
Lemma rest_kwargs n : (forall p, In p (ac_params c) -> by_keyword (pa_mode p) = true -> pa_name p <> n) ->
  dict_get (PStr n) (dict_update extra (dict_of (flat_map by_name vs))) = dict_get (PStr n) extra.
Proof.
  intros H. rewrite dict_get_update; [|assumption|apply keyed_dict_of]. destruct (dict_get (PStr n) extra); [reflexivity|].
  unfold dict_of. fold (puts [] (flat_map by_name vs)). rewrite puts_other; [reflexivity|apply keyed_nil|].
  intros I. destruct (by_name_in vs n I) as (y & Iy & En & Ne). apply In_nth_error in Iy. destruct Iy as (j & N).
  assert (Vx : valued y) by (rewrite Forall_forall in V; apply V; eapply nth_error_In; eassumption).
  destruct (trace_nth _ _ _ _ _ _ _ T1 j y N) as (p & Np & Ex & Px). specialize (Px Vx). destruct (valued_value y Vx) as (v & _ & _ & Bn).
  apply (H p (nth_error_In _ _ Np)); [|rewrite <- En, Ex; reflexivity].
  destruct (pa_mode p) eqn:M; try reflexivity. rewrite (proj2 Px (or_introl eq_refl)) in Bn. contradiction.
Qed.
End Binding.

(** * Success means every parameter has a value *)
Lemma no_error_valued b i key_of ba bn x : good_param ba bn key_of (snd (fst x)) -> pout_regular (snd x) -> param_errors b i key_of x = [] ->
  (match snd x with AtPos (VErr (LineErrors [])) | AtKey _ (VErr (LineErrors [])) => False | _ => True end) -> valued x.
Proof.
  destruct x as [[k p] o]. cbn [fst snd]. intros G R E N. unfold valued. cbn [snd].
  destruct o as [|? ?|[v|[[|? ?]| | | |]]|? [v|[[|? ?]| | | |]]|[[v|]|]]; cbn in R, E, N |- *; try congruence; try contradiction.
  unfold good_param in G. destruct (pa_mode p); cbn [by_keyword] in *; try discriminate;
    destruct (G eq_refl) as [_ [_ B]]; destruct (key_of p) as [q|q r|[|q l]]; cbn in E; congruence.
Qed.
(** * Dataclass fields *)
Section Dataclass.
Variables (c : dc_cfg) (ai : arg_input) (i : input) (ba bn : bool) (key_of : dc_field -> lookup_key).
Definition good_dc_field (f : dc_field) : Prop := collection_select (df_keys f) ba bn = BOk (key_of f) /\ built_key (key_of f).
Definition dc_after (a : dacc) (vs : list (nat * dc_field * fout)) : dacc :=
  {| da_dict := puts (da_dict a) (dc_values vs); da_init := da_init a ++ (if dc_collect_init_only c then dc_init_values vs else []);
     da_errors := da_errors a ++ flat_map (dc_errors (dc_loc_by_alias c) i key_of) vs;
     da_used := use_keys (dc_keys vs) (da_used a); da_count := da_count a + dc_set_count vs |}.
Lemma dc_after_cons a x vs : dc_after a (x :: vs) = dc_after (dc_after a [x]) vs.
Proof.
  unfold dc_after. cbn [da_dict da_init da_errors da_used da_count]. f_equal.
  - change (x :: vs) with ([x] ++ vs). unfold dc_values. rewrite flat_map_app, puts_app. reflexivity.
  - unfold dc_init_values. cbn [flat_map]. rewrite app_nil_r. destruct (dc_collect_init_only c); rewrite ?app_nil_r, ?app_assoc; reflexivity.
  - cbn [flat_map]. rewrite app_nil_r, app_assoc. reflexivity.
  - unfold dc_keys, use_keys. cbn [flat_map]. rewrite fold_left_app, app_nil_r. reflexivity.
  - unfold dc_set_count. cbn [filter]. destruct (snd x) as [[|? ?|[|]|? [|]|]|[[|]|]]; cbn [length]; lia.
Qed.
Lemma da_set_after a f v k o : fout_value o = Some v ->
  da_set c f v a = {| da_dict := puts (da_dict a) (dc_values [(k, f, o)]); da_init := da_init a ++ (if dc_collect_init_only c then dc_init_values [(k, f, o)] else []);
    da_errors := da_errors a; da_used := da_used a; da_count := da_count a |}.
Proof.
  intros E. unfold da_set, dc_values, dc_init_values. cbn [flat_map fst snd]. rewrite E. destruct (df_init_only f); cbn.
  - destruct (dc_collect_init_only c); rewrite ?app_nil_r; reflexivity.
  - destruct (dc_collect_init_only c); rewrite ?app_nil_r; reflexivity.
Qed.

Lemma dc_novalue_after a k f o es ks : fout_value o = None -> dc_errors (dc_loc_by_alias c) i key_of (k, f, o) = es -> dc_keys [(k, f, o)] = ks -> dc_set_count [(k, f, o)] = 0 ->
  dc_after a [(k, f, o)] = {| da_dict := da_dict a; da_init := da_init a; da_errors := da_errors a ++ es; da_used := use_keys ks (da_used a); da_count := da_count a |}.
Proof.
  intros E1 E2 E3 E4. unfold dc_after. rewrite E3, E4, Nat.add_0_r. unfold dc_values, dc_init_values. cbn [flat_map fst snd]. rewrite E1, E2.
  destruct (dc_collect_init_only c); rewrite !app_nil_r; reflexivity.
Qed.
Lemma dc_step k f fs a s done o s1 : good_dc_field f -> da_dict a = dict_of (dc_values done) ->
  field_look ai (key_of f) k f (set_extra (set_data (Some (dict_of (dc_values done))) (st_extra s)) s) = (o, s1) ->
  (fout_regular o -> dc_loop c ai i ba bn k (f :: fs) a s = dc_loop c ai i ba bn (S k) fs (dc_after a [(k, f, o)]) s1) /\
  (~ fout_regular o -> stops (dc_loop c ai i ba bn k (f :: fs) a s)).
Proof.
  intros [G1 G2] Hd L. cbn [dc_loop]. rewrite Hd. set (s0 := set_extra _ s) in *. unfold field_look in L. destruct (df_init f) eqn:If; cbn [negb].
  - replace (match ai_args ai with Some l => if negb (df_kw_only f) then nth_error l k else None | None => None end)
      with (if df_kw_only f then None else nth_error (args_list ai) k).
    2:{ unfold args_list, unwrap_or. destruct (ai_args ai), (df_kw_only f); try reflexivity. destruct k; reflexivity. }
    set (pos := if df_kw_only f then None else _) in *. rewrite G1.
    replace (match ai_kwargs ai with Some (md, _) => md_get md (key_of f) | None => VOk None end) with (keyword_value ai (Some (key_of f))) by (unfold keyword_value; destruct (ai_kwargs ai) as [[? ?]|]; reflexivity).
    unfold give in L. destruct (keyword_value ai (Some (key_of f))) as [[[path x]|]|e].
    3:{ injection L as <- <-. split; [intros []|]. intros _. eexists _, _. reflexivity. }
    + destruct pos as [y|].
      * injection L as <- <-. split; [|intros H; destruct H; exact I]. intros _. f_equal. symmetry. unfold da_add, da_use. cbn [da_errors da_used da_dict da_init da_count]. apply (dc_novalue_after a k f _ _ [lp_first path]); reflexivity.
      * destruct (rebind _ s0 _) as [r s'] eqn:R. injection L as <- <-.
        destruct r as [v|[es| | | |]]; cbn [fout_regular pout_regular]; (split; [intros Hr; try destruct Hr|intros Hr; first [destruct Hr; exact I | eexists _, _; reflexivity]]).
        -- f_equal. rewrite (da_set_after _ f v k (FPout (AtKey path (VOk v))) eq_refl). unfold da_counted, da_use, dc_after. cbn [da_errors da_used da_dict da_init da_count flat_map]. cbn [dc_errors]. rewrite ?app_nil_r. f_equal. unfold dc_set_count. cbn. lia.
        -- f_equal. symmetry. unfold da_add, da_use. cbn [da_errors da_used da_dict da_init da_count]. erewrite (map_ext (fun e => apply_error_loc path e _ _)) by (intros; apply apply_error_loc_under). apply (dc_novalue_after a k f _ _ [lp_first path]); reflexivity.
    + destruct pos as [y|].
      * destruct (rebind _ s0 _) as [r s'] eqn:R. injection L as <- <-.
        destruct r as [v|[es| | | |]]; cbn [fout_regular pout_regular]; (split; [intros Hr; try destruct Hr|intros Hr; first [destruct Hr; exact I | eexists _, _; reflexivity]]).
        -- f_equal. rewrite (da_set_after _ f v k (FPout (AtPos (VOk v))) eq_refl). unfold da_counted, dc_after. cbn [da_errors da_used da_dict da_init da_count flat_map]. cbn [dc_errors]. rewrite ?app_nil_r. f_equal. unfold dc_set_count. cbn. lia.
        -- f_equal. symmetry. unfold da_add. apply (dc_novalue_after a k f _ _ []); reflexivity.
      * destruct (rebind _ s0 _) as [r s'] eqn:R. injection L as <- <-.
        destruct r as [[v|]|[es| | | |]]; cbn [fout_regular default_regular]; (split; [intros Hr; try destruct Hr|intros Hr; first [destruct Hr; exact I | eexists _, _; reflexivity]]).
        -- f_equal. rewrite (da_set_after _ f v k (FPout (Dflt (VOk (Some v)))) eq_refl). unfold dc_after. cbn [flat_map]. cbn [dc_errors]. rewrite ?app_nil_r. f_equal. unfold dc_set_count. cbn. lia.
        -- destruct (key_error_at (key_of f) EMissing i (dc_loc_by_alias c) (df_name f) G2) as (e & -> & Ee).
           f_equal. symmetry. unfold da_add. apply (dc_novalue_after a k f _ _ []); try reflexivity. cbn [dc_errors]. symmetry. exact Ee.
        -- f_equal. symmetry. unfold da_add. apply (dc_novalue_after a k f _ _ []); reflexivity.
        -- f_equal. symmetry. rewrite (dc_novalue_after a k f _ [] []); try reflexivity. rewrite app_nil_r. destruct a; reflexivity.
  - destruct (cv_default (df_cv f) _ s0) as [r s'] eqn:R. injection L as <- <-.
    destruct r as [[v|]|[es| | | |]]; cbn [fout_regular default_regular]; (split; [intros Hr; try destruct Hr|intros Hr; first [destruct Hr; exact I | eexists _, _; reflexivity]]).
    -- f_equal. rewrite (da_set_after _ f v k (FNoInit (VOk (Some v))) eq_refl). unfold da_counted, dc_after. cbn [da_errors da_used da_dict da_init da_count flat_map]. cbn [dc_errors]. rewrite ?app_nil_r. f_equal. unfold dc_set_count. cbn. lia.
    -- f_equal. symmetry. rewrite (dc_novalue_after a k f _ [] []); try reflexivity. rewrite app_nil_r. destruct a; reflexivity.
    -- f_equal. symmetry. unfold da_add. apply (dc_novalue_after a k f _ _ []); reflexivity.
    -- f_equal. symmetry. rewrite (dc_novalue_after a k f _ [] []); try reflexivity. rewrite app_nil_r. destruct a; reflexivity.
Qed.
Lemma fout_regular_dec o : fout_regular o \/ ~ fout_regular o.
Proof. destruct o as [[|? ?|[|[| | | |]]|? [|[| | | |]]|[|[| | | |]]]|[|[| | | |]]]; cbn; auto. Qed.

Lemma dc_run fs : forall k a s done vs s', Forall good_dc_field fs -> da_dict a = dict_of (dc_values done) -> dc_trace ai key_of k done fs s = (vs, s') ->
  (Forall (fun x => fout_regular (snd x)) vs -> dc_loop c ai i ba bn k fs a s = (VOk (dc_after a vs), s')) /\
  (~ Forall (fun x => fout_regular (snd x)) vs -> stops (dc_loop c ai i ba bn k fs a s)).
Proof.
  induction fs as [|f fs IH]; intros k a s done vs s' G Hd T.
  - cbn in T. injection T as <- <-. split; [|intros H; destruct H; constructor]. intros _. cbn. unfold dc_after. cbn. rewrite Nat.add_0_r. destruct (dc_collect_init_only c); rewrite !app_nil_r; destruct a; reflexivity.
  - cbn [dc_trace] in T. destruct (field_look _ _ _ f _) as [o s1] eqn:L. destruct (dc_trace ai key_of (S k) _ fs s1) as [os s2] eqn:T2. injection T as <- <-.
    inversion G as [|? ? G1 G2]; subst. destruct (dc_step k f fs a s done o s1 G1 Hd L) as [S1 S2].
    destruct (IH (S k) (dc_after a [(k, f, o)]) s1 (done ++ [(k, f, o)]) os s2 G2) as [I1 I2]; [|assumption|].
    { unfold dc_after. cbn [da_dict]. rewrite Hd. unfold dict_of, puts, dc_values. rewrite flat_map_app, fold_left_app. reflexivity. }
    split.
    + intros F. inversion F; subst. rewrite S1 by assumption. rewrite (dc_after_cons a (k, f, o) os). apply I1. assumption.
    + intros F. destruct (fout_regular_dec o) as [D|D]; [|apply S2; exact D]. rewrite S1 by assumption. apply I2. intros F'. apply F. constructor; assumption.
Qed.

(** ** Extras *)
Lemma dc_keys_run xs : forall a s values os s', da_dict a = dict_of values -> dc_keys_trace c (da_used a) values xs s = (os, s') ->
  (Forall kout_regular os -> dc_extras_loop c (map to_entry xs) a s =
     (VOk {| da_dict := puts (da_dict a) (kout_kept os); da_init := da_init a; da_errors := da_errors a ++ flat_map kout_errors (combine xs os); da_used := da_used a; da_count := da_count a |}, s')) /\
  (~ Forall kout_regular os -> stops (dc_extras_loop c (map to_entry xs) a s)).
Proof.
  induction xs as [|x xs IH]; intros a s values os s' Hd T.
  - cbn in T. injection T as <- <-. split; [|intros H; destruct H; constructor]. intros _. cbn. rewrite app_nil_r. destruct a; reflexivity.
  - cbn [dc_keys_trace] in T. destruct (key_look _ _ x s) as [o s1] eqn:L. destruct (dc_keys_trace c _ _ xs s1) as [os1 s2] eqn:T1. injection T as <- <-.
    destruct x as [[key kloc] value]. unfold key_look in L. cbn [fst snd] in L. cbn [map]. change (to_entry (key, kloc, value)) with (Entry key kloc value). cbn [dc_extras_loop].
    assert (K : forall a', da_used a' = da_used a -> kout_regular o -> da_dict a' = puts (da_dict a) (kout_kept [o]) -> da_init a' = da_init a -> da_count a' = da_count a ->
      da_errors a' = da_errors a ++ kout_errors (key, kloc, value, o) ->
      (Forall kout_regular (o :: os1) -> dc_extras_loop c (map to_entry xs) a' s1 = (VOk {| da_dict := puts (da_dict a) (kout_kept (o :: os1)); da_init := da_init a;
         da_errors := da_errors a ++ flat_map kout_errors (combine ((key, kloc, value) :: xs) (o :: os1)); da_used := da_used a; da_count := da_count a |}, s2)) /\
      (~ Forall kout_regular (o :: os1) -> stops (dc_extras_loop c (map to_entry xs) a' s1))).
    { intros a' U R E1 E2 E3 E4. destruct (IH a' s1 (values ++ kout_kept [o]) os1 s2) as [I1 I2].
      - rewrite E1, Hd. unfold dict_of, puts. rewrite fold_left_app. reflexivity.
      - rewrite U. exact T1.
      - split.
        + intros F. inversion F; subst. rewrite I1 by assumption. f_equal. f_equal. rewrite E1, E2, E3, E4, U. f_equal.
          * change (o :: os1) with ([o] ++ os1). unfold kout_kept. rewrite flat_map_app, puts_app. reflexivity.
          * cbn [combine flat_map]. rewrite app_assoc. reflexivity.
        + intros F. apply I2. intros F'. apply F. constructor; assumption. }
    destruct (key_str key) as [k|e] eqn:Ek.
    2:{ rewrite (key_str_err key e Ek). injection L as <- <-. apply K; try exact I; reflexivity. }
    destruct (mem_str k (da_used a)).
    { injection L as <- <-. apply K; try exact I; try reflexivity. cbn. rewrite app_nil_r. reflexivity. }
    unfold dc_policy in L. destruct (dc_extra c).
    + destruct (dc_extras c) as [v|].
      * rewrite Hd in *. destruct (v value _) as [r s3] eqn:V. injection L as <- <-. destruct r as [w|[es| | | |]].
        -- apply K; try exact I; try reflexivity. cbn. rewrite app_nil_r. reflexivity.
        -- apply K; try exact I; try reflexivity. cbn. rewrite Hd. reflexivity.
        -- split; [intros F; inversion F; contradiction|]. intros _. eexists _, _. reflexivity.
        -- split; [intros F; inversion F; contradiction|]. intros _. eexists _, _. reflexivity.
        -- split; [intros F; inversion F; contradiction|]. intros _. eexists _, _. reflexivity.
        -- split; [intros F; inversion F; contradiction|]. intros _. eexists _, _. reflexivity.
      * injection L as <- <-. apply K; try exact I; try reflexivity. cbn. rewrite app_nil_r. reflexivity.
    + injection L as <- <-. apply K; try exact I; reflexivity.
    + injection L as <- <-. apply K; try exact I; try reflexivity. cbn. rewrite app_nil_r. reflexivity.
Qed.
Lemma dc_keys_trace_ext used used' xs : (forall k, mem_str k used = mem_str k used') -> forall values s, dc_keys_trace c used values xs s = dc_keys_trace c used' values xs s.
Proof.
  intros U. induction xs as [|x xs IH]; intros values s; [reflexivity|]. cbn [dc_keys_trace]. unfold key_look. destruct (key_str (fst (fst x))) as [k|e]; [rewrite U|].
  - destruct (mem_str k used'); [|match goal with |- context [dc_policy c k (snd x) ?t] => destruct (dc_policy c k (snd x) t) as [o s1] end]; rewrite IH; reflexivity.
  - rewrite IH. reflexivity.
Qed.
Lemma dc_keys_all_used used xs values s : (forall x, In x xs -> exists k, key_str (fst (fst x)) = VOk k /\ mem_str k used = true) ->
  dc_keys_trace c used values xs s = (map (fun _ => KeyUsed) xs, s).
Proof.
  revert values. induction xs as [|x xs IH]; intros values H; [reflexivity|]. cbn [dc_keys_trace map]. unfold key_look. destruct (H x (or_introl eq_refl)) as (k & -> & ->).
  rewrite IH; [reflexivity|]. intros y I. apply H. right; assumption.
Qed.
End Dataclass.

Lemma dc_unexpected_spec l n : dc_unexpected n l = surplus_errors n (map (fun x => (x, None)) (skipn n l)).
Proof.
  unfold dc_unexpected.
  assert (E : forall (l : list input) k, map (fun ix => new_error_loc EUnexpectedPositional (snd ix) (index_loc (fst ix))) (combine (List.seq k (length l)) l) = surplus_errors k (map (fun x => (x, None)) l)).
  { clear. intros l. induction l as [|x l IH]; intros k; [reflexivity|]. cbn [length List.seq combine map surplus_errors app fst snd]. rewrite IH. reflexivity. }
  assert (G : forall n (l : list input) k, skipn n (combine (List.seq k (length l)) l) = combine (List.seq (k + n) (length (skipn n l))) (skipn n l)).
  { clear. intros n. induction n as [|n IH]; intros l k; [cbn; rewrite Nat.add_0_r; reflexivity|]. destruct l as [|x l]; [reflexivity|]. cbn [length List.seq combine skipn]. rewrite IH. f_equal. f_equal. lia. }
  rewrite G, E. reflexivity.
Qed.
Lemma dc_keys_in ai key_of xs : kwargs_are (ai_kwargs ai) xs -> forall fs k done s vs s', dc_trace ai key_of k done fs s = (vs, s') ->
  forall x, In x (dc_keys vs) -> In x (key_list xs).
Proof.
  intros Hk. induction fs as [|f fs IH]; intros k done s vs s' T x I.
  - cbn in T. injection T as <- <-. destruct I.
  - cbn [dc_trace] in T. destruct (field_look _ _ _ f _) as [o s1] eqn:L. destruct (dc_trace ai key_of (S k) _ fs s1) as [os s2] eqn:T2. injection T as <- <-.
    cbn [dc_keys flat_map snd] in I. apply in_app_or in I. destruct I as [I|I].
    + unfold field_look in L. destruct (df_init f).
      * destruct (give _ _ _ _ _) as [o' s1'] eqn:G. injection L as <- <-. eapply give_key; eassumption.
      * destruct (cv_default _ _ _). injection L as <- <-. destruct I.
    + eapply IH; eassumption.
Qed.

Section DcWhole.
Variables (c : dc_cfg) (va : input -> vres arg_input) (i : input) (s : state) (ai : arg_input)
  (xs : list (input * loc_item * input)) (key_of : dc_field -> lookup_key)
  (vs : list (nat * dc_field * fout)) (ks : list kout) (s1 s3 : state).
Hypothesis Hin : va i = VOk ai.
Hypothesis Hk : kwargs_are (ai_kwargs ai) xs.
Hypothesis Hg : Forall (good_dc_field (validate_by_alias_or s (dc_by_alias c)) (validate_by_name_or s (dc_by_name c)) key_of) (dc_fields c).
Hypothesis T1 : dc_trace ai key_of 0 [] (dc_fields c) (set_extra (set_data (Some []) (st_extra s)) (set_partial PartialOff s)) = (vs, s1).
Hypothesis T3 : dc_keys_trace c (dc_keys vs) (dc_values vs) xs s1 = (ks, s3).

Lemma dc_whole :
  (dc_regular vs ks -> dataclass_args_validate c va i s = (dc_result c ai i key_of xs vs ks, set_extra (st_extra s) (add_fields_set (dc_set_count vs) s3))) /\
  (~ dc_regular vs ks -> stops (dataclass_args_validate c va i s)).
Proof.
  unfold dataclass_args_validate, rebind. rewrite Hin.
  match goal with |- context [dc_loop c ai i ?A ?B] => change A with (validate_by_alias_or s (dc_by_alias c)); change B with (validate_by_name_or s (dc_by_name c)) end.
  change (st_extra (set_partial PartialOff s)) with (st_extra s).
  destruct (dc_run c ai i _ _ key_of (dc_fields c) 0 da_init0 _ [] _ _ Hg eq_refl T1) as [P1 P2].
  destruct (forall_dec vs (fun x => fout_regular (snd x)) (fun x => fout_regular_dec (snd x))) as [D1|D1].
  2:{ destruct (P2 D1) as (e & s' & ->). split; [intros [H _]; contradiction|]. intros _. eexists _, _. reflexivity. }
  rewrite (P1 D1). clear P1 P2.
  set (a1 := dc_after c i key_of da_init0 vs).
  set (a2 := dc_args_stage c ai a1).
  assert (E2 : da_dict a2 = dict_of (dc_values vs) /\ da_used a2 = use_keys (dc_keys vs) [] /\ da_count a2 = dc_set_count vs /\ da_init a2 = (if dc_collect_init_only c then dc_init_values vs else []) /\
    da_errors a2 = flat_map (dc_errors (dc_loc_by_alias c) i key_of) vs ++ surplus_errors (dc_positional_count c) (map (fun x => (x, None)) (dc_surplus c ai))).
  { unfold a2, dc_args_stage, dc_surplus, args_list. destruct (ai_args ai) as [l|]; cbn [unwrap_or]; [rewrite dc_unexpected_spec|rewrite skipn_nil; cbn [map surplus_errors]; rewrite app_nil_r]; repeat split. }
  destruct E2 as (Ed & Eu & Ec & Ei & Ee).
  set (a3 := {| da_dict := puts (da_dict a2) (kout_kept ks); da_init := da_init a2; da_errors := da_errors a2 ++ flat_map kout_errors (combine xs ks); da_used := da_used a2; da_count := da_count a2 |}).
  assert (T3' : dc_keys_trace c (da_used a2) (dc_values vs) xs s1 = (ks, s3)).
  { rewrite <- T3, Eu. apply dc_keys_trace_ext. intros k. apply use_keys_mem. }
  assert (R3 : (Forall kout_regular ks -> dc_kwargs_stage c ai a2 s1 = (VOk a3, s3)) /\ (~ Forall kout_regular ks -> stops (dc_kwargs_stage c ai a2 s1))).
  { unfold dc_kwargs_stage. pose proof (dc_keys_in ai key_of xs Hk _ _ _ _ _ _ T1) as Sub.
    unfold kwargs_are in Hk. destruct (ai_kwargs ai) as [[md len]|].
    - destruct Hk as (Hi & -> & _). destruct (Nat.eqb_spec (length xs) (length (da_used a2))) as [Hl|Hl]; cbn [negb].
      + assert (U : dc_keys_trace c (da_used a2) (dc_values vs) xs s1 = (map (fun _ => KeyUsed) xs, s1)).
        { apply dc_keys_all_used. apply used_up.
          - rewrite Eu. apply use_keys_NoDup. constructor.
          - intros k Ik. rewrite Eu in Ik. apply use_keys_In in Ik. destruct Ik as [Ik|[]]. auto.
          - lia. }
        rewrite U in T3'. injection T3' as E1 E2. subst a3. rewrite <- E1, E2. split.
        * intros _. rewrite combine_used_errors, kept_used, app_nil_r. cbn [puts fold_left]. destruct a2; reflexivity.
        * intros F. destruct F. clear. induction xs; constructor; [exact I|assumption].
      + rewrite Hi. apply (dc_keys_run c xs a2 s1 (dc_values vs)); assumption.
    - rewrite Hk in T3'. cbn in T3'. injection T3' as E1 E2. subst a3. rewrite Hk, <- E1, E2. split.
      + intros _. cbn [combine flat_map kout_kept puts fold_left]. rewrite app_nil_r. destruct a2; reflexivity.
      + intros F. destruct F. constructor. }
  destruct (forall_dec ks kout_regular kout_regular_dec) as [D3|D3].
  2:{ destruct (proj2 R3 D3) as (e & s' & ->). split; [intros (_ & H); contradiction|]. intros _. eexists _, _. reflexivity. }
  rewrite (proj1 R3 D3). split; [|intros H; destruct H; repeat split; assumption]. intros _.
  unfold dc_finish, dc_result, dc_call_errors. unfold a3. cbn [da_errors da_count da_dict da_init]. rewrite Ee, Ec, Ei, Ed, <- app_assoc.
  match goal with |- context [is_nil ?L] => destruct L as [|e es] end; cbn [is_nil].
  - unfold dict_of, puts. rewrite fold_left_app. destruct (dc_collect_init_only c); reflexivity.
  - reflexivity.
Qed.
End DcWhole.

(** * The keyword arguments of real inputs *)
Lemma dict_get_str_key s d v : dict_get (PStr s) d = Some v -> exists k, In (k, v) d /\ as_str k = Some s.
Proof.
  induction d as [|[k w] d IH]; cbn [dict_get]; [discriminate|]. destruct (py_eq k (PStr s)) eqn:E.
  - intros [= <-]. exists k. split; [left; reflexivity|]. clear - E. revert E. induction k; cbn; try discriminate; auto.
    + destruct (str_eqb s0 s) eqn:E; [|discriminate]. apply str_eqb_eq in E. subst. reflexivity.
  - intros H. destruct (IH H) as (k' & I & A). exists k'. split; [right; assumption|assumption].
Qed.
Lemma first_path_key {V} (first : str -> option V) get ps p v : first_path first get ps = Some (p, v) -> exists w, first (lp_first p) = Some w.
Proof.
  induction ps as [|q ps IH]; cbn [first_path]; [discriminate|]. destruct (first (lp_first q)) as [w|] eqn:F; [|exact IH].
  destruct (try_fold get w (lp_rest q)); [|exact IH]. intros [= <- <-]. eauto.
Qed.
Lemma py_get_first k d p v : py_get_dict_item k d = Some (p, v) -> exists w, dict_get (PStr (lp_first p)) d = Some w.
Proof.
  destruct k as [q|q r|ps]; cbn [py_get_dict_item].
  - destruct (dict_get (PStr (lp_first q)) d) eqn:E; [|discriminate]. intros [= <- <-]. eauto.
  - destruct (dict_get (PStr (lp_first q)) d) eqn:E; [intros [= <- <-]; eauto|]. destruct (dict_get (PStr (lp_first r)) d) eqn:E2; [|discriminate]. intros [= <- <-]. eauto.
  - apply (first_path_key (fun s => dict_get (PStr s) d)).
Qed.
Definition py_entries (repr : pyval -> str) (d : list (pyval * pyval)) : list (input * loc_item * input) := map (fun kv => (IPy (fst kv), py_loc repr (fst kv), IPy (snd kv))) d.
Lemma py_kwargs_are repr d : kwargs_are (Some (py_kwargs repr d)) (py_entries repr d).
Proof.
  unfold kwargs_are, py_kwargs, py_entries. split; [|split].
  - cbn. rewrite map_map. reflexivity.
  - rewrite map_length. reflexivity.
  - intros k p x E. cbn in E. destruct (py_get_dict_item k d) as [[q v]|] eqn:G; [|discriminate]. injection E as <- <-. destruct (py_get_first _ _ _ _ G) as (w & D).
    destruct (dict_get_str_key _ _ _ D) as (k' & I & A). exists (IPy k', py_loc repr k', IPy w). split; [apply in_map_iff; exists (k', w); auto|]. cbn. rewrite A. reflexivity.
Qed.
Definition json_entries (l : list (str * json)) : list (input * loc_item * input) := map (fun kv => (IKey (fst kv), LStr (fst kv), IJson (snd kv))) l.
Lemma json_kwargs_are l : kwargs_are (Some (json_mdict l, length l)) (json_entries l).
Proof.
  unfold kwargs_are, json_entries. split; [|split].
  - cbn. rewrite map_map. reflexivity.
  - rewrite map_length. reflexivity.
  - intros k p x E. cbn in E. destruct (json_get k l) as [[q v]|] eqn:G; [|discriminate]. injection E as <- <-.
    assert (F : exists w, json_last (lp_first q) l = Some w).
    { destruct k as [a|a b|ps]; cbn [json_get] in G.
      - destruct (json_last (lp_first a) l) eqn:E; [|discriminate]. injection G as <- <-. eauto.
      - destruct (json_last (lp_first a) l) eqn:E; [injection G as <- <-; eauto|]. destruct (json_last (lp_first b) l) eqn:E2; [|discriminate]. injection G as <- <-. eauto.
      - apply (first_path_key (fun s => json_last s l) _ _ _ _ G). }
    destruct F as (w & F). exists (IKey (lp_first q), LStr (lp_first q), IJson w). split; [|reflexivity]. apply in_map_iff. exists (lp_first q, w). split; [reflexivity|].
    apply in_rev. revert F. unfold json_last. generalize (rev l). intros m. induction m as [|[k' w'] m IH]; cbn [assoc]; [discriminate|].
    destruct (str_eqb (lp_first q) k') eqn:E; [intros [= <-]; apply str_eqb_eq in E; subst; left; reflexivity|right; auto].
Qed.

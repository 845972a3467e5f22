From Coq Require Import List NArith ZArith Bool Lia.
From Verif Require Import Base Float64 IntParse Numbers BytesCodec Values VState LookupKey Collections Child Inputs Scalars Literal Wrappers Union TaggedUnion Tuple ModelFields TypedDict Assign Arguments Classes Interp InterpSpec InterpProofs StrictSpec LooseSpec LooseQuiet PartialSpec LooseNone PartialProofs.
From Verif Require ConformProofs.
Import ListNotations.
Open Scope nat_scope.

(** ** Typed dicts *)
Lemma rebind_R (v : validator) f i s1 s2 w t : keeps v -> sub v -> data i -> R s1 s2 -> rebind f s1 (v i) = (VOk w, t) -> exists t', rebind f s2 (v i) = (VOk w, t') /\ R t t'.
Proof.
  intros KV HV D H V. unfold rebind in *. rewrite (R_extra_eq _ _ H) in V. destruct (v i (set_extra _ s1)) as [r u] eqn:E. injection V as -> <-.
  destruct (sub_R _ _ _ _ _ _ KV HV D (R_set _ _ _ H) E) as (u' & -> & U). eexists. split; [reflexivity|]. now apply R_set.
Qed.
Lemma rebind_ne (v : validator) f i s : vne v -> ne (fst (rebind f s (v i))).
Proof. intros N. unfold rebind. specialize (N i (set_extra (f (st_extra s)) s)). destruct (v i _) as [r u]. exact N. Qed.
Lemma app_not A (l l' : list A) : l <> [] -> l ++ l' <> []. Proof. destruct l; easy. Qed.
Lemma app_not_r A (l l' : list A) : l' <> [] -> l ++ l' <> []. Proof. destruct l; easy. Qed.
Lemma map_not A B (f : A -> B) l : l <> [] -> map f l <> []. Proof. destruct l; easy. Qed.

Section Typed.
Variable c : fields_cfg.
Variable md : mdict.
Hypothesis TOT : forall k, exists o, md_get md k = VOk o.
Hypothesis DAT : forall k p x, md_get md k = VOk (Some (p, x)) -> data x.
Variable i : input.
Lemma td_err last p ba bn fs : forall a s a' t, fa_errors a <> [] -> td_loop c md i last p ba bn fs a s = (VOk a', t) -> fa_errors a' <> [].
Proof.
  induction fs as [|f fs IH]; intros a s a' t NE; cbn [td_loop]; [now intros [= <- _]|]. cbv zeta.
  assert (A : forall es a, fa_errors a <> [] -> fa_errors (fa_add_errors es a) <> []) by (intros es b B; cbn; now apply app_not).
  repeat match goal with
  | |- (VErr _, _) = (VOk _, _) -> _ => discriminate
  | |- td_loop _ _ _ _ _ _ _ _ _ _ = _ -> _ => apply IH; repeat first [exact NE | apply A | cbn; exact NE | match goal with |- context [if ?b then _ else _] => destruct b end]
  | |- (match match ?x with _ => _ end with _ => _ end) = _ -> _ => destruct x
  | |- (match ?x with _ => _ end) = _ -> _ => destruct x
  end.
Qed.
Lemma td_sub q last p ba bn fs : Forall (fun f => csub (f_cv f) /\ cvne (f_cv f) /\ ckeeps (f_cv f)) fs -> forall a s1 s2 a' t, R s1 s2 ->
  td_loop c md i None q ba bn fs a s1 = (VOk a', t) -> fa_errors a' = [] -> exists t', td_loop c md i last p ba bn fs a s2 = (VOk a', t') /\ R t t'.
Proof.
  induction 1 as [|f fs ([HV HD] & [NV ND] & [KV KD]) F IH]; intros a s1 s2 a' t H V NE; cbn [td_loop last_is] in *; [injection V as <- <-; eauto|]. cbv zeta in *.
  assert (BAD : forall a s, fa_errors a <> [] -> td_loop c md i None q ba bn fs a s = (VOk a', t) -> False) by (intros b s B X; exact (td_err _ _ _ _ _ _ _ _ _ B X NE)).
  rewrite (R_extra_eq _ _ H) in V. pose proof (R_set (set_data (Some (fa_dict a)) (st_extra s2)) _ _ H) as H1.
  destruct (collection_select (f_keys f) ba bn) as [key|]; [|discriminate]. destruct (TOT key) as [o GET]. rewrite GET in *. destruct o as [[path value]|].
  - pose proof (DAT _ _ _ GET) as D. pose proof (R_part (last_is last (LStr (lp_first path))) p _ _ H1) as H2.
    match type of V with context [rebind ?f ?s ?k] => pose proof (rebind_ne _ f value s NV) as N; destruct (rebind f s k) as [[v|[es| | | |]] u] eqn:RB end; try discriminate; cbn in N; try contradiction N.
    + destruct (rebind_R _ _ _ _ _ _ _ KV HV D H2 RB) as (u' & -> & U). exact (IH _ _ _ _ _ U V NE).
    + exfalso. refine (BAD _ _ _ V). cbn. apply app_not_r, map_not, N.
  - pose proof (ND (Some (LStr (f_name f))) (set_extra (set_data (Some (fa_dict a)) (st_extra s2)) s1)) as N.
    destruct (cv_default (f_cv f) _ (set_extra _ s1)) as [[[v|]|[es| | | |]] u] eqn:DV; try discriminate; cbn in N; try contradiction N.
    + destruct (dsub_R _ _ _ _ _ _ KD HD H1 DV) as (u' & -> & U). exact (IH _ _ _ _ _ U V NE).
    + destruct (dsub_R _ _ _ _ _ _ KD HD H1 DV) as (u' & -> & U). destruct (f_required f); [|exact (IH _ _ _ _ _ U V NE)]. destruct (key_error _ _ _ _ _); [|discriminate]. exact (IH _ _ _ _ _ U V NE).
    + exfalso. refine (BAD _ _ _ V). cbn. now apply app_not_r.
Qed.
Lemma td_extras_err used last p es : forall out errs s out' errs' t, errs <> [] -> td_extras c used last p es out errs s = (VOk (out', errs'), t) -> errs' <> [].
Proof.
  induction es as [|[key kloc value|e] es IH]; intros out errs s out' errs' t NE; cbn [td_extras]; [now intros [= _ <- _]| |discriminate]. cbv zeta.
  repeat match goal with
  | |- (VErr _, _) = (VOk _, _) -> _ => discriminate
  | |- td_extras _ _ _ _ _ _ _ _ = _ -> _ => apply IH; repeat first [exact NE | apply app_not | match goal with |- context [if ?b then _ else _] => destruct b end]
  | |- (match ?x with _ => _ end) = _ -> _ => destruct x
  end.
Qed.
Hypothesis HX : forall v, fc_extras c = Some v -> sub v /\ vne v /\ keeps v.
Lemma td_extras_sub used q last p es : Forall plain_entry es -> forall out errs s1 s2 out' t, R s1 s2 ->
  td_extras c used None q es out errs s1 = (VOk (out', []), t) -> exists t', td_extras c used last p es out errs s2 = (VOk (out', []), t') /\ R t t'.
Proof.
  induction 1 as [|[key kloc value|e] es D F IH]; intros out errs s1 s2 out' t H V; cbn [td_extras last_is] in *; [injection V as <- -> <-; eauto| |discriminate].
  destruct (key_str key) as [k|[l| | | |]]; try discriminate; [|exact (IH _ _ _ _ _ _ H V)].
  destruct (mem_str k used); [exact (IH _ _ _ _ _ _ H V)|]. destruct (fc_extra c); try (exact (IH _ _ _ _ _ _ H V)). destruct (fc_extras c) as [v|] eqn:X; [|exact (IH _ _ _ _ _ _ H V)].
  destruct (HX _ eq_refl) as (HV & NV & KV). cbv zeta. pose proof (R_part (last_is last kloc) p _ _ H) as H2. pose proof (NV value (off s1)) as N.
  destruct (v value (off s1)) as [[w|[l| | | |]] u] eqn:VV; try discriminate; cbn in N; try contradiction N.
  - destruct (sub_R _ _ _ _ _ _ KV HV (proj2 D) H2 VV) as (u' & -> & U). exact (IH _ _ _ _ _ _ U V).
  - exfalso. eapply td_extras_err; [|exact V|reflexivity]. apply app_not_r, map_not, N.
Qed.
End Typed.
Lemma typed_dict_sub c vd : Forall (fun f => csub (f_cv f) /\ cvne (f_cv f) /\ ckeeps (f_cv f)) (fc_fields c) -> (forall v, fc_extras c = Some v -> sub v /\ vne v /\ keeps v) ->
  (forall b i md, data i -> vd b i = VOk md -> (forall k, exists o, md_get md k = VOk o) /\ (forall k p x, md_get md k = VOk (Some (p, x)) -> data x) /\ (forall es, md_iter md = VOk es -> Forall plain_entry es)) ->
  sub (typed_dict_validate c vd).
Proof.
  intros HF HX HD i s w t D P V. unfold typed_dict_validate in *. change (strict_or (off s)) with (strict_or s) in V.
  change (validate_by_alias_or (off s)) with (validate_by_alias_or s) in V. change (validate_by_name_or (off s)) with (validate_by_name_or s) in V.
  destruct (vd _ i) as [md|e] eqn:Q; [|discriminate]. destruct (HD _ _ _ D Q) as (TOT & DAT & ENT). clear HD Q. cbv zeta in *. cbn [st_partial set_partial is_active] in V.
  unfold rebind in *. change (st_extra (off s)) with (st_extra s) in V.
  match type of V with context [td_loop ?a ?b ?c ?d ?e ?f ?g ?h ?k ?l] => destruct (td_loop a b c d e f g h k l) as [[a'|er] u] eqn:TL end; [|discriminate].
  set (last := if is_active (st_partial s) then md_last_key md else None).
  assert (NE : fa_errors a' = []).
  { destruct (_ || _); [destruct (fa_errors a'); [reflexivity|discriminate]|]. destruct (md_iter md) as [es|]; [|discriminate].
    match type of V with context [td_extras ?a ?b ?c ?d ?e ?f ?g ?h] => destruct (td_extras a b c d e f g h) as [[[out errs]|er] u2] eqn:TX end; [|discriminate].
    destruct errs; [|discriminate]. destruct (fa_errors a') as [|x l]; [reflexivity|]. exfalso. eapply td_extras_err; [|exact TX|reflexivity]. discriminate. }
  assert (H : R (set_extra (set_data (Some []) (st_extra s)) (off s)) (set_extra (set_data (Some []) (st_extra s)) s)) by (split; [now right|exact P]).
  destruct (td_sub _ _ TOT DAT _ _ last (st_partial s) _ _ _ HF _ _ _ _ _ H TL NE) as (u' & -> & U). clear TL.
  pose proof (R_set (st_extra s) _ _ (R_add (length (fa_set a')) _ _ U)) as U2.
  destruct (_ || _); [destruct (is_nil _); [|discriminate]; injection V as <- <-; eauto|]. destruct (md_iter md) as [es|]; [|discriminate].
  match type of V with context [td_extras ?a ?b ?c ?d ?e ?f ?g ?h] => destruct (td_extras a b c d e f g h) as [[[out errs]|er] u2] eqn:TX end; [|discriminate].
  destruct errs; [|discriminate]. cbn [is_nil] in V. injection V as <- <-.
  destruct (td_extras_sub _ HX _ _ last (st_partial s) _ (ENT _ eq_refl) _ _ _ _ _ _ U2 TX) as (u3 & -> & U3). cbn [is_nil]. eauto.
Qed.

(** ** Wrappers *)
Lemma py v : data (IPy v). Proof. exact I. Qed.
Lemma nullable_sub v : sub v -> sub (nullable v).
Proof. intros H i s w t D P V. unfold nullable in *. destruct (is_none_input i); [injection V as <- <-; eexists; split; [reflexivity|apply R_off; pl]|exact (H _ _ _ _ D P V)]. Qed.
Lemma chain_rest_sub steps : Forall (fun v => sub v /\ keeps v) steps -> forall v s1 s2 w t, R s1 s2 -> chain_rest steps v s1 = (VOk w, t) -> exists t', chain_rest steps v s2 = (VOk w, t') /\ R t t'.
Proof.
  induction 1 as [|x l [X K] F IH]; intros v s1 s2 w t H V; cbn [chain_rest] in *; [injection V as <- <-; eauto|].
  destruct (x (IPy v) s1) as [[v'|e] u] eqn:XV; [|discriminate]. destruct (sub_R _ _ _ _ _ _ K X (py _) H XV) as (u' & -> & U). exact (IH _ _ _ _ _ U V).
Qed.
Lemma chain_sub steps : Forall (fun v => sub v /\ keeps v) steps -> sub (chain_validate steps).
Proof.
  intros F i s w t D P V. unfold chain_validate in *. destruct F as [|x l [X K] F]; [discriminate|].
  destruct (x i (off s)) as [[v'|e] u] eqn:XV; [|discriminate]. destruct (X _ _ _ _ D P XV) as (u' & -> & U). exact (chain_rest_sub _ F _ _ _ _ _ U V).
Qed.
Lemma jop_sub j p : sub j -> sub p -> sub (json_or_python j p).
Proof. intros J P i s w t D N V. unfold json_or_python in *. cbn [st_extra set_partial] in V. destruct (x_input_type _); [exact (P _ _ _ _ D N V)|exact (J _ _ _ _ D N V)|exact (J _ _ _ _ D N V)]. Qed.
Lemma los_sub b l st : sub l -> sub st -> sub (lax_or_strict b l st).
Proof.
  intros L S i s w t D P V. unfold lax_or_strict in *. change (strict_or (off s)) with (strict_or s) in V. change (st_exactness (off s)) with (st_exactness s) in V.
  destruct (strict_or s b); [exact (S _ _ _ _ D P V)|]. rewrite P in *. exact (L _ _ _ _ D P V).
Qed.
Lemma custom_sub e v : sub v -> sub (custom_error e v).
Proof. intros H i s w t D P V. unfold custom_error in *. destruct (v i (off s)) as [[x|[]] u] eqn:XV; try discriminate. injection V as <- <-. destruct (H _ _ _ _ D P XV) as (u' & -> & U). eauto. Qed.
Lemma info_R own s1 s2 : R s1 s2 -> info_of own s1 = info_of own s2. Proof. now intros [[->| ->] _]. Qed.
Lemma info_R0 own s1 s2 : R0 s1 s2 -> info_of own s1 = info_of own s2. Proof. now intros [->| ->]. Qed.
Lemma before_sub f own v : sub v -> sub (function_before f own v).
Proof.
  intros H i s w t D P V. unfold function_before in *. change (call_fun f own (input_object i) i (off s)) with (call_fun f own (input_object i) i s) in V.
  destruct (call_fun _ _ _ _ _) as [x|]; [|discriminate]. exact (H _ _ _ _ (py _) P V).
Qed.
Lemma after_sub f own v : sub v -> sub (function_after f own v).
Proof.
  intros H i s w t D P V. unfold function_after in *. destruct (v i (off s)) as [[x|e] u] eqn:XV; [|discriminate]. destruct (H _ _ _ _ D P XV) as (u' & -> & U).
  injection V as V <-. unfold call_fun in *. rewrite <- (info_R own _ _ U). rewrite V. eauto.
Qed.
Lemma tagged_sub repr ga ps f2s md d fa custom choices : Forall (fun tv : pyval * validator => sub (snd tv)) choices -> sub (tagged_union_validate repr ga ps f2s md d fa custom choices).
Proof.
  intros F i s w t D P V. unfold tagged_union_validate in *. change (strict_or (off s)) with (strict_or s) in V. change (st_extra (off s)) with (st_extra s) in V.
  assert (K : forall tag, find_call_validator repr ps f2s md custom choices tag i (off s) = (VOk w, t) -> exists t', find_call_validator repr ps f2s md custom choices tag i s = (VOk w, t') /\ R t t').
  { intros tag X. unfold find_call_validator in *. destruct (lk_validate _ _ _ _ _) as [[id|]|]; [|destruct custom; discriminate|destruct custom; discriminate].
    destruct (nth_error choices id) as [[tg v]|] eqn:NT; [|discriminate]. apply nth_error_In in NT. rewrite Forall_forall in F. specialize (F _ NT). cbn in F.
    destruct (v i (off s)) as [[x|e] u] eqn:XV; [|discriminate]. destruct (F _ _ _ _ D P XV) as (u' & -> & U). injection X as <- <-. eauto. }
  destruct d as [k|f].
  - cbv zeta in *. destruct (validate_model_fields _ _ _ _ _) as [m|]; [|discriminate]. destruct (md_get m k) as [[[p tag]|]|]; try discriminate; [exact (K _ V)|]. unfold tag_not_found in V. destruct custom; discriminate.
  - destruct (f _) as [tag|]; [|discriminate]. destruct tag; try exact (K _ V). unfold tag_not_found in V. destruct custom; discriminate.
Qed.
Lemma wd_csub n k vd v : sub v -> vne v -> csub (wd_cv n {| wd_default_kind := k; wd_on_error := OnRaise; wd_inner := v; wd_validate_default := vd |}).
Proof.
  intros H N. set (W := {| wd_default_kind := k; wd_on_error := OnRaise; wd_inner := v; wd_validate_default := vd |}).
  assert (DEF : forall g l, (forall i s w t, data i -> plainly s -> g i (off s) = Some (VOk w, t) -> exists t', g i s = Some (VOk w, t') /\ R t t') ->
    forall s w t, plainly s -> default_value g W l (off s) = Some (VOk w, t) -> exists t', default_value g W l s = Some (VOk w, t') /\ R t t').
  { intros g l G s w t P V. unfold default_value in *. change (st_extra (off s)) with (st_extra s) in V. destruct (stored_default _ _) as [[d|]|e]; [|injection V as <- <-; eexists; split; [reflexivity|apply R_off; pl]|discriminate].
    destruct (wd_validate_default W); [|injection V as <- <-; eexists; split; [reflexivity|apply R_off; pl]].
    destruct (g (IPy d) (off s)) as [[[x|e] u]|] eqn:GV; try discriminate. destruct (G _ _ _ _ (py _) P GV) as (u' & -> & U). injection V as <- <-. eauto. }
  assert (VAL : forall n i s w t, data i -> plainly s -> wd_validate n W i (off s) = Some (VOk w, t) -> exists t', wd_validate n W i s = Some (VOk w, t') /\ R t t').
  { clear n. induction n as [|n IH]; intros i s w t D P V; [discriminate|]. cbn [wd_validate] in *. destruct (is_undefined i).
    - destruct (default_value (wd_validate n W) W None (off s)) as [[[[x|]|e] u]|] eqn:DV; try discriminate. destruct (DEF _ _ IH _ _ _ P DV) as (u' & -> & U). injection V as <- <-. eauto.
    - specialize (N i (off s)). change (wd_inner W) with v in *. destruct (v i (off s)) as [[x|[]] u] eqn:VV; try discriminate; cbn in N; try contradiction N.
      injection V as <- <-. destruct (H _ _ _ _ D P VV) as (u' & -> & U). eauto. }
  split.
  - intros i s w t D P V. cbn [cv_validate wd_cv] in *. destruct (wd_validate n W i (off s)) as [r|] eqn:E; [|discriminate]. subst r. destruct (VAL _ _ _ _ _ D P E) as (t' & -> & T). eauto.
  - intros l s w t P V. cbn [cv_default wd_cv] in *. destruct (default_value _ W l (off s)) as [r|] eqn:E; [|discriminate]. subst r. destruct (DEF _ _ (VAL n) _ _ _ P E) as (t' & -> & T). eauto.
Qed.

(** ** Classes *)
Lemma construct_sub c inner i ex s1 s2 w t : keeps inner -> sub inner -> data i -> R s1 s2 -> model_construct c inner i ex s1 = (VOk w, t) -> exists t', model_construct c inner i ex s2 = (VOk w, t') /\ R t t'.
Proof.
  intros K H D RR V. unfold model_construct in *. 
  destruct (match mo_custom_init c with Some f => _ | None => _ end) as [[x|x]|]; try discriminate.
  - injection V as <- <-. eauto.
  - destruct (mo_root c).
    + destruct (rebind _ s1 (inner i)) as [[out|] u] eqn:RB; [|discriminate]. destruct (rebind_R _ _ _ _ _ _ _ K H D RR RB) as (u' & -> & U). injection V as -> <-. eauto.
    + destruct (inner i s1) as [[out|] u] eqn:IV; [|discriminate]. destruct (sub_R _ _ _ _ _ _ K H D RR IV) as (u' & -> & U). injection V as -> <-. eauto.
Qed.

Lemma model_sub sb c inner : keeps inner -> sub inner -> sub (model_validate sb c inner).
Proof.
  intros K H i s w t D P V. unfold model_validate in *. destruct (instance_input _ _ _ _) as [[v force]|].
  - destruct (_ || _); [|injection V as <- <-; eexists; split; [reflexivity|apply R_off; pl]]. destruct (inst_attr _ _) as [fs|]; [|discriminate]. destruct (model_data _ _) as [d|]; [|discriminate].
    exact (construct_sub _ _ _ _ _ _ _ _ K H (py _) (R_off s P) V).
  - rewrite floor_off in V. exact (construct_sub _ _ _ _ _ _ _ _ K H D (R_off _ (plainly_floor _ _ P)) V).
Qed.
Lemma dataclass_sub sb c inner : sub inner -> sub (dataclass_validate sb c inner).
Proof.
  intros H i s w t D P V. unfold dataclass_validate in *. change (strict_or (off s)) with (strict_or s) in V. change (st_extra (off s)) with (st_extra s) in V. destruct (instance_input _ _ _ _) as [[v force]|].
  - destruct (_ || _); [|injection V as <- <-; eexists; split; [reflexivity|apply R_off; pl]]. destruct (inst_to_dict _ _ _) as [d|]; [|discriminate].
    destruct (inner _ (off s)) as [[out|] u] eqn:IV; [|discriminate]. destruct (H _ _ _ _ (py _) P IV) as (u' & -> & U). injection V as -> <-. eauto.
  - destruct (_ && _); [discriminate|]. destruct (inner i (off s)) as [[out|] u] eqn:IV; [|discriminate]. destruct (H _ _ _ _ D P IV) as (u' & -> & U). injection V as -> <-. eexists. split; [reflexivity|]. now apply R_floor.
Qed.

(** ** Readers *)
Lemma data_allowed i : data i -> ConformProofs.allowed false i. Proof. now destruct i. Qed.
Lemma allowed_data i : ConformProofs.allowed false i -> data i. Proof. now destruct i. Qed.
Lemma items_plain l : Forall (ConformProofs.item_allowed false) l -> Forall plain_item l.
Proof. apply Forall_impl. intros [x|e] H; [now apply allowed_data|exact I]. Qed.
Lemma list_feeds : feeds validate_list. Proof. intros b i sq _ H. exact (items_plain _ (ConformProofs.list_allowed false _ _ _ H)). Qed.
Lemma set_feeds : feeds validate_set. Proof. intros b i sq _ H. exact (items_plain _ (ConformProofs.set_allowed false _ _ _ H)). Qed.
Lemma frozenset_feeds : feeds validate_frozenset. Proof. intros b i sq _ H. exact (items_plain _ (ConformProofs.frozenset_allowed false _ _ _ H)). Qed.
Lemma entries_plain l : Forall (ConformProofs.entry_ok false) l -> Forall plain_entry l.
Proof. apply Forall_impl. intros [k kl v|e] H; [destruct H; split; now apply allowed_data|exact I]. Qed.
Lemma entries_feed repr b i l : data i -> dict_entries repr b i = VOk l -> Forall plain_entry l.
Proof. intros D V. apply entries_plain. pose proof (ConformProofs.dict_entries_ok false repr b i (data_allowed _ D)) as K. now rewrite V in K. Qed.
Lemma dict_feeds repr b i md : data i -> validate_dict repr b i = VOk md ->
  (forall k, exists o, md_get md k = VOk o) /\ (forall k p x, md_get md k = VOk (Some (p, x)) -> data x) /\ (forall es, md_iter md = VOk es -> Forall plain_entry es).
Proof.
  intros D V. destruct (ConformProofs.validate_dict_ok false repr b i md (data_allowed _ D) V) as [M A]. split; [|split].
  - exact (ConformProofs.mo_total _ _ M eq_refl A).
  - intros k p x G. apply allowed_data. pose proof (ConformProofs.mo_get _ _ M k) as K. rewrite G in K. exact (K _ _ eq_refl).
  - intros es G. apply entries_plain. pose proof (ConformProofs.mo_iter _ _ M) as K. now rewrite G in K.
Qed.

(** ** Whole schemas *)
Lemma forall_in {A B} (f : A -> B) (P : B -> Prop) l : (forall x, In x l -> P (f x)) -> Forall P (map f l).
Proof. intros H. apply Forall_forall. intros y Y. apply in_map_iff in Y. destruct Y as (x & <- & X). auto. Qed.
Lemma everywhere_impl (P Q : schema -> Prop) sc : (forall x, P x -> Q x) -> everywhere P sc -> everywhere Q sc.
Proof. intros H. revert sc. apply (schema_children_ind (fun sc => everywhere P sc -> everywhere Q sc)). intros sc IH W. destruct W as [sc U W]. constructor; auto. Qed.
Lemma settled_orderly sc : everywhere settled sc -> everywhere orderly sc. Proof. apply everywhere_impl. now intros ? [? _]. Qed.
Section Run.
Variable E : env.
Lemma eval_sub ref : (forall k, csub (ref k)) -> (forall k, cvne (ref k)) -> (forall k, ckeeps (ref k)) -> forall sc, everywhere settled sc -> csub (eval E ref sc).
Proof.
  intros RN RC RK. apply (schema_children_ind (fun sc => everywhere settled sc -> csub (eval E ref sc))).
  intros sc IH W. pose proof (proj1 (eval_none E ref RK sc W)) as KS. destruct W as [sc [O U] W].
  assert (C : forall c, In c (children sc) -> csub (eval E ref c) /\ cvne (eval E ref c) /\ ckeeps (eval E ref c)).
  { intros c Cc. split; [auto|]. split; [apply eval_ne; [exact RC|]; apply settled_orderly; now apply W|]. apply eval_none; auto. }
  clear IH W.
  assert (CV : forall c, In c (children sc) -> sub (cv_validate (eval E ref c))) by (intros c Cc; apply C, Cc).
  assert (CN : forall c, In c (children sc) -> vne (cv_validate (eval E ref c))) by (intros c Cc; apply C, Cc).
  assert (CK : forall c, In c (children sc) -> keeps (cv_validate (eval E ref c))) by (intros c Cc; apply C, Cc).
  assert (CO : forall o v, (forall x, In x (match o with Some x => [x] | None => [] end) -> In x (children sc)) -> option_map (fun sc => cv_validate (eval E ref sc)) o = Some v -> sub v /\ vne v /\ keeps v).
  { intros [x|] v X; [|discriminate]. intros [= <-]. split; [|split]; [apply CV|apply CN|apply CK]; apply X; now left. }
  destruct sc; cbn [eval children cv_validate no_default] in *; try contradiction U; try apply nd_csub.
  - apply com_sub; [exact KS|]; apply any_com.
  - apply com_sub; [exact KS|]; apply none_com.
  - apply com_sub; [exact KS|]; apply bool_com.
  - apply com_sub; [exact KS|]; apply int_com.
  - apply com_sub; [exact KS|]; apply float_com.
  - apply com_sub; [exact KS|]; apply str_com.
  - apply com_sub; [exact KS|]; apply bytes_com.
  - apply com_sub; [exact KS|]; apply literal_com.
  - apply com_sub; [exact KS|]; apply inst_com.
  - apply list_sub; [|apply list_feeds]. intros v. apply CO. auto.
  - apply set_sub; [apply CV; now left|apply CN; now left|apply CK; now left|]. destruct frozen; [apply frozenset_feeds|apply set_feeds].
  - apply reset_sub; [exact KS|reflexivity].
  - apply dict_sub; [apply CN; now left|apply CV; right; now left|apply CN; right; now left|apply CK; now left|apply CK; right; now left|]. intros b i l. apply entries_feed.
  - apply nullable_sub, CV. now left.
  - subst o. apply wd_csub; [apply CV|apply CN]; now left.
  - apply chain_sub, forall_in. auto.
  - apply jop_sub; apply CV; [now left|right; now left].
  - apply los_sub; apply CV; [now left|right; now left].
  - apply custom_sub, CV. now left.
  - apply before_sub. apply CV. now left.
  - apply after_sub. apply CV. now left.
  - apply com_sub; [exact KS|]; apply plain_com.
  - apply com_sub; [exact KS|]; apply wrap_com.
  - apply tagged_sub, forall_in. intros [g x] X. apply CV, in_map_iff. now exists (g, x).
  - apply reset_sub; [exact KS|reflexivity].
  - apply typed_dict_sub; [| |intros b i md; apply dict_feeds]; cbn.
    + apply forall_in. intros [f x] X. apply C, in_or_app. left. apply in_map_iff. now exists (f, x).
    + intros v. apply CO. intros x X. apply in_or_app. right. exact X.
  - apply reset_sub; [exact KS|reflexivity].
  - apply reset_sub; [exact KS|reflexivity].
  - apply model_sub; [apply CK|apply CV]; now left.
  - apply dataclass_sub, CV. now left.
  - apply RN.
Qed.

Variable defs : nat -> option schema.
Hypothesis D : forall k d, defs k = Some d -> everywhere settled d.
Lemma refs_sub : forall fuel depth k, csub (refs E defs fuel depth k).
Proof.
  induction fuel as [|fuel IH]; intros depth k; [split; intros ? ? ? ?; cbn; discriminate|].
  assert (N : forall d k, cvne (refs E defs fuel d k)) by (intros d k'; apply refs_ne; intros k0 d0 K0; exact (settled_orderly _ (D _ _ K0))).
  cbn [refs]. destruct (defs k) as [sc|] eqn:K; [|split; intros ? ? ? ?; cbn; discriminate].
  assert (V : forall d, csub (eval E (refs E defs fuel d) sc)) by (intros d; apply eval_sub; [apply IH|apply N|now apply refs_none|exact (D _ _ K)]).
  split; [apply reset_sub; [|reflexivity]|].
  { pose proof (proj1 (refs_none E defs D (S fuel) depth k)) as KR. cbn [refs] in KR. rewrite K in KR. exact KR. } cbn [cv_default]. apply V.
Qed.
Lemma run_sub fuel sc : everywhere settled sc -> sub (run E defs fuel sc).
Proof.
  intros W. apply (eval_sub (refs E defs fuel 0)); [apply refs_sub| |now apply refs_none|exact W]. intros k. apply refs_ne. intros k0 d0 K0. exact (settled_orderly _ (D _ _ K0)).
Qed.
End Run.

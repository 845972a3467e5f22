From Coq Require Import List NArith ZArith Bool Lia.
From Verif Require Import Base Float64 IntParse Numbers BytesCodec Values VState LookupKey Collections Child Inputs Scalars Literal Wrappers Union TaggedUnion Tuple ModelFields TypedDict Assign Arguments Classes Interp InterpSpec CollectionsProofs LookupKeyProofs ArgumentsProofs StableSpec LocateSpec LocateProofs.
Import ListNotations.
Open Scope nat_scope.

Section Locate.
Variable E : env.
Variable label : loc_item -> Prop.
Notation step := (step E).
Notation leads := (leads E label).
Notation located := (located E label).
Notation md_at := (md_at E label).

(** ** Objects *)
Lemma get_attrs_item v p x : py_get_attrs (e_getattr E) v p = AVal x -> attr_item E v (to_loc_item p) x.
Proof.
  destruct p as [k|n|n]; cbn [py_get_attrs to_loc_item].
  - destruct (is_dict v) eqn:D; [|intros H; now apply ai_attr]. destruct (py_get_item v (PiS k)) eqn:G; [|discriminate]. intros [= ->]. apply ai_dict; [exact D|]. exact (get_item_sub _ _ _ G).
  - destruct (py_get_item v (PiPos n)) eqn:G; [|discriminate]. intros [= ->]. apply ai_index. exact (get_item_sub _ _ _ G).
  - destruct (py_get_item v (PiNeg n)) eqn:G; [|discriminate]. intros [= ->]. apply ai_index. exact (get_item_sub _ _ _ G).
Qed.
Lemma item_get_attrs v p x : good_item p -> attr_item E v (to_loc_item p) x -> py_get_attrs (e_getattr E) v p = AVal x.
Proof.
  intros G H. destruct p as [k|n|n]; cbn [py_get_attrs to_loc_item] in *; inversion H; subst.
  - match goal with Q : is_dict v = _ |- _ => now rewrite Q end.
  - match goal with Q : is_dict v = _, S : subscript _ _ _ |- _ => rewrite Q; destruct (sub_get_item v (PiS k) _ G S) as (y & Y & ->) end. now injection Y as <-.
  - match goal with S : subscript _ _ _ |- _ => destruct (sub_get_item v (PiPos n) _ G S) as (y & Y & ->) end. now injection Y as <-.
  - match goal with S : subscript _ _ _ |- _ => destruct (sub_get_item v (PiNeg n) _ G S) as (y & Y & ->) end. now injection Y as <-.
Qed.
Lemma attrs_fold_items rest : forall v x, attrs_fold (e_getattr E) v rest = AVal x -> attr_items E v (map to_loc_item rest) x.
Proof.
  induction rest as [|p rest IH]; cbn [attrs_fold map]; intros v x H; [injection H as <-; constructor|].
  destruct (py_get_attrs _ v p) as [w| |] eqn:W; try discriminate. econstructor; [apply get_attrs_item, W|auto].
Qed.
Lemma items_attrs_fold rest : Forall good_item rest -> forall v x, attr_items E v (map to_loc_item rest) x -> attrs_fold (e_getattr E) v rest = AVal x.
Proof.
  induction rest as [|p rest IH]; cbn [attrs_fold map]; intros F v x H; inversion H; subst; [reflexivity|]. inversion F; subst.
  rewrite (item_get_attrs v p w) by assumption. auto.
Qed.
Lemma get_attrs_raise v p e : py_get_attrs (e_getattr E) v p = ARaise e -> exists k, e_getattr E v k = ARaise e.
Proof.
  destruct p as [k|n|n]; cbn [py_get_attrs]; try (destruct (py_get_item v _); discriminate).
  destruct (is_dict v); [destruct (py_get_item v _); discriminate|eauto].
Qed.
Lemma attrs_fold_raise rest : forall v e, attrs_fold (e_getattr E) v rest = ARaise e -> exists r w k, attr_items E v r w /\ e_getattr E w k = ARaise e.
Proof.
  induction rest as [|p rest IH]; cbn [attrs_fold]; intros v e H; [discriminate|].
  destruct (py_get_attrs _ v p) as [w| |x] eqn:W; try discriminate.
  - destruct (IH _ _ H) as (r & w' & k & A & R). exists (to_loc_item p :: r), w', k. split; [econstructor; [apply get_attrs_item, W|exact A]|exact R].
  - injection H as ->. destruct (get_attrs_raise _ _ _ W) as [k K]. exists [], v, k. split; [constructor|exact K].
Qed.
Lemma attr_items_leads v p x : attr_items E v p x -> leads (IPy v) p (IPy x).
Proof.
  intros H. induction H as [|v l w p x A H IH]; [constructor|]. eapply leads_step; [|exact IH]. inversion A; subst; [now apply step_attr| |]; now apply step_sub.
Qed.

Section Object.
Variables (i : input) (o : pyval) (kw : option (list (pyval * pyval))).
Hypothesis O : object_of i o.
Hypothesis OL : object_like i.
Hypothesis A1 : forall k x, e_getattr E o k = AVal x -> step i (LStr k) (IPy x).
Hypothesis A2 : forall k x, is_dict o = true -> subscript (IPy o) (LStr k) (IPy x) -> step i (LStr k) (IPy x).
Hypothesis A3 : forall d k x, kw = Some d -> dict_get (PStr k) d = Some x -> step i (LStr k) (IPy x).
Hypothesis IN : forall p, in_object E i p -> (is_dict o = false /\ exists x, attr_items E o p x) \/
   (exists d k x q y, kw = Some d /\ p = LStr k :: q /\ dict_get (PStr k) d = Some x /\ subscripts (IPy x) q y).

Lemma path_at p x : attrs_fold (e_getattr E) o (PiS (lp_first p) :: lp_rest p) = AVal x -> leads i (path_loc p) (IPy x).
Proof.
  cbn [attrs_fold]. destruct (py_get_attrs _ o _) as [w| |] eqn:W; try discriminate. intros F. unfold path_loc. apply attrs_fold_items in F. eapply leads_step; [|apply attr_items_leads, F].
  apply get_attrs_item in W. inversion W; subst; auto.
Qed.
Lemma attr_md : md_at i (attr_mdict (e_getattr E) o kw).
Proof.
  constructor; cbn [attr_mdict md_get md_iter].
  - intros k p x G. unfold py_get_attr. destruct (match kw with Some d => py_get_dict_item k d | None => None end) as [[p0 x0]|] eqn:K.
    + cbn. intros [= <- <-]. split; [exact I|]. destruct kw as [d|]; [|discriminate]. eapply dict_at; [|exact G|exact K]. intros n y. now apply A3.
    + destruct (simple_py_get_attr _ k o) as [[[p0 x0]|]|] eqn:S; cbn; try discriminate. intros [= <- <-]. split; [exact I|].
      destruct G as [q R|q q' R R'|q ps R]; cbn [simple_py_get_attr] in S.
      * destruct (e_getattr E o _) eqn:Q; try discriminate. injection S as <- <-. unfold path_loc. rewrite R. apply leads_one, A1, Q.
      * destruct (e_getattr E o _) eqn:Q; try discriminate; [|destruct (e_getattr E o _) eqn:Q2 in S; try discriminate]; injection S as <- <-; unfold path_loc; rewrite ?R, ?R'; apply leads_one, A1; assumption.
      * revert S. clear R K. generalize (q :: ps) as qs. induction qs as [|q0 qs IH]; cbn [attr_path]; [discriminate|].
        destruct (attrs_fold _ _ _) as [w| |] eqn:F; [|exact IH|discriminate]. intros [= <- <-]. exact (path_at _ _ F).
  - intros p q x. unfold py_get_attr. cbn [simple_py_get_attr py_get_dict_item]. destruct kw as [d|]; [destruct (dict_get _ d); [now intros [= <- _]|]|]; cbn [option_map]; destruct (e_getattr E o _); try discriminate; now intros [= <- _].
  - intros k p G F. unfold py_get_attr. destruct (match kw with Some d => py_get_dict_item k d | None => None end) as [[p0 x0]|] eqn:K; [discriminate|].
    destruct (simple_py_get_attr _ k o) as [[[p0 x0]|]|] eqn:S; cbn; try discriminate. intros _. apply absent_object; [exact OL|].
    intros A. apply IN in A. destruct A as [(D & x & A)|(d & n & x & q & y & -> & Q & H & SS)].
    + unfold path_loc in A. inversion A; subst. match goal with Q : attr_item _ _ _ _ |- _ => inversion Q; subst; [|congruence] end.
      match goal with Q : e_getattr E o _ = AVal _ |- _ => rename Q into GA end.
      match goal with Q : attr_items E _ (map to_loc_item _) _ |- _ => rename Q into AI end.
      destruct G as [q R|q q' R R'|q ps R]; cbn [simple_py_get_attr first_of hd_error] in *; injection F as ->.
      * rewrite GA in S. discriminate.
      * rewrite GA in S. discriminate.
      * cbn [attr_path attrs_fold py_get_attrs] in S. rewrite D, GA in S. rewrite (items_attrs_fold _ R _ _ AI) in S. discriminate.
    + unfold path_loc in Q. injection Q as <- <-. eapply dict_none; eauto.
  - intros k e. unfold py_get_attr. destruct (match kw with Some d => py_get_dict_item k d | None => None end) as [[p0 x0]|]; [discriminate|].
    destruct (simple_py_get_attr _ k o) as [[[p0 x0]|]|ex] eqn:S; cbn; try discriminate. intros [= <-]. exists o.
    assert (R : exists r w n x, attr_items E o r w /\ e_getattr E w n = ARaise x).
    { destruct k as [q|q q'|ps]; cbn [simple_py_get_attr] in S.
      - destruct (e_getattr E o _) eqn:Q; try discriminate. eexists [], o, _, _. split; [constructor|exact Q].
      - destruct (e_getattr E o _) eqn:Q; try discriminate; [destruct (e_getattr E o (lp_first q')) eqn:Q2; try discriminate|]; eexists [], o, _, _; (split; [constructor|eassumption]).
      - induction ps as [|q qs IH]; [discriminate|]. cbn [attr_path] in S. destruct (attrs_fold _ _ _) eqn:F; [discriminate|auto|]. apply attrs_fold_raise in F. destruct F as (r & w & n & F). eauto. }
    destruct R as (r & w & n & x & R1 & R2). exists r, w, n, x. auto.
  - intros es [= <-]. constructor.
  - eauto.
Qed.
End Object.

Lemma dict_items_is v : dict_items v = None -> is_dict v = false.
Proof. unfold dict_items. induction v; cbn; auto. discriminate. Qed.
Lemma dict_strip v d : dict_items v = Some d -> strip v = PDict d.
Proof. unfold dict_items. destruct (strip v); try discriminate. now intros [= ->]. Qed.

Lemma model_fields_at b fa i md : python_or_json i -> validate_model_fields (e_repr E) (e_getattr E) b fa i = VOk md -> md_at i md.
Proof.
  intros P H. assert (D : validate_dict (e_repr E) b i = VOk md -> md_at i md).
  { unfold validate_dict. destruct i as [v|j|k|v]; try discriminate; [|destruct j; try discriminate; intros [= <-]; apply json_md_at|contradiction].
    destruct (dict_items v) eqn:S; [|discriminate]. intros [= <-]. apply dict_md_at, dict_strip, S. }
  unfold validate_model_fields in H. destruct i as [v|j|k|v]; auto. destruct fa; auto. destruct (dict_items v) eqn:S; [injection H as <-; apply dict_md_at, dict_strip, S|].
  destruct (from_attributes_applicable v) eqn:F.
  - injection H as <-. apply attr_md.
    + now left.
    + exists v. auto.
    + intros k x. apply step_attr.
    + intros k x _. apply step_sub.
    + discriminate.
    + intros p Q. inversion Q; subst; [left; split; [assumption|eauto]|discriminate F|discriminate F].
  - destruct v; try discriminate. destruct l as [|o [|kw [|]]]; try discriminate. destruct (dict_items kw) as [d|] eqn:K; [|discriminate]. destruct (from_attributes_applicable o) eqn:FO; [|discriminate].
    injection H as <-. apply attr_md.
    + right. eauto.
    + exists o. split; [exact FO|]. right. exists kw. split; [reflexivity|congruence].
    + intros k x. apply step_pair_attr.
    + intros k x. apply step_pair_item.
    + intros d' k x [= <-]. now apply step_pair_kwarg.
    + intros p Q. inversion Q; subst; [discriminate|left; split; [assumption|eauto]|]. right. assert (d0 = d) by congruence. subst. do 5 eexists. eauto.
Qed.
Lemma dict_at_md b i md : python_or_json i -> validate_dict (e_repr E) b i = VOk md -> md_at i md.
Proof. intros P H. apply (model_fields_at b false i md P). destruct i; exact H. Qed.

(** ** Results *)
Definition errs {A} (i : input) (r : vres A) : Prop := match r with VErr (LineErrors l) => Forall (located i) l | _ => True end.
Definition tracks (v : validator) : Prop := forall i s, python_or_json i -> errs i (fst (v i s)).
(** A default never has line errors. *)
Definition plain_err (e : verror) : Prop := match e with LineErrors _ => False | _ => True end.
Definition ctracks (c : cv) : Prop := tracks (cv_validate c) /\ forall l s e, fst (cv_default c l s) = VErr e -> plain_err e.
Lemma nd_tracks v : tracks v -> ctracks (no_default v). Proof. intros H. split; [exact H|discriminate]. Qed.

Lemma errs_val {A} i t x : input_object x = input_object i -> errs i (@val_err A t x).
Proof. intros H. constructor; [now apply located_new|constructor]. Qed.
Lemma errs_plain {A} i e : plain_err e -> errs i (@VErr A e). Proof. destruct e; now intros []. Qed.
Lemma errs_cast {A B} i e : errs i (@VErr A e) -> errs i (@VErr B e). Proof. exact (fun H => H). Qed.

(** ** Sequences *)
Definition item_at (i : input) (n : nat) (it : item input) : Prop :=
  match it with It x => python_or_json x /\ step i (index_loc n) x | Raise _ => False end.
Record seq_at (i : input) (l : list (item input)) : Prop := {
  sa_items : forall n it, nth_error l n = Some it -> item_at i n it;
  sa_data : data_like i;
  sa_end : forall n, length l <= n -> ~ in_data i [index_loc n] }.

Lemma at_end {A} (l : list A) n x : length l <= n -> ~ at_index l (Z.of_nat n) x.
Proof. intros L H. apply at_nth in H. assert (n < length l) by (apply nth_error_Some; congruence). lia. Qed.
Ltac ors := repeat match goal with Q : _ \/ _ |- _ => destruct Q end; congruence.
Lemma list_seq_at v l : strip v = PList l \/ strip v = PTuple l -> seq_at (IPy v) (map (fun v => It (IPy v)) l).
Proof.
  intros S. constructor.
  - intros n it H. rewrite nth_error_map in H. destruct (nth_error l n) eqn:N; [|discriminate]. injection H as <-. split; [exact I|]. apply step_sub. eapply sub_list; [exact S|now apply nth_at].
  - cbn. destruct S as [-> | ->]; exact I.
  - intros n L H. rewrite map_length in L. inversion H; subst.
    + match goal with Q : subscript _ _ _ |- _ => inversion Q; subst end.
      * assert (l0 = l) by ors. subst. eapply at_end; eauto.
      * destruct S; congruence.
      * destruct S; congruence.
    + ors.
    + match goal with Q : as_args_kwargs _ = Some _ |- _ => apply args_obj in Q; destruct Q as (_ & ? & ? & ->) end. destruct S; discriminate.
Qed.
Lemma set_seq_at v l : strip v = PSet l \/ strip v = PFrozenSet l -> seq_at (IPy v) (map (fun v => It (IPy v)) l).
Proof.
  intros S. constructor.
  - intros n it H. rewrite nth_error_map in H. destruct (nth_error l n) eqn:N; [|discriminate]. injection H as <-. split; [exact I|]. eapply step_member; [exact S|exact N].
  - cbn. destruct S as [-> | ->]; exact I.
  - intros n L H. rewrite map_length in L. inversion H; subst.
    + match goal with Q : subscript _ _ _ |- _ => inversion Q; subst end; repeat match goal with Q : _ \/ _ |- _ => destruct Q end; congruence.
    + assert (n0 = n) by (apply Nat2Z.inj; assumption). subst. assert (l0 = l) by ors. subst. assert (n < length l) by (apply nth_error_Some; congruence). lia.
    + match goal with Q : as_args_kwargs _ = Some _ |- _ => apply args_obj in Q; destruct Q as (_ & ? & ? & ->) end. destruct S; discriminate.
Qed.
Lemma json_seq_at l : seq_at (IJson (JArr l)) (map (fun v => It (IJson v)) l).
Proof.
  constructor.
  - intros n it H. rewrite nth_error_map in H. destruct (nth_error l n) eqn:N; [|discriminate]. injection H as <-. split; [exact I|]. apply step_sub, sub_array. now apply nth_at.
  - exact I.
  - intros n L H. rewrite map_length in L. inversion H; subst. match goal with Q : subscript _ _ _ |- _ => inversion Q; subst end. eapply at_end; eauto.
Qed.
Definition seq_reads (f : bool -> input -> vres seq) : Prop :=
  forall b i, python_or_json i -> errs i (f b i) /\ forall sq, f b i = VOk sq -> seq_at i (sq_items sq).
Lemma lax_reads b t v : errs (IPy v) (lax_sequence b t (IPy v) v) /\ forall sq, lax_sequence b t (IPy v) v = VOk sq -> seq_at (IPy v) (sq_items sq).
Proof.
  unfold lax_sequence. destruct b; [split; [now apply errs_val|discriminate]|]. unfold sequence_iterable.
  destruct (strip v) eqn:S; try (split; [now apply errs_val|discriminate]); (split; [exact I|intros sq [= <-]]); cbn [py_seq sq_items]; first [apply list_seq_at; rewrite S; auto; fail | apply set_seq_at; rewrite S; auto].
Qed.
Ltac reads := repeat match goal with
  | |- context [lax_sequence] => apply lax_reads
  | |- errs _ (val_err _ _) /\ _ => split; [now apply errs_val|discriminate]
  | |- errs _ (VOk _) /\ _ => split; [exact I|intros ? [= <-]]; cbn [py_seq json_seq sq_items]; first [apply json_seq_at | apply list_seq_at; auto; fail | apply set_seq_at; auto] end.
Lemma list_reads : seq_reads validate_list.
Proof. intros b [v|j|k|v] P; unfold validate_list; [destruct (strip v) eqn:S|destruct j| |]; reads. Qed.
Lemma tuple_reads : seq_reads validate_tuple.
Proof. intros b [v|j|k|v] P; unfold validate_tuple; [destruct (strip v) eqn:S|destruct j| |]; reads. Qed.
Lemma set_reads : seq_reads validate_set.
Proof. intros b [v|j|k|v] P; unfold validate_set; [destruct (strip v) eqn:S|destruct j| |]; reads. Qed.
Lemma frozenset_reads : seq_reads validate_frozenset.
Proof. intros b [v|j|k|v] P; unfold validate_frozenset; [destruct (strip v) eqn:S|destruct j| |]; reads. Qed.
End Locate.

From Coq Require Import List NArith ZArith Bool Lia.
From Verif Require Import Base Float64 IntParse Numbers BytesCodec Values VState LookupKey Collections Child Inputs Scalars Literal Wrappers Union TaggedUnion Tuple ModelFields TypedDict Assign Arguments Classes Interp InterpSpec InterpProofs StrictSpec StrictProofs StrictProofs2 StrictProofs3 StrictProofs4 StrictProofs5.
Import ListNotations.
Open Scope nat_scope.

Lemma lk_quiet py f2s md lk i e : lk_validate py f2s md lk i = VErr e -> quiet e.
Proof.
  unfold lk_validate. destruct (bool_slot lk i); [discriminate|]. destruct (int_slot md lk i) as [[x|]|x] eqn:IS; try discriminate.
  - destruct (str_slot py f2s lk i); [discriminate|]. cbv zeta. destruct (pd_lookup _ (lk_py_dict lk)); [discriminate|]. destruct (values_slot _ _); discriminate.
  - intros [= <-]. unfold int_slot in IS. destruct (lk_int lk); [discriminate|]. destruct (exact_int md i) as [n|]; [|discriminate]. unfold into_i64, val_err in IS. destruct (fits_i64 _); [discriminate|]. injection IS as <-. exact I.
Qed.
Lemma literal_sub py f2s md l : sub (literal_validate py f2s md l).
Proof.
  intros i s1 s2 H. unfold literal_validate. destruct (lk_validate _ _ _ _ _) as [[x|]|x] eqn:L; [destruct (nth_error l x); bad|bad|]. apply lk_quiet in L. bad.
Qed.
Lemma forall_in {A B} (f : A -> B) (P : B -> Prop) l : (forall x, In x l -> P (f x)) -> Forall P (map f l).
Proof. intros H. apply Forall_forall. intros y Y. apply in_map_iff in Y. destruct Y as (x & <- & X). auto. Qed.
Lemma opt_in {A} (o : option A) x : o = Some x -> In x (opt_list o). Proof. intros ->. now left. Qed.

Section Run.
Variable E : env.
Lemma eval_sub ref : (forall k, csub (ref k)) -> forall sc, everywhere union_free sc -> csub (eval E ref sc).
Proof.
  intros RN. apply (schema_children_ind (fun sc => everywhere union_free sc -> csub (eval E ref sc))).
  intros sc IH W. destruct W as [sc U W].
  assert (C : forall c, In c (children sc) -> csub (eval E ref c)) by auto. clear IH W.
  assert (CV : forall c, In c (children sc) -> sub (cv_validate (eval E ref c))) by (intros c Cc; apply C, Cc).
  assert (CO : forall o v, (forall x, In x (opt_list o) -> In x (children sc)) -> option_map (fun sc => cv_validate (eval E ref sc)) o = Some v -> sub v).
  { intros [x|] v X; [|discriminate]. intros [= <-]. apply CV, X. now left. }
  destruct sc; cbn [eval children union_free] in *; try contradiction U; try apply nd_csub.
  - apply any_sub.
  - apply none_sub.
  - apply bool_sub.
  - apply int_sub.
  - apply float_sub.
  - apply str_sub.
  - apply bytes_sub.
  - apply literal_sub.
  - apply is_instance_sub.
  - apply list_sub; [|apply list_reads]. intros v. apply CO. auto.
  - apply set_sub; [apply CV; now left|]. destruct frozen; [apply frozenset_reads|apply set_reads].
  - apply tuple_sub; [|apply tuple_reads]. cbn. apply forall_in. exact C.
  - apply dict_sub; [apply CV; now left|apply CV; right; now left|apply entries_reads|]. intros st i l. apply entries_good.
  - apply nullable_sub, CV. now left.
  - apply wd_csub; [apply CV; now left|exact U].
  - apply chain_sub, forall_in. exact CV.
  - apply jop_sub; apply CV; [now left|right; now left].
  - apply custom_sub, CV. now left.
  - apply before_sub; [exact U|]. apply CV. now left.
  - apply after_sub; [exact U|]. apply CV. now left.
  - apply plain_sub. exact U.
  - apply tagged_sub, forall_in. intros [t x] X. apply CV, in_map_iff. now exists (t, x).
  - apply model_fields_sub; [| | |apply mf_reads]; cbn.
    + apply forall_in. intros [f x] X. apply C, in_or_app. left. apply in_map_iff. now exists (f, x).
    + intros v. apply CO. intros x X. apply in_or_app. right. apply in_or_app. now left.
    + intros v. apply CO. intros x X. apply in_or_app. right. apply in_or_app. now right.
  - apply typed_dict_sub; [| |apply dict_reads|apply dict_md_good]; cbn.
    + apply forall_in. intros [f x] X. apply C, in_or_app. left. apply in_map_iff. now exists (f, x).
    + intros v. apply CO. intros x X. apply in_or_app. now right.
  - apply arguments_sub; [| | |apply args_good|apply args_quiet]; cbn.
    + apply forall_in. intros [f x] X. apply C, in_or_app. left. apply in_map_iff. now exists (f, x).
    + intros v. apply CO. intros x X. apply in_or_app. right. apply in_or_app. now left.
    + intros v. apply CO. intros x X. apply in_or_app. right. apply in_or_app. now right.
  - apply dataclass_args_sub; [| |apply dargs_good|apply dargs_quiet]; cbn.
    + apply forall_in. intros [f x] X. apply C, in_or_app. left. apply in_map_iff. now exists (f, x).
    + intros v. apply CO. intros x X. apply in_or_app. now right.
  - apply model_sub; [apply CV; now left|exact (proj1 U)|exact (proj2 U)].
  - apply dataclass_sub; [apply CV; now left|exact U].
  - apply RN.
Qed.

Variable defs : nat -> option schema.
Hypothesis D : forall k d, defs k = Some d -> everywhere union_free d.
Lemma bad_csub e : quiet e -> csub {| cv_validate := fun _ s => (VErr e, s); cv_default := fun _ s => (VErr e, s) |}.
Proof. intros Q. split; [intros i s1 s2 H|intros l s1 s2 H]; cbn; bad. Qed.
Lemma refs_sub : forall fuel depth k, csub (refs E defs fuel depth k).
Proof.
  induction fuel as [|fuel IH]; intros depth k; cbn [refs]; [now apply bad_csub|].
  destruct (defs k) as [sc|] eqn:K; [|now apply bad_csub].
  assert (V : forall d, csub (eval E (refs E defs fuel d) sc)) by (intros d; apply eval_sub; [apply IH|exact (D _ _ K)]).
  split.
  - intros i s1 s2 H. cbn [cv_validate]. destruct i; try (destruct (_ <=? _); [bad|]); apply (proj1 (V _)); destruct H; split; auto.
  - intros l s1 s2 H. cbn [cv_default]. exact (proj2 (V _) _ _ _ H).
Qed.
Lemma run_sub fuel sc : everywhere union_free sc -> sub (run E defs fuel sc).
Proof. intros W. apply (eval_sub (refs E defs fuel 0)); [apply refs_sub|exact W]. Qed.
End Run.

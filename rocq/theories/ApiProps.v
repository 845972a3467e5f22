(** C96: what [isinstance_python] and [get_default_value] answer. *)
From Coq Require Import List NArith ZArith Bool Lia.
From Verif Require Import Base Float64 Values VState LookupKey LookupKeyProofs Collections Child Inputs Wrappers Union ModelFields TypedDict Classes Interp InterpSpec InterpProofs InterpExamples
  StrictSpec StrictProps ConformSpec ConformProofs ConformProofs8 ConformProps RelProps StringsProps Api ApiSpec.
Import ListNotations.
Open Scope nat_scope.

(** ** isinstance_python *)
(** True when validation returns, False when it fails with line errors, and the exception
    of the validation otherwise. *)
Theorem C96_isinstance : forall E defs fuel sc v o, op_partial o = PartialOff ->
  (isinstance_python E defs fuel sc v o = Yes <-> exists w, validate_python E defs fuel sc v o = VOk w) /\
  (isinstance_python E defs fuel sc v o = No <-> exists es, validate_python E defs fuel sc v o = VErr (LineErrors es)) /\
  (forall e, isinstance_python E defs fuel sc v o = Raises e <-> validate_python E defs fuel sc v o = VErr e /\ forall es, e <> LineErrors es).
Proof.
  intros E defs fuel sc v o P. unfold isinstance_python, validate_python.
  replace (no_partial o) with o by (destruct o; cbn in *; now subst).
  destruct (fst _) as [w|[es| | | |]]; repeat split; try intros e; try split; intros; repeat match goal with H : exists _, _ |- _ => destruct H | H : _ /\ _ |- _ => destruct H end; try discriminate; eauto; try congruence; try (split; congruence).
Qed.
Print Assumptions C96_isinstance.

(** An instance in strict mode is an instance in lax mode. *)
Theorem C96_isinstance_strict : forall E defs fuel sc v o, holds_of union_free defs sc ->
  isinstance_python E defs fuel sc v (made_strict o) = Yes -> isinstance_python E defs fuel sc v o = Yes.
Proof.
  intros E defs fuel sc v o W H. unfold isinstance_python in *.
  change (no_partial (made_strict o)) with (made_strict (no_partial o)) in H.
  destruct (fst (run E defs fuel sc (IPy v) (call_state ITPython (made_strict (no_partial o))))) as [w|e] eqn:Q; [|destruct e; discriminate].
  now rewrite (C28_strict_implies_lax E defs fuel sc ITPython (no_partial o) (IPy v) w W eq_refl Q).
Qed.
Print Assumptions C96_isinstance_strict.

(** True means that there is a conforming value behind it. *)
Theorem C96_isinstance_conforms : forall E defs fuel sc v o, holds_of proper defs sc ->
  isinstance_python E defs fuel sc v o = Yes -> exists w, conforms E defs false sc w.
Proof.
  intros E defs fuel sc v o W H. unfold isinstance_python in *.
  destruct (run E defs fuel sc (IPy v) (call_state ITPython (no_partial o))) as [[w|e] s'] eqn:Q; cbn [fst] in H; [|destruct e; discriminate].
  exists w. exact (C29_result_conforms E defs fuel sc (IPy v) _ w s' W Q).
Qed.
Print Assumptions C96_isinstance_conforms.

(** ** get_default_value *)
(** A default is a value of its schema, and only a schema with a default has one. *)
Theorem C96_default_conforms : forall E defs fuel sc strict v, holds_of proper defs sc ->
  get_default_value E defs fuel sc strict = VOk (Some v) -> conforms E defs false sc v /\ defaulted defs sc.
Proof.
  intros E defs fuel sc strict v [W D] H. unfold get_default_value in H.
  assert (G : good E defs false (eval E (refs E defs fuel 0) sc) sc).
  { apply eval_ok; [intros; now apply refs_ne|intros; now apply refs_ok|exact W]. }
  destruct G as [_ G]. specialize (G None (call_state ITPython (default_opts strict))). rewrite H in G. exact G.
Qed.
Print Assumptions C96_default_conforms.

Lemma no_default_ref E defs : forall fuel depth sc l s, fst (cv_default (eval E (refs E defs fuel depth) sc) l s) = VOk None -> ~ defaulted defs sc.
Proof.
  induction fuel as [|fuel IH]; intros depth sc l s H D; destruct D as [k o vd sc K|k d K D].
  1,3: cbn [eval wd_cv cv_default] in H; unfold default_value in H; cbn [wd_default_kind wd_validate_default] in H;
    destruct k as [|v|f b]; cbn [stored_default] in H; [contradiction| |];
    try (match type of H with context [match f ?x with _ => _ end] => destruct (f x) end);
    try (cbn in H; discriminate); destruct vd; try (cbn in H; discriminate);
    repeat match type of H with context [match wd_validate ?n ?w ?i ?s with _ => _ end] => destruct (wd_validate n w i s) as [[[?|?] ?]|] end; cbn in H; discriminate.
  - cbn in H. discriminate.
  - cbn [eval refs] in H. rewrite K in H. cbn [cv_default] in H. exact (IH _ _ _ _ H D).
Qed.

(** None is the answer only for schemas without a default ... *)
Theorem C96_none_means_no_default : forall E defs fuel sc strict,
  get_default_value E defs fuel sc strict = VOk None -> ~ defaulted defs sc.
Proof. intros E defs fuel sc strict H. exact (no_default_ref E defs fuel 0 sc _ _ H). Qed.
Print Assumptions C96_none_means_no_default.

(** ... and always for them, unless the references lead nowhere. *)
Theorem C96_no_default : forall E defs fuel sc strict, ~ defaulted defs sc ->
  get_default_value E defs fuel sc strict = VOk None \/ (exists r, sc = SRef r) /\ get_default_value E defs fuel sc strict = VErr Panic.
Proof.
  intros E defs fuel sc strict. unfold get_default_value. generalize (@None loc_item) (call_state ITPython (default_opts strict)).
  assert (A : forall fuel depth sc l s, ~ defaulted defs sc ->
    fst (cv_default (eval E (refs E defs fuel depth) sc) l s) = VOk None \/ (exists r, sc = SRef r) /\ fst (cv_default (eval E (refs E defs fuel depth) sc) l s) = VErr Panic).
  { clear. induction fuel as [|fuel IH]; intros depth sc l s N; destruct sc; try (left; reflexivity).
    1,3: destruct k as [|v|f b]; [left; reflexivity|exfalso; apply N; constructor; discriminate|exfalso; apply N; constructor; discriminate].
    - right. split; [eauto|reflexivity].
    - cbn [eval refs]. destruct (defs k) as [d|] eqn:K; [|right; split; [eauto|reflexivity]]. cbn [cv_default].
      destruct (IH depth d l s) as [X|[_ X]]; [intros D; apply N; now apply (DfRef _ k d)|left; exact X|right; split; [eauto|exact X]]. }
  intros o s. apply A.
Qed.
Print Assumptions C96_no_default.

(** A default that is not validated: the value itself, whatever the mode. *)
Lemma always_default E defs fuel sc v : always defs fuel sc v ->
  forall depth l s, cv_default (eval E (refs E defs fuel depth) sc) l s = (VOk (Some v), s).
Proof.
  intros (n & k & o & inner & L & D & F) depth l s. remember false as vd eqn:V. revert fuel L.
  induction D as [k o vd inner|n r d k o vd inner R D IH]; intros fuel L.
  - subst vd. cbn [eval wd_cv cv_default]. unfold default_value. cbn [wd_default_kind wd_validate_default].
    destruct F as [v|f v F]; cbn [stored_default]; [reflexivity|now rewrite F].
  - destruct fuel as [|fuel]; [lia|]. cbn [eval refs]. rewrite R. cbn [cv_default]. apply IH; [exact V|exact F|lia].
Qed.
Theorem C96_fixed_default : forall E defs fuel sc v strict, always defs fuel sc v ->
  get_default_value E defs fuel sc strict = VOk (Some v).
Proof. intros E defs fuel sc v strict A. unfold get_default_value. now rewrite (always_default E _ _ _ _ A). Qed.
Print Assumptions C96_fixed_default.

(** A default that is validated: what [validate_python] returns or raises for it. *)
Theorem C96_validated_default : forall E defs n m sc k o inner v strict,
  default_of defs n sc k o true inner -> fixed k v ->
  get_default_value E defs (n + m) sc strict =
  match validate_python E defs m (SDefault k o true inner) v (default_opts strict) with
  | VOk w => VOk (Some w)
  | VErr e => VErr e
  end.
Proof.
  intros E defs n m sc k o inner v strict D F. unfold get_default_value, validate_python, run.
  remember true as vd eqn:V. induction D as [k o vd inner|n r d k o vd inner R D IH].
  - subst vd. cbn [eval plus wd_cv cv_default cv_validate]. unfold default_value. cbn [wd_default_kind wd_validate_default].
    assert (Q : stored_default k (x_data (st_extra (call_state ITPython (default_opts strict)))) = VOk (Some v)).
    { destruct F as [v|f v F]; cbn [stored_default]; [reflexivity|now rewrite F]. }
    rewrite Q. destruct (wd_validate _ _ _ _) as [[[w|e] s']|]; reflexivity.
  - cbn [plus eval refs]. rewrite R. cbn [cv_default]. apply IH; assumption.
Qed.
Print Assumptions C96_validated_default.

(** ** The default in use *)
Lemma flags_alias o c p : validate_by_alias_or (set_partial p (call_state ITPython o)) (fo_by_alias c) = by_alias o c.
Proof. unfold by_alias. destruct o as [? ? [?|] ? ?], c as [? ? ? ? [?|] ?]; reflexivity. Qed.
Lemma flags_name o c p : validate_by_name_or (set_partial p (call_state ITPython o)) (fo_by_name c) = by_name o c.
Proof. unfold by_name. destruct o as [? ? ? [?|] ?], c as [? ? ? ? ? [?|]]; reflexivity. Qed.
Lemma put_other n m v a : str_keys (fa_dict a) -> n <> m -> dict_get (PStr n) (fa_dict (fa_put m v a)) = dict_get (PStr n) (fa_dict a).
Proof. intros K N. cbn [fa_put fa_dict]. rewrite dict_get_set_str by exact K. destruct (str_eqb m n) eqn:Q; [apply str_eqb_eq in Q; congruence|reflexivity]. Qed.
Lemma put_same n v a : str_keys (fa_dict a) -> dict_get (PStr n) (fa_dict (fa_put n v a)) = Some v.
Proof. intros K. cbn [fa_put fa_dict]. rewrite dict_get_set_str by exact K. now rewrite str_eqb_refl. Qed.
Lemma fields_keep c md i ba bn : forall fs a s a' s', fields_loop c md i ba bn fs a s = (VOk a', s') -> str_keys (fa_dict a) ->
  str_keys (fa_dict a') /\ forall n, ~ In n (map f_name fs) -> dict_get (PStr n) (fa_dict a') = dict_get (PStr n) (fa_dict a).
Proof.
  induction fs as [|f fs IH]; intros a s a' s' H K; cbn [fields_loop] in H; [injection H as <- _; auto|]. cbv zeta in H.
  repeat match type of H with (match ?x with _ => _ end) = _ => destruct x eqn:?; try discriminate H end;
    (apply IH in H as [H1 H2]; [|cbn [fa_put fa_mark fa_use fa_add_errors fa_dict]; try apply str_keys_set; exact K]);
    (split; [exact H1|]; intros n N; cbn [map] in N; rewrite H2 by (intros X; apply N; now right));
    try reflexivity; apply (put_other n (f_name f) _ a); try exact K; intros ->; apply N; now left.
Qed.
Lemma fields_missing E defs fuel depth c d i ba bn : forall fields a s a' s' f sc v,
  fields_loop c (py_mdict (e_repr E) d) i ba bn (map (fun fi => mk_field (fst fi) (eval E (refs E defs fuel depth) (snd fi))) fields) a s = (VOk a', s') ->
  str_keys (fa_dict a) -> NoDup (map (fun fi => fi_name (fst fi)) fields) -> In (f, sc) fields -> (forall key, collection_select (fi_keys f) ba bn = BOk key -> py_get_dict_item key d = None) -> always defs fuel sc v ->
  dict_get (PStr (fi_name f)) (fa_dict a') = Some v.
Proof.
  induction fields as [|[g sg] fields IH]; intros a s a' s' f sc v H K N I A W; [contradiction|].
  cbn [map fst snd] in *. inversion_clear N as [|? ? Ng N']. destruct I as [[= -> ->]|I].
  - cbn [fields_loop mk_field f_keys f_cv f_name f_required] in H. cbv zeta in H.
    destruct (collection_select (fi_keys f) ba bn) as [key|] eqn:Q; [|discriminate].
    unfold py_mdict at 1 in H. cbn [md_get] in H. rewrite (A _ eq_refl) in H. cbn [option_map] in H.
    rewrite (always_default E _ _ _ _ W) in H. apply fields_keep in H as [_ H].
    + rewrite H; [now apply put_same|]. rewrite map_map. exact Ng.
    + now apply str_keys_set.
  - assert (exists a1 s1, fields_loop c (py_mdict (e_repr E) d) i ba bn (map (fun fi => mk_field (fst fi) (eval E (refs E defs fuel depth) (snd fi))) fields) a1 s1 = (VOk a', s') /\ str_keys (fa_dict a1)) as (a1 & s1 & H1 & K1).
    { cbn [fields_loop] in H. cbv zeta in H.
      repeat match type of H with (match ?x with _ => _ end) = _ => destruct x eqn:?; try discriminate H end;
      (eexists _, _; split; [exact H|]; cbn [fa_put fa_mark fa_use fa_add_errors fa_dict]; try apply str_keys_set; exact K). }
    exact (IH a1 s1 a' s' f sc v H1 K1 N' I A W).
Qed.

Lemma td_keep c md i last p ba bn : forall fs a s a' s', td_loop c md i last p ba bn fs a s = (VOk a', s') -> str_keys (fa_dict a) ->
  str_keys (fa_dict a') /\ forall n, ~ In n (map f_name fs) -> dict_get (PStr n) (fa_dict a') = dict_get (PStr n) (fa_dict a).
Proof.
  induction fs as [|f fs IH]; intros a s a' s' H K; cbn [td_loop] in H; [injection H as <- _; auto|]. cbv zeta in H.
  repeat match type of H with (match ?x with _ => _ end) = _ => destruct x eqn:?; try discriminate H end;
    (apply IH in H as [H1 H2]; [|repeat match goal with |- context [if ?x then _ else _] => destruct x end; cbn [fa_put fa_mark fa_use fa_add_errors fa_dict]; try apply str_keys_set; exact K]);
    (split; [exact H1|]; intros n N; cbn [map] in N; rewrite H2 by (intros X; apply N; now right));
    repeat match goal with |- context [if ?x then _ else _] => destruct x end; try reflexivity; apply (put_other n (f_name f) _ a); try exact K; intros ->; apply N; now left.
Qed.
Lemma td_missing E defs fuel depth c d i last p ba bn : forall fields a s a' s' f sc v,
  td_loop c (py_mdict (e_repr E) d) i last p ba bn (map (fun fi => mk_field (fst fi) (eval E (refs E defs fuel depth) (snd fi))) fields) a s = (VOk a', s') ->
  str_keys (fa_dict a) -> NoDup (map (fun fi => fi_name (fst fi)) fields) -> In (f, sc) fields -> (forall key, collection_select (fi_keys f) ba bn = BOk key -> py_get_dict_item key d = None) -> always defs fuel sc v ->
  dict_get (PStr (fi_name f)) (fa_dict a') = Some v.
Proof.
  induction fields as [|[g sg] fields IH]; intros a s a' s' f sc v H K N I A W; [contradiction|].
  cbn [map fst snd] in *. inversion_clear N as [|? ? Ng N']. destruct I as [[= -> ->]|I].
  - cbn [td_loop mk_field f_keys f_cv f_name f_required] in H. cbv zeta in H.
    destruct (collection_select (fi_keys f) ba bn) as [key|] eqn:Q; [|discriminate].
    unfold py_mdict at 1 in H. cbn [md_get] in H. rewrite (A _ eq_refl) in H. cbn [option_map] in H.
    rewrite (always_default E _ _ _ _ W) in H. apply td_keep in H as [_ H].
    + rewrite H; [now apply put_same|]. rewrite map_map. exact Ng.
    + now apply str_keys_set.
  - assert (exists a1 s1, td_loop c (py_mdict (e_repr E) d) i last p ba bn (map (fun fi => mk_field (fst fi) (eval E (refs E defs fuel depth) (snd fi))) fields) a1 s1 = (VOk a', s') /\ str_keys (fa_dict a1)) as (a1 & s1 & H1 & K1).
    { cbn [td_loop] in H. cbv zeta in H.
      repeat match type of H with (match ?x with _ => _ end) = _ => destruct x eqn:?; try discriminate H end;
      (eexists _, _; split; [exact H|]; repeat match goal with |- context [if ?x then _ else _] => destruct x end; cbn [fa_put fa_mark fa_use fa_add_errors fa_dict]; try apply str_keys_set; exact K). }
    exact (IH a1 s1 a' s' f sc v H1 K1 N' I A W).
Qed.

(** A field that is not given takes exactly the value that [get_default_value] reports for
    its schema: models ... *)
Theorem C96_missing_model_field : forall E defs fuel c fields ex exk d o out x fs f sc v strict,
  NoDup (map (fun fi => fi_name (fst fi)) fields) -> In (f, sc) fields -> absent o c f d -> always defs fuel sc v ->
  validate_python E defs fuel (SModelFields c fields ex exk) (PDict d) o = VOk (PTuple [PDict out; x; fs]) ->
  dict_get (PStr (fi_name f)) out = Some v /\ get_default_value E defs fuel sc strict = VOk (Some v).
Proof.
  intros E defs fuel c fields ex exk d o out x fs f sc v strict N I A W H. unfold absent in A. split; [|now apply C96_fixed_default].
  unfold validate_python, run in H. cbn [eval no_default cv_validate] in H. unfold model_fields_validate in H. cbv zeta in H.
  match type of H with context [validate_model_fields _ _ ?a ?b (IPy (PDict d))] =>
    assert (Q : validate_model_fields (e_repr E) (e_getattr E) a b (IPy (PDict d)) = VOk (py_mdict (e_repr E) d)) by (unfold validate_model_fields; destruct b; reflexivity) end.
  rewrite Q in H. clear Q. unfold rebind in H. cbn [mk_fields fc_fields] in H.
  destruct (fields_loop _ _ _ _ _ _ _ _) as [[a|e] s'] eqn:L; [|discriminate H].
  eapply fields_missing in L; [|intros ? ? []|exact N|exact I|rewrite <- (flags_alias o c PartialOff), <- (flags_name o c PartialOff) in A; exact A|exact W].
  repeat match type of H with
  | fst (match ?x with _ => _ end) = _ => destruct x eqn:?; try discriminate H
  | fst (if ?x then _ else _) = _ => destruct x eqn:?; try discriminate H
  end; cbn [fst] in H; injection H as <- _ _; exact L.
Qed.
Print Assumptions C96_missing_model_field.

Lemma td_extras_out c used last p : fc_extra c <> ExtraAllow -> forall es out errors s out' errors' s',
  td_extras c used last p es out errors s = (VOk (out', errors'), s') -> out' = out.
Proof.
  intros X. induction es as [|[key kloc value|e] es IH]; intros out errors s out' errors' s' H; cbn [td_extras] in H; [congruence| |discriminate].
  repeat match type of H with (match ?x with _ => _ end) = _ => destruct x eqn:?; try discriminate H end; try (now apply IH in H); contradiction.
Qed.
(** ... and typed dicts. *)
Theorem C96_missing_typed_dict_field : forall E defs fuel c fields ex d o out f sc v strict,
  NoDup (map (fun fi => fi_name (fst fi)) fields) -> In (f, sc) fields -> absent o c f d -> always defs fuel sc v -> fo_extra c <> ExtraAllow ->
  validate_python E defs fuel (STypedDict c fields ex) (PDict d) o = VOk (PDict out) ->
  dict_get (PStr (fi_name f)) out = Some v /\ get_default_value E defs fuel sc strict = VOk (Some v).
Proof.
  intros E defs fuel c fields ex d o out f sc v strict N I A W X H. unfold absent in A. split; [|now apply C96_fixed_default].
  unfold validate_python, run in H. cbn [eval no_default cv_validate] in H. unfold typed_dict_validate in H. cbv zeta in H.
  change (validate_dict (e_repr E) ?a (IPy (PDict d))) with (VOk (py_mdict (e_repr E) d)) in H. cbv iota beta in H. unfold rebind in H. cbn [mk_fields fc_fields] in H.
  destruct (td_loop _ _ _ _ _ _ _ _ _ _) as [[a|e] s'] eqn:L; [|discriminate H].
  eapply td_missing in L; [|intros ? ? []|exact N|exact I|rewrite <- (flags_alias o c (op_partial o)), <- (flags_name o c (op_partial o)) in A; exact A|exact W].
  repeat match type of H with
  | fst (match ?x with _ => _ end) = _ => destruct x eqn:?; try discriminate H
  | fst (if ?x then _ else _) = _ => destruct x eqn:?; try discriminate H
  end; cbn [fst] in H; injection H as <-; try exact L;
  match goal with T : td_extras _ _ _ _ _ _ _ _ = _ |- _ => apply td_extras_out in T; [subst; exact L|exact X] end.
Qed.
Print Assumptions C96_missing_typed_dict_field.

(** ** What does not hold *)
Definition api_one : schema := SDefault (DValue (PInt 1)) OnRaise false xint.
Definition api_field (name alias : str) (sc : schema) : finfo * schema :=
  ({| fi_name := name; fi_keys := {| kc_by_name := Simple (path_from_str name); kc_by_alias := Some (Simple (path_from_str alias)); kc_by_alias_then_name := None |};
      fi_frozen := false; fi_required := false |}, sc).
Definition no_defs : nat -> option schema := fun _ => None.

(** A schema around one with a default need not have it: the default of a nullable
    schema's inner schema is lost. *)
Theorem C96_nullable_refuted : exists sc v,
  get_default_value ex_env no_defs 0 sc None = VOk (Some v) /\ get_default_value ex_env no_defs 0 (SNullable sc) None = VOk None /\
  exists e, validate_python ex_env no_defs 0 (SModelFields (xinfos ExtraIgnore) [xfield (lit "a") false (SNullable sc)] None None) (PDict []) ex_opts = VErr (LineErrors [e]) /\ le_type e = EMissing.
Proof. exists api_one, (PInt 1). split; [reflexivity|]. split; [reflexivity|]. eexists. split; [vm_compute; reflexivity|reflexivity]. Qed.
Print Assumptions C96_nullable_refuted.

(** A value that validation with allow_partial accepts need not be an instance. *)
Theorem C96_partial_refuted : exists sc v o w,
  validate_python ex_env no_defs 0 sc v o = VOk w /\ isinstance_python ex_env no_defs 0 sc v o = No.
Proof.
  exists (SList xcoll (Some xint)), (PList [PInt 1; PStr (lit "x")]),
    {| op_strict := None; op_from_attributes := None; op_by_alias := None; op_by_name := None; op_partial := PartialOn |}, (PList [PInt 1]).
  split; vm_compute; reflexivity.
Qed.
Print Assumptions C96_partial_refuted.

(** With extra="allow" a typed dict field that is not given (by its alias) need not take
    its default: an extra item under the field's name replaces it, unvalidated. *)
Theorem C96_extra_shadows_default_refuted : exists f sc d v w,
  absent ex_opts (xinfos ExtraAllow) f d /\ always no_defs 0 sc v /\
  validate_python ex_env no_defs 0 (STypedDict (xinfos ExtraAllow) [(f, sc)] None) (PDict d) ex_opts = VOk (PDict [(PStr (fi_name f), w)]) /\
  py_eq v w = false /\ isinstance_python ex_env no_defs 0 sc w ex_opts = No.
Proof.
  exists (fst (api_field (lit "a") (lit "b") api_one)), api_one, [(PStr (lit "a"), PStr (lit "x"))], (PInt 1), (PStr (lit "x")).
  split; [|split; [|vm_compute; repeat split; reflexivity]].
  - intros key. cbn. intros [= <-]. vm_compute. reflexivity.
  - exists 0, (DValue (PInt 1)), OnRaise, xint. repeat split; constructor.
Qed.
Print Assumptions C96_extra_shadows_default_refuted.

(** A default that is validated can depend on the mode, and can be refused. *)
Theorem C96_strict_default_refuted : exists sc v e,
  get_default_value ex_env no_defs 0 sc None = VOk (Some v) /\ get_default_value ex_env no_defs 0 sc (Some true) = VErr (LineErrors [e]).
Proof. exists (SDefault (DValue (PStr (lit "1"))) OnRaise true xint), (PInt 1). eexists. split; vm_compute; reflexivity. Qed.
Print Assumptions C96_strict_default_refuted.

(** ** Examples *)
Definition api_defs (k : nat) : option schema :=
  match k with 0 => Some (SRef 1) | 1 => Some (SDefault (DFactory (fun _ => inl (PList [])) false) OnRaise false (SList xcoll (Some xint))) | _ => None end.
Definition api_fields : list (finfo * schema) := [api_field (lit "a") (lit "b") api_one; xfield (lit "n") true xint; xfield (lit "l") false (SRef 0)].
Example C96_always_ref : always api_defs 2 (SRef 0) (PList []).
Proof. exists 2. do 3 eexists. split; [apply le_n|]. split; [eapply Of_ref; [reflexivity|]; eapply Of_ref; [reflexivity|]; constructor|]. now constructor. Qed.
Example C96_missing_ex :
  NoDup (map (fun fi => fi_name (fst fi)) api_fields) /\
  absent ex_opts (xinfos ExtraForbid) (fst (xfield (lit "l") false (SRef 0))) [(PStr (lit "n"), PStr (lit "3")); (PStr (lit "b"), PInt 2)] /\
  validate_python ex_env api_defs 2 (SModelFields (xinfos ExtraForbid) api_fields None None) (PDict [(PStr (lit "n"), PStr (lit "3")); (PStr (lit "b"), PInt 2)]) ex_opts
    = VOk (PTuple [PDict [(PStr (lit "a"), PInt 2); (PStr (lit "n"), PInt 3); (PStr (lit "l"), PList [])]; PNone; PSet [PStr (lit "a"); PStr (lit "n")]]) /\
  validate_python ex_env api_defs 2 (STypedDict (xinfos ExtraForbid) api_fields None) (PDict [(PStr (lit "n"), PStr (lit "3"))]) ex_opts
    = VOk (PDict [(PStr (lit "a"), PInt 1); (PStr (lit "n"), PInt 3); (PStr (lit "l"), PList [])]).
Proof.
  split; [|split; [|split; vm_compute; reflexivity]].
  - cbn. repeat (constructor; [cbn; intuition discriminate|]). constructor.
  - intros key. cbn. intros [= <-]. vm_compute. reflexivity.
Qed.
(** A validated default: the string "1" becomes 1. *)
Example C96_validated_ex : default_of no_defs 0 (SDefault (DValue (PStr (lit "1"))) OnRaise true xint) (DValue (PStr (lit "1"))) OnRaise true xint /\
  get_default_value ex_env no_defs (0 + 0) (SDefault (DValue (PStr (lit "1"))) OnRaise true xint) None = VOk (Some (PInt 1)).
Proof. split; [constructor|vm_compute; reflexivity]. Qed.
Example C96_isinstance_ex :
  isinstance_python ex_env strict_node_defs 5 (SRef 0) (strict_tree (PInt 1)) (made_strict ex_opts) = Yes /\
  isinstance_python ex_env strict_node_defs 5 (SRef 0) (strict_tree (PStr (lit "1"))) (made_strict ex_opts) = No /\
  isinstance_python ex_env strict_node_defs 5 (SRef 0) (strict_tree (PStr (lit "1"))) ex_opts = Yes.
Proof. repeat split; vm_compute; reflexivity. Qed.
Example C96_conforms_ex : holds_of proper no_defs (SDefault (DValue (PStr (lit "1"))) OnRaise true xint) /\ ~ defaulted no_defs (SNullable api_one).
Proof. split; [split; [|discriminate]|intros H; inversion H]. constructor; [exact I|]. cbn. intros c [<-|[]]. constructor; [exact I|]. intros c []. Qed.

(** C98: allow_partial only ever adds to what is accepted. *)
From Coq Require Import List NArith ZArith Bool Lia.
From Verif Require Import Base Float64 IntParse Numbers BytesCodec Values VState LookupKey Collections Child Inputs Scalars Literal Wrappers Union TaggedUnion Tuple ModelFields TypedDict Assign Arguments Classes Interp InterpSpec InterpExamples StrictSpec LooseSpec PartialSpec PartialProofs PartialProofs2.
Import ListNotations.
Open Scope nat_scope.

(** C98: for every schema without unions (tagged ones excepted) and on_error other than "raise", whatever input other than that of validate_strings and
    whatever options: what is valid as it is gives the same result with allow_partial. *)
Theorem C98_complete_data_unchanged : forall E defs fuel sc t o i v,
  holds_of settled defs sc -> data i ->
  fst (run E defs fuel sc i (call_state t (whole o))) = VOk v ->
  fst (run E defs fuel sc i (call_state t o)) = VOk v.
Proof.
  intros E defs fuel sc t o i v [W D] DI H. change (call_state t (whole o)) with (off (call_state t o)) in H.
  destruct (run E defs fuel sc i (off (call_state t o))) as [r u] eqn:V. cbn in H. subst r.
  destruct (run_sub E defs D fuel sc W i _ _ _ DI (eq_refl : LooseNone.plainly (call_state t o)) V) as (u' & -> & _). reflexivity.
Qed.
Print Assumptions C98_complete_data_unchanged.

(** C98: equivalently, what is refused with allow_partial is refused without. *)
Theorem C98_refused_anyway : forall E defs fuel sc t o i e,
  holds_of settled defs sc -> data i ->
  fst (run E defs fuel sc i (call_state t o)) = VErr e ->
  exists e', fst (run E defs fuel sc i (call_state t (whole o))) = VErr e'.
Proof.
  intros E defs fuel sc t o i e W DI H. destruct (fst (run E defs fuel sc i (call_state t (whole o)))) as [v|e'] eqn:S; [|now exists e'].
  apply (C98_complete_data_unchanged _ _ _ _ _ _ _ _ W DI) in S. congruence.
Qed.
Print Assumptions C98_refused_anyway.

(** ** Where allow_partial does not reach *)
Definition eqv (v : validator) : Prop := forall i s, fst (v i (off s)) = fst (v i s) /\ R0 (snd (v i (off s))) (snd (v i s)).
Definition ceqv (c : cv) : Prop := eqv (cv_validate c).
Lemma com_eqv v : com v -> eqv v. Proof. intros C i s. rewrite C. split; [reflexivity|apply R0_off]. Qed.
Lemma reset_eqv v : (forall i s, v i (off s) = v i s) -> eqv v. Proof. intros C i s. rewrite C. split; [reflexivity|apply R0_refl]. Qed.
Lemma eqv_R v i s1 s2 : eqv v -> R0 s1 s2 -> fst (v i s1) = fst (v i s2) /\ R0 (snd (v i s1)) (snd (v i s2)).
Proof. intros C [->|E]; [split; [reflexivity|apply R0_refl]|subst s1; apply C]. Qed.
(** The two runs of a child. *)
Ltac both V i s1 s2 K :=
  let A := fresh "A" in let B := fresh "B" in
  destruct (eqv_R _ i s1 s2 V K) as [A B];
  match type of A with fst ?x = fst ?y => destruct x as [?r ?u], y as [?r ?u]; cbn [fst snd] in A, B; subst end.
Lemma construct_eqv c inner i ex s1 s2 : eqv inner -> R0 s1 s2 -> fst (model_construct c inner i ex s1) = fst (model_construct c inner i ex s2) /\ R0 (snd (model_construct c inner i ex s1)) (snd (model_construct c inner i ex s2)).
Proof.
  intros V K. unfold model_construct. destruct (match mo_custom_init c with Some f => _ | None => _ end) as [[x|x]|]; [now split|now split|]. destruct (mo_root c).
  - unfold rebind. rewrite (R0_extra_eq _ _ K). both V i (set_extra (set_field_name (Some root_name) (st_extra s2)) s1) (set_extra (set_field_name (Some root_name) (st_extra s2)) s2) (R0_set (set_field_name (Some root_name) (st_extra s2)) _ _ K).
    destruct r0; (split; [reflexivity|cbn; now apply R0_set]).
  - both V i s1 s2 K. destruct r0; now split.
Qed.
Lemma wd_eqv n k o vd v : eqv v -> eqv (cv_validate (wd_cv n {| wd_default_kind := k; wd_on_error := o; wd_inner := v; wd_validate_default := vd |})).
Proof.
  intros V. set (W := {| wd_default_kind := k; wd_on_error := o; wd_inner := v; wd_validate_default := vd |}).
  assert (P : forall n i s1 s2, R0 s1 s2 -> match wd_validate n W i s1, wd_validate n W i s2 with Some (r1, u1), Some (r2, u2) => r1 = r2 /\ R0 u1 u2 | None, None => True | _, _ => False end).
  { clear n. induction n as [|n IH]; intros i s1 s2 K; [exact I|]. cbn [wd_validate].
    assert (DEF : forall e u1 u2, R0 u1 u2 ->
      match (match default_value (wd_validate n W) W None u1 with None => None | Some (VErr e', s') => Some (VErr e', s') | Some (VOk (Some v), s') => Some (VOk v, s') | Some (VOk None, s') => Some (VErr e, s') end),
            (match default_value (wd_validate n W) W None u2 with None => None | Some (VErr e', s') => Some (VErr e', s') | Some (VOk (Some v), s') => Some (VOk v, s') | Some (VOk None, s') => Some (VErr e, s') end) with
      | Some (r1, u1), Some (r2, u2) => r1 = r2 /\ R0 u1 u2 | None, None => True | _, _ => False end).
    { intros e u1 u2 U. unfold default_value. rewrite (R0_extra_eq _ _ U). destruct (stored_default _ _) as [[d|]|]; [|now split|now split]. destruct (wd_validate_default W); [|now split].
      specialize (IH (IPy d) _ _ U). destruct (wd_validate n W (IPy d) u1) as [[r1 x1]|], (wd_validate n W (IPy d) u2) as [[r2 x2]|]; try contradiction IH; [|exact I]. destruct IH as [<- IH]. destruct r1; now split. }
    destruct (is_undefined i); [now apply DEF|]. change (wd_inner W) with v. both V i s1 s2 K. destruct r0 as [x|[]]; try (now split); try (now apply DEF); destruct (wd_on_error W); try (now split); now apply DEF. }
  intros i s. cbn [cv_validate wd_cv]. specialize (P n i _ _ (R0_off s)). destruct (wd_validate n W i (off s)) as [[r1 u1]|], (wd_validate n W i s) as [[r2 u2]|]; try contradiction P; [exact P|split; [reflexivity|apply R0_off]].
Qed.
Lemma inert_eqv E defs fuel sc : inert sc -> eqv (run E defs fuel sc).
Proof.
  unfold run. induction 1; cbn [eval no_default cv_validate]; try (apply com_eqv; first [apply any_com|apply none_com|apply bool_com|apply int_com|apply float_com|apply str_com|apply bytes_com|apply literal_com|apply inst_com|apply plain_com|apply wrap_com]);
    try (apply reset_eqv; reflexivity).
  - destruct fuel; cbn [refs cv_validate]; [intros i s; split; [reflexivity|apply R0_off]|]. destruct (defs k); [apply reset_eqv; reflexivity|intros i s; split; [reflexivity|apply R0_off]].
  - intros i s. unfold nullable. destruct (is_none_input i); [split; [reflexivity|apply R0_off]|apply IHinert].
  - intros i s. unfold model_validate. destruct (instance_input _ _ _ _) as [[v force]|].
    + destruct (_ || _); [|split; [reflexivity|apply R0_off]]. destruct (inst_attr _ _); [|split; [reflexivity|apply R0_off]]. destruct (model_data _ _); [|split; [reflexivity|apply R0_off]]. now apply construct_eqv; [|apply R0_off].
    + rewrite floor_off. now apply construct_eqv; [|apply R0_off].
  - intros i s. unfold dataclass_validate. change (strict_or (off s)) with (strict_or s). change (st_extra (off s)) with (st_extra s). destruct (instance_input _ _ _ _) as [[v force]|].
    + destruct (_ || _); [|split; [reflexivity|apply R0_off]]. destruct (inst_to_dict _ _ _) as [d|]; [|split; [reflexivity|apply R0_off]]. both IHinert (IPy (PDict d)) (off s) s (R0_off s). destruct r0; now split.
    + destruct (_ && _); [split; [reflexivity|apply R0_off]|]. both IHinert i (off s) s (R0_off s). destruct r0; (split; [reflexivity|]); [now apply R0_floor|assumption].
  - intros i s. unfold custom_error. both IHinert i (off s) s (R0_off s). destruct r0 as [x|[]]; now split.
  - intros i s. unfold function_before. change (call_fun f own (input_object i) i (off s)) with (call_fun f own (input_object i) i s). destruct (call_fun _ _ _ _ _); [apply IHinert|split; [reflexivity|apply R0_off]].
  - intros i s. unfold function_after. both IHinert i (off s) s (R0_off s). destruct r0; [|now split]. unfold call_fun. rewrite (info_R0 own _ _ B). now split.
  - intros i s. unfold json_or_python. cbn [st_extra set_partial]. destruct (x_input_type _); [apply IHinert2|apply IHinert1|apply IHinert1].
  - now apply wd_eqv.
Qed.
(** C98: for such schemas allow_partial changes nothing at all: not the result, not the
    errors.  In particular for models over model fields. *)
Theorem C98_does_not_reach : forall E defs fuel sc t o i, inert sc ->
  fst (run E defs fuel sc i (call_state t o)) = fst (run E defs fuel sc i (call_state t (whole o))).
Proof. intros E defs fuel sc t o i H. symmetry. exact (proj1 (inert_eqv E defs fuel sc H i (call_state t o))). Qed.
Print Assumptions C98_does_not_reach.

(** ** What fails outside of these schemas *)
Definition on_opts : call_opts := {| op_strict := None; op_from_attributes := None; op_by_alias := None; op_by_name := None; op_partial := PartialOn |}.
Definition result_changes (sc : schema) (i : input) : Prop := exists v r,
  fst (run ex_env (fun _ => None) 0 sc i (call_state ITPython (whole on_opts))) = VOk v /\
  fst (run ex_env (fun _ => None) 0 sc i (call_state ITPython on_opts)) = r /\ r <> VOk v.
(** A union takes a member that is satisfied with less, though another member would have
    taken the whole. *)
Theorem C98_union_refuted : exists sc i, data i /\ result_changes sc i /\
  fst (run ex_env (fun _ => None) 0 sc i (call_state ITPython on_opts)) = VOk (PList []).
Proof.
  exists (SUnion UnionSmart None [(SList xcoll (Some xint), lit "a"); (SList xcoll (Some xstr), lit "b")]), (IPy (PList [PStr (lit "x")])).
  split; [exact I|]. split; [|vm_compute; reflexivity]. eexists _, _. split; [vm_compute; reflexivity|]. split; [vm_compute; reflexivity|]. discriminate.
Qed.
Print Assumptions C98_union_refuted.
(** on_error="default" does not come to its default. *)
Theorem C98_on_error_refuted : exists sc i, data i /\ result_changes (SDefault (DValue (PList [PInt 7])) OnDefault false sc) i.
Proof.
  exists (SList xcoll (Some xint)), (IPy (PList [PStr (lit "x")])).
  split; [exact I|]. eexists _, _. split; [vm_compute; reflexivity|]. split; [vm_compute; reflexivity|]. discriminate.
Qed.
Print Assumptions C98_on_error_refuted.
(** With validate_strings a typed dict ignores a field whose value is neither a string nor
    a dict, but not with allow_partial, if it is the last one. *)
Theorem C98_strings_refuted : exists sc d, holds_of settled (fun _ => None) sc /\ result_changes sc (IStrings d) /\
  exists es, fst (run ex_env (fun _ => None) 0 sc (IStrings d) (call_state ITString on_opts)) = VErr (LineErrors es) /\ length es = 1.
Proof.
  exists (STypedDict (xinfos ExtraIgnore) [xfield (lit "a") false xint] None), (PDict [(PStr (lit "a"), PInt 1)]).
  split.
  - split; [|discriminate]. constructor; [split; exact I|]. cbn. intros c [<-|[]]. constructor; [split; exact I|intros ? []].
  - split; [eexists _, _; split; [vm_compute; reflexivity|]; split; [vm_compute; reflexivity|discriminate]|]. eexists. split; [vm_compute; reflexivity|reflexivity].
Qed.
Print Assumptions C98_strings_refuted.

(** ** A concrete case *)
(** A stream of records: a list of typed dicts with a list of numbers each. *)
Definition stream : schema := SList xcoll (Some (STypedDict (xinfos ExtraForbid)
  [xfield (lit "name") true xstr; xfield (lit "values") false (SDefault (DValue (PList [])) OnRaise false (SNullable (SList xcoll (Some (SLaxOrStrict false xint xint)))))] None)).
Example C98_ex : holds_of settled (fun _ => None) stream /\
  (let doc := JArr [JObj [(lit "name", JStr (lit "x")); (lit "values", JArr [JInt 1; JInt 2])]; JObj [(lit "name", JStr (lit "y"))]] in
   let v := PList [PDict [(PStr (lit "name"), PStr (lit "x")); (PStr (lit "values"), PList [PInt 1; PInt 2])]; PDict [(PStr (lit "name"), PStr (lit "y")); (PStr (lit "values"), PList [])]] in
   fst (run ex_env (fun _ => None) 0 stream (IJson doc) (call_state ITJson (whole on_opts))) = VOk v /\
   fst (run ex_env (fun _ => None) 0 stream (IJson doc) (call_state ITJson on_opts)) = VOk v) /\
  (* and a document that ends too early is refused or shortened *)
  (let doc := JArr [JObj [(lit "name", JStr (lit "x"))]; JObj []] in
   (exists e, fst (run ex_env (fun _ => None) 0 stream (IJson doc) (call_state ITJson (whole on_opts))) = VErr e) /\
   fst (run ex_env (fun _ => None) 0 stream (IJson doc) (call_state ITJson on_opts)) = VOk (PList [PDict [(PStr (lit "name"), PStr (lit "x")); (PStr (lit "values"), PList [])]])).
Proof.
  split.
  - split; [|discriminate]. constructor; [split; exact I|]. cbn. intros c [<-|[]]. constructor; [split; exact I|]. cbn. intros c [<-|[<-|[]]].
    + constructor; [split; [discriminate|exact I]|intros ? []].
    + constructor; [split; [split; [exact I|discriminate]|reflexivity]|]. cbn. intros c [<-|[]]. constructor; [split; exact I|]. cbn. intros c [<-|[]]. constructor; [split; exact I|]. cbn. intros c [<-|[]]. constructor; [split; exact I|]. cbn. intros c [<-|[<-|[]]]; (constructor; [split; exact I|intros ? []]).
  - split; [split; vm_compute; reflexivity|]. split; [eexists; vm_compute; reflexivity|vm_compute; reflexivity].
Qed.
Example C98_inert_ex : forall c fs, inert (SNullable (SModel c (SModelFields (xinfos ExtraForbid) fs None None))).
Proof. intros. repeat first [apply INullable | apply IModel | apply IModelFields]. Qed.

(** C40: assignment to models and dataclasses. *)
From Coq Require Import List NArith ZArith Bool Lia.
From Verif Require Import Base Float64 Values VState LookupKey LookupKeyProofs Collections CollectionsSpec CollectionsProofs Child Wrappers Assign AssignSpec AssignProofs ModelFieldsProps.
Import ListNotations.
Open Scope nat_scope.

(** A failed assignment leaves the model as it was, whatever validator sits inside. *)
Theorem C40_failed_unchanged : forall frozen root_model root inner m n value s e m' s',
  model_assign frozen root_model root inner m n value s = (VErr e, m', s') -> m' = m.
Proof.
  intros frozen root_model root inner m n value s e m' s' H. unfold model_assign in H.
  destruct frozen; [injection H; auto|]. destruct root_model.
  - destruct (negb (str_eqb n root_name)); [injection H; auto|]. destruct (rebind _ _ _) as [[w|x] t]; [discriminate H|injection H; auto].
  - destruct (inner _ _ _ _) as [[[out|x] d] t]; [|injection H; auto]. destruct (extract_output out) as [[[d1 e1] l]|]; [|injection H; auto].
    destruct (mi_set m) as [fs|]; [|discriminate H]. destruct (as_set fs); [discriminate H|injection H; auto].
Qed.

(** A successful one changes exactly the attribute, to the value its validator accepted,
    and marks it as set. *)
Theorem C40_model_update : forall c root m n value s m' s',
  instance_of c m -> model_assign false false root (model_fields_assign c) m n value s = (VOk tt, m', s') ->
  exists w, assignable c m n value w /\
    (forall k, attr m' k = if str_eqb k n then Some w else attr m k) /\
    (forall k, is_set m' k <-> is_set m k \/ k = n) /\ instance_of c m'.
Proof. exact model_assign_ok. Qed.

(** When assignment succeeds: exactly when the value is assignable, for validators whose
    verdict on a value does not depend on the rest of the state. *)
Definition ok (v : validator) (i : input) (t : state) : Prop := exists w t', v i t = (VOk w, t').
Definition verdict_fixed (v : validator) (i : input) : Prop := forall t t', ok v i t -> ok v i t'.
Theorem C40_model_succeeds : forall c root m n value s,
  instance_of c m -> NoDup (map f_name (fc_fields c)) ->
  (forall f, In f (fc_fields c) -> verdict_fixed (cv_validate (f_cv f)) (IPy value)) ->
  (forall v, fc_extras c = Some v -> verdict_fixed v (IPy value)) ->
  (exists m' s', model_assign false false root (model_fields_assign c) m n value s = (VOk tt, m', s')) <-> exists w, assignable c m n value w.
Proof.
  intros c root m n value s HI ND HF HX. split.
  - intros (m' & s' & H). destruct (model_assign_ok _ _ _ _ _ _ _ _ HI H) as (w & A & _). eauto.
  - intros (w & A). pose proof HI as (_ & (l & HS & _) & _). unfold model_assign. fold (merged m). set (d0 := dict_set (PStr n) value (merged m)).
    assert (X : (exists out d' s', model_fields_assign c d0 n value s = (VOk out, d', s'))).
    { unfold model_fields_assign, rebind. destruct A as [f t t' w I E FR _ _ V|v t t' w NDC EX EV _ V|NDC EX EV].
      - rewrite (find_unique _ _ _ ND I E), FR.
        destruct (HF f I t (set_extra (set_field_name (Some (f_name f)) (st_extra (set_extra (set_data (Some (dict_del (PStr n) d0)) (st_extra s)) s))) (set_extra (set_data (Some (dict_del (PStr n) d0)) (st_extra s)) s))) as (w1 & t1 & V1).
        { exists w, t'. exact V. }
        rewrite V1. destruct (fc_extra c); [destruct (split_fields _ _ _)|..]; eauto.
      - destruct (find _ (fc_fields c)) as [f|] eqn:F; [exfalso; apply NDC; exists f; apply (find_named _ _ _ F)|]. rewrite EX, EV.
        destruct (HX v EV t (set_extra (set_data (Some (dict_del (PStr n) d0)) (st_extra s)) s)) as (w1 & t1 & V1); [exists w, t'; exact V|].
        rewrite V1. destruct (split_fields _ _ _). eauto.
      - destruct (find _ (fc_fields c)) as [f|] eqn:F; [exfalso; apply NDC; exists f; apply (find_named _ _ _ F)|]. rewrite EX, EV. destruct (split_fields _ _ _). eauto. }
    destruct X as (out & d' & s' & X). rewrite X. apply fields_assign_ok in X. destruct X as (w' & EO & _). rewrite HS.
    destruct (fc_extra c); [destruct (split_fields _ _ _)|..]; subst out; cbn [extract_output as_dict as_set]; eauto.
Qed.

(** Frozen models and frozen fields. *)
Theorem C40_frozen : forall root_model root inner m n value s,
  model_assign true root_model root inner m n value s = (VErr (LineErrors [new_error EFrozenInstance (IPy value)]), m, s).
Proof. reflexivity. Qed.
Theorem C40_frozen_field : forall c root m n value s f,
  instance_of c m -> NoDup (map f_name (fc_fields c)) -> In f (fc_fields c) -> f_name f = n -> f_frozen f = true ->
  model_assign false false root (model_fields_assign c) m n value s = (VErr (LineErrors [new_error_loc EFrozenField (IPy value) (LStr n)]), m, s).
Proof.
  intros c root m n value s f HI ND I E FR. unfold model_assign, model_fields_assign.
  rewrite (find_unique _ _ _ ND I E), FR. reflexivity.
Qed.

(** Whatever the errors are, they are located at the attribute. *)
Theorem C40_error_location : forall c root m n value s es m' s',
  model_assign false false root (model_fields_assign c) m n value s = (VErr (LineErrors es), m', s') ->
  Forall (fun e => exists p, loc_path (le_loc e) = LStr n :: p) es.
Proof.
  intros c root m n value s es m' s' H. unfold model_assign in H.
  set (d0 := dict_set (PStr n) value _) in H.
  destruct (model_fields_assign c d0 n value s) as [[[out|e] d'] s1] eqn:A.
  - destruct (extract_output out) as [[[d1 e1] l]|]; [|discriminate H]. destruct (mi_set m) as [fs|]; [|discriminate H]. destruct (as_set fs); discriminate H.
  - injection H as -> <- <-.
    assert (W : forall r : vres pyval * state, (match r with (VOk w, s') => False | (VErr x, s') => LineErrors es = with_outer_err (LStr n) x end) -> Forall (fun e => exists p, loc_path (le_loc e) = LStr n :: p) es).
    { intros [[w|x] t] HW; [destruct HW|]. destruct x as [l| | | |]; try discriminate HW. cbn [with_outer_err] in HW. injection HW as ->.
      apply Forall_forall. intros y I. apply in_map_iff in I. destruct I as (y0 & <- & _). destruct (with_outer_path (LStr n) y0) as (P & _ & _). rewrite P. eauto. }
    unfold model_fields_assign in A. destruct (find _ (fc_fields c)) as [f|].
    + destruct (f_frozen f).
      * injection A as <- _ _. constructor; [exists []; reflexivity|constructor].
      * destruct (rebind _ s _) as [[w|x] t] eqn:R.
        -- destruct (fc_extra c); [destruct (split_fields _ _ _)|..]; discriminate A.
        -- apply (W (VErr x, t)). injection A as A _ _. symmetry. exact A.
    + destruct (fc_extra c).
      * destruct (fc_extras c) as [v|].
        -- destruct (rebind _ s _) as [[w|x] t] eqn:R; [destruct (split_fields _ _ _); discriminate A|]. apply (W (VErr x, t)). injection A as A _ _. symmetry. exact A.
        -- destruct (split_fields _ _ _); discriminate A.
      * injection A as <- _ _. constructor; [exists []; reflexivity|constructor].
      * injection A as <- _ _. constructor; [exists []; reflexivity|constructor].
Qed.

(** Any series of attempts: attributes never assigned successfully keep their value, the
    names set are those set before and those assigned. *)
Theorem C40_history : forall c root ops m m' ns,
  instance_of c m -> attempts (model_assign false false root (model_fields_assign c)) ops m = (m', ns) ->
  instance_of c m' /\ (forall k, ~ In k ns -> attr m' k = attr m k) /\ (forall k, is_set m' k <-> is_set m k \/ In k ns).
Proof.
  intros c root ops. induction ops as [|[[n v] s] ops IH]; intros m m' ns HI H; cbn [attempts] in H.
  - injection H as <- <-. split; [exact HI|]. split; [reflexivity|]. intro k. cbn. tauto.
  - destruct (model_assign _ _ _ _ m n v s) as [[[[]|e] m1] s1] eqn:A.
    + destruct (attempts _ ops m1) as [m2 ns2] eqn:R. injection H as <- <-. destruct (model_assign_ok _ _ _ _ _ _ _ _ HI A) as (w & _ & G & S & HI1).
      destruct (IH _ _ _ HI1 R) as (HI2 & G2 & S2). split; [exact HI2|]. split.
      * intros k NI. cbn [In] in NI. rewrite G2 by tauto. rewrite G. destruct (str_eqb k n) eqn:E; [|reflexivity]. apply str_eqb_eq in E. subst k. tauto.
      * intro k. rewrite S2, S. cbn [In]. split; [intros [[?| ->]|?]|intros [?|[->|?]]]; auto.
    + apply C40_failed_unchanged in A. subst m1. apply (IH _ _ _ HI H).
Qed.

(** The root of a root model. *)
Theorem C40_root : forall root inner m n value s m' s',
  model_assign false true root inner m n value s = (VOk tt, m', s') ->
  exists w t t', n = root_name /\ x_field_name (st_extra t) = Some root_name /\ root (IPy value) t = (VOk w, t') /\
    m' = {| mi_dict := dict_set (PStr root_name) w (mi_dict m); mi_extra := mi_extra m; mi_set := mi_set m |}.
Proof.
  intros root inner m n value s m' s' H. unfold model_assign in H. destruct (str_eqb n root_name) eqn:E; cbn [negb] in H; [|discriminate H].
  apply str_eqb_eq in E. unfold rebind in H. match type of H with context [root ?b ?t] => destruct (root b t) as [[w|e] t'] eqn:V end; [|discriminate H].
  injection H as <- <-. do 3 eexists. split; [exact E|]. split; [|split; [exact V|reflexivity]]. reflexivity.
Qed.

(** Dataclasses: a failed assignment leaves the instance as it was; a successful one
    changes the one field among the declared ones (and, with slots, nothing else). *)
Theorem C40_dataclass_failed : forall frozen slots fields ca inner o n value s e o' s',
  dataclass_assign frozen slots fields ca inner o n value s = (VErr e, o', s') -> o' = o.
Proof.
  intros frozen slots fields ca inner o n value s e o' s' H. unfold dataclass_assign in H. destruct frozen; [injection H; auto|].
  destruct (dataclass_to_dict ca fields o []); [|injection H; auto]. destruct (inner _ _ _ _) as [[[out|x] d] t]; [|injection H; auto].
  destruct (extract_pair out) as [d1|]; [|injection H; auto]. destruct slots; [|discriminate H]. destruct (dict_get _ d1); [discriminate H|injection H; auto].
Qed.
Inductive dc_assignable (c : fields_cfg) (get : str -> option pyval) (n : str) (value : pyval) : pyval -> Prop :=
| da_field f t t' w d : In f (fc_fields c) -> f_name f = n -> f_frozen f = false ->
    x_data (st_extra t) = Some d -> (forall k, dict_get (PStr k) d = if str_eqb k n then None else get k) -> x_field_name (st_extra t) = Some n ->
    cv_validate (f_cv f) (IPy value) t = (VOk w, t') -> dc_assignable c get n value w
| da_extra : ~ declared c n -> fc_extra c = ExtraAllow -> dc_assignable c get n value value.
Theorem C40_dataclass_update : forall (slots : bool) fields ca c o n value s o' s',
  keyed (di_attrs o) ->
  dataclass_assign false slots fields ca (dataclass_args_assign c) o n value s = (VOk tt, o', s') ->
  exists w, dc_assignable c (fun k => if mem_str k fields then dc_getattr ca o k else None) n value w /\ dc_getattr ca o' n = Some w /\
    (forall k, k <> n -> (slots = true \/ In k fields) -> dc_getattr ca o' k = dc_getattr ca o k) /\ keyed (di_attrs o').
Proof.
  intros slots fields ca c o n value s o' s' KO H. unfold dataclass_assign in H.
  destruct (dataclass_to_dict ca fields o []) as [d0|] eqn:TD; [|discriminate H].
  destruct (to_dict_spec _ _ _ _ _ keyed_nil TD) as [K0 G0]. cbn [dict_get] in G0.
  set (d1 := dict_set (PStr n) value d0) in H. assert (K1 : keyed d1) by (apply keyed_set; exact K0).
  destruct (dataclass_args_assign c d1 n value s) as [[[out|e] d'] s1] eqn:A; [|discriminate H].
  assert (AW : exists w, out = PTuple [PDict (dict_set (PStr n) w d1); PNone] /\ dc_assignable c (fun k => if mem_str k fields then dc_getattr ca o k else None) n value w).
  { unfold dataclass_args_assign in A. destruct (find _ (fc_fields c)) as [f|] eqn:F.
    - destruct (find_named _ _ _ F) as [I E]. destruct (f_frozen f) eqn:FR; [discriminate A|]. unfold rebind in A.
      match type of A with context [cv_validate ?a ?b ?t] => destruct (cv_validate a b t) as [[w|x] t'] eqn:V end; [|discriminate A].
      injection A as <- _ _. exists w. split; [reflexivity|]. refine (da_field _ _ _ _ f _ _ w (dict_del (PStr n) d1) I E FR _ _ _ V); [reflexivity| |cbn; rewrite E; reflexivity].
      intro k. rewrite dict_get_del by exact K1. destruct (str_eqb k n) eqn:EK; [reflexivity|]. unfold d1. rewrite dict_get_set, EK by exact K0. apply G0.
    - pose proof (find_none_named _ _ F). destruct (fc_extra c) eqn:EX; [|discriminate A..]. injection A as <- _ _. exists value. split; [reflexivity|]. apply da_extra; assumption. }
  destruct AW as (w & -> & AS). exists w. split; [exact AS|]. cbn [extract_pair as_dict] in H.
  assert (G2 : forall k, dict_get (PStr k) (dict_set (PStr n) w d1) = if str_eqb k n then Some w else if mem_str k fields then dc_getattr ca o k else None).
  { intro k. rewrite dict_get_set by exact K1. destruct (str_eqb k n) eqn:EK; [reflexivity|]. unfold d1. rewrite dict_get_set, EK by exact K0. apply G0. }
  destruct slots.
  - rewrite G2, str_eqb_refl in H. injection H as <- <-. cbn [di_attrs]. split; [|split; [|apply keyed_set; exact KO]].
    + unfold dc_getattr. cbn [di_attrs]. rewrite dict_get_set, str_eqb_refl by exact KO. reflexivity.
    + intros k NK _. unfold dc_getattr. cbn [di_attrs]. rewrite dict_get_set by exact KO. destruct (str_eqb k n) eqn:EK; [apply str_eqb_eq in EK; contradiction|reflexivity].
  - injection H as <- <-. cbn [di_attrs]. split; [|split; [|apply keyed_set; exact K1]].
    + unfold dc_getattr. cbn [di_attrs]. rewrite G2, str_eqb_refl. reflexivity.
    + intros k NK [D|D]; [discriminate D|]. unfold dc_getattr at 1. cbn [di_attrs]. rewrite G2. destruct (str_eqb k n) eqn:EK; [apply str_eqb_eq in EK; contradiction|].
      assert (M : mem_str k fields = true) by (apply existsb_exists; exists k; split; [exact D|apply str_eqb_refl]). rewrite M.
      unfold dc_getattr. destruct (dict_get (PStr k) (di_attrs o)); [reflexivity|]. destruct (ca k); reflexivity.
Qed.
Print Assumptions C40_failed_unchanged.
Print Assumptions C40_model_update.
Print Assumptions C40_model_succeeds.
Print Assumptions C40_frozen.
Print Assumptions C40_frozen_field.
Print Assumptions C40_error_location.
Print Assumptions C40_history.
Print Assumptions C40_root.
Print Assumptions C40_dataclass_failed.
Print Assumptions C40_dataclass_update.

(** * Examples and counterexamples *)
Definition as_int : cv := no_default (fun i s => match i with IPy (PInt _) => (VOk (input_object i), s) | _ => (val_err EIntType i, s) end).
Definition as_f (n : str) (frozen : bool) : field :=
  {| f_name := n; f_keys := ex_keys n None; f_cv := as_int; f_frozen := frozen; f_required := true |}.
Definition as_cfg (e : extra_behavior) : fields_cfg :=
  {| fc_fields := [as_f (lit "a") false; as_f (lit "b") true]; fc_extra := e; fc_extras := None; fc_extras_keys := None;
     fc_strict := false; fc_from_attributes := false; fc_loc_by_alias := true; fc_by_alias := None; fc_by_name := None |}.
Definition as_model : minst :=
  {| mi_dict := [(PStr (lit "b"), PInt 2); (PStr (lit "a"), PInt 1)]; mi_extra := PDict [(PStr (lit "x"), PNone)]; mi_set := Some (PSet [PStr (lit "b")]) |}.
Definition as_step := model_assign false false (fun i s => (VErr Panic, s)) (model_fields_assign (as_cfg ExtraAllow)).
Lemma as_instance : instance_of (as_cfg ExtraAllow) as_model.
Proof.
  split; [|split].
  - split; [intros k v [E|[E|[]]]; injection E as <- _; eauto|]. repeat constructor; cbn; intuition discriminate.
  - eexists. split; [reflexivity|]. intros x [<-|[]]. eauto.
  - eexists. split; [reflexivity|]. split; [split; [intros k v [E|[]]; injection E as <- _; eauto|repeat constructor; cbn; tauto]|]. split.
    + intros n (v & G) (f & [<-|[<-|[]]] & <-); discriminate G.
    + intros n (v & G). cbn [mi_dict as_model dict_get] in G. rewrite !py_eq_str in G.
      destruct (str_eqb (lit "b") n) eqn:E1; [apply str_eqb_eq in E1; exists (as_f (lit "b") true); cbn; auto|].
      destruct (str_eqb (lit "a") n) eqn:E2; [apply str_eqb_eq in E2; exists (as_f (lit "a") false); cbn; auto|discriminate G].
Qed.
Example C40_nonvacuous :
  fst (as_step as_model (lit "a") (PInt 9) ex_state) =
    (VOk tt, {| mi_dict := [(PStr (lit "a"), PInt 9); (PStr (lit "b"), PInt 2)]; mi_extra := PDict [(PStr (lit "x"), PNone)]; mi_set := Some (PSet [PStr (lit "b"); PStr (lit "a")]) |}) /\
  fst (as_step as_model (lit "a") PNone ex_state) = (VErr (LineErrors [with_outer (LStr (lit "a")) (new_error EIntType (IPy PNone))]), as_model) /\
  fst (as_step as_model (lit "b") (PInt 9) ex_state) = (VErr (LineErrors [new_error_loc EFrozenField (IPy (PInt 9)) (LStr (lit "b"))]), as_model) /\
  snd (attempts as_step [(lit "b", PInt 1, ex_state); (lit "y", PNone, ex_state); (lit "a", PInt 4, ex_state)] as_model) = [lit "y"; lit "a"].
Proof. repeat split. Qed.

(** An "after" function around a model that rejects the new state: the model stays
    changed although the assignment failed. *)
Theorem C40_after_function_refuted : exists f m n value s e m' s',
  model_assign_after f (fun _ => PNone) as_step m n value s = (VErr (LineErrors [e]), m', s') /\ attr m' n <> attr m n.
Proof.
  exists (fun _ => Some XValueError), as_model, (lit "a"), (PInt 9), ex_state. do 3 eexists. split; [reflexivity|]. discriminate.
Qed.
Print Assumptions C40_after_function_refuted.

(** Assigning the root of a root model does not mark it as set. *)
Theorem C40_root_not_marked_refuted : exists root m value s m' s',
  mi_set m = Some (PSet []) /\ model_assign false true root (fun d _ _ s => (VErr Panic, d, s)) m root_name value s = (VOk tt, m', s') /\ ~ is_set m' root_name.
Proof.
  exists (cv_validate as_int), {| mi_dict := [(PStr root_name, PInt 0)]; mi_extra := PNone; mi_set := Some (PSet []) |}, (PInt 1), ex_state.
  do 2 eexists. split; [reflexivity|]. split; [reflexivity|]. intros (l & E & I). injection E as <-. destruct I.
Qed.
Print Assumptions C40_root_not_marked_refuted.

(** A dataclass without slots: assigning one field drops the extra attributes. *)
Definition dc_step (slots : bool) (e : extra_behavior) := dataclass_assign false slots [lit "a"; lit "b"] (fun _ => None) (dataclass_args_assign (as_cfg e)).
Example C40_dataclass_nonvacuous : exists o o' s',
  keyed (di_attrs o) /\ dc_step false ExtraIgnore o (lit "a") (PInt 9) ex_state = (VOk tt, o', s') /\ dc_getattr (fun _ => None) o' (lit "b") = Some (PInt 2).
Proof.
  exists {| di_attrs := [(PStr (lit "a"), PInt 1); (PStr (lit "b"), PInt 2)] |}. do 2 eexists. split; [|split; reflexivity].
  split; [intros k v [E|[E|[]]]; injection E as <- _; eauto|]. repeat constructor; cbn; intuition discriminate.
Qed.
Theorem C40_dataclass_extras_refuted : exists o value s o' s',
  dc_step false ExtraAllow o (lit "a") value s = (VOk tt, o', s') /\
  dc_getattr (fun _ => None) o (lit "x") = Some PNone /\ dc_getattr (fun _ => None) o' (lit "x") = None.
Proof.
  exists {| di_attrs := [(PStr (lit "a"), PInt 1); (PStr (lit "b"), PInt 2); (PStr (lit "x"), PNone)] |}, (PInt 9), ex_state.
  do 2 eexists. repeat split.
Qed.
Print Assumptions C40_dataclass_extras_refuted.

(** While any declared field has no value, no field can be assigned. *)
Theorem C40_dataclass_unset_refuted : exists slots e o, forall n value s, exists o' s',
  dc_step slots e o n value s = (VErr (InternalErr XAttributeError), o', s').
Proof. exists false, ExtraAllow, {| di_attrs := [(PStr (lit "a"), PInt 1)] |}. intros n value s. do 2 eexists. reflexivity. Qed.
Print Assumptions C40_dataclass_unset_refuted.

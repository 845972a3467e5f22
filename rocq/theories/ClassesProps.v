(** C62: instances of models and dataclasses as input. *)
From Coq Require Import List NArith ZArith Bool Lia.
From Verif Require Import Base Float64 IntParse Numbers BytesCodec Values VState LookupKey Collections Child Inputs Scalars Literal Wrappers LookupKeySpec LookupKeyProofs ModelFields Assign Arguments Classes.
Import ListNotations.
Open Scope nat_scope.

Section C62.
Variable sub : N -> N -> bool.

(** ** Specification *)
(** The object is an instance of the class by the user's class hierarchy. *)
Definition instance_of (v : pyval) (cls : N) : Prop := exists k attrs, v = PObj k attrs /\ sub k cls = true.
(** The setting asks for instances of class [k] to be validated again. *)
Definition again (r : revalidate) (k cls : N) : Prop :=
  match r with RAlways => True | RNever => False | RSubclassInstances => k <> cls end.
(** The input is no instance of the class or of its generic origin. *)
Definition no_instance (cls : N) (origin : option N) (i : input) : Prop :=
  forall v, i = IPy v -> forall k, class_of v = Some k -> sub k cls = false /\ forall g, origin = Some g -> sub k g = false.
(** The data of a model instance: its fields, then its extras on top. *)
Definition model_dict (d : pydict) (extra : option pydict) : pydict := match extra with Some e => dict_update e d | None => d end.
Definition extra_value (extra : option pydict) : pyval := match extra with Some e => PDict e | None => PNone end.

(** An instance is used as it is, without looking at the inner schema, unless the
    setting asks for revalidation. *)
Theorem C62_model_kept : forall c inner k attrs s, sub k (mo_cls c) = true -> ~ again (mo_revalidate c) k (mo_cls c) ->
  model_validate sub c inner (IPy (PObj k attrs)) s = (VOk (PObj k attrs), s).
Proof.
  intros c inner k attrs s H A. unfold model_validate, instance_input, is_instance, should_revalidate, exact_instance. cbn [class_of]. rewrite H.
  destruct (mo_revalidate c); cbn in A; [exfalso; now apply A|reflexivity|]. cbn [class_of]. destruct (N.eqb_spec k (mo_cls c)) as [->|N]; [reflexivity|exfalso; now apply A].
Qed.
Theorem C62_dataclass_kept : forall c inner k attrs s, sub k (da_cls c) = true -> ~ again (da_revalidate c) k (da_cls c) ->
  dataclass_validate sub c inner (IPy (PObj k attrs)) s = (VOk (PObj k attrs), s).
Proof.
  intros c inner k attrs s H A. unfold dataclass_validate, instance_input, is_instance, should_revalidate, exact_instance. cbn [class_of]. rewrite H.
  destruct (da_revalidate c); cbn in A; [exfalso; now apply A|reflexivity|]. cbn [class_of]. destruct (N.eqb_spec k (da_cls c)) as [->|N]; [reflexivity|exfalso; now apply A].
Qed.

Lemma instance_again cls origin r k attrs :
  (sub k cls = true /\ again r k cls) \/ (sub k cls = false /\ exists g, origin = Some g /\ sub k g = true) ->
  exists force, instance_input sub cls origin (IPy (PObj k attrs)) = Some (PObj k attrs, force) /\ should_revalidate r (PObj k attrs) cls || force = true.
Proof.
  intros [[H A]|[H (g & -> & G)]]; unfold instance_input, is_instance; cbn [class_of]; rewrite H.
  - exists false. split; [reflexivity|]. destruct r; [reflexivity|destruct A|]. cbn [should_revalidate again exact_instance class_of] in *. apply N.eqb_neq in A. now rewrite A.
  - rewrite G. exists true. split; [reflexivity|apply orb_true_r].
Qed.

(** Otherwise (and always for an instance of the generic origin only) its fields and
    extras are validated together as a dict, and the new instance is of the schema's
    class, with the old set of fields. *)
Theorem C62_model_revalidated : forall c inner k d extra fs s,
  mo_root c = false -> mo_custom_init c = None ->
  (sub k (mo_cls c) = true /\ again (mo_revalidate c) k (mo_cls c)) \/
  (sub k (mo_cls c) = false /\ exists g, mo_origin c = Some g /\ sub k g = true) ->
  let r := inner (IPy (PDict (model_dict d extra))) s in
  model_validate sub c inner (IPy (model_inst k (PDict d) (extra_value extra) fs)) s =
    (match fst r with
     | VErr e => VErr e
     | VOk (PTuple [d'; extra'; fs']) => call_post_init (mo_post_init c) (model_inst (mo_cls c) d' extra' fs) (IPy (PDict (model_dict d extra)))
     | VOk _ => VErr type_error
     end, snd r).
Proof.
  intros c inner k d extra fs s R C H r. subst r. destruct (instance_again (mo_cls c) (mo_origin c) (mo_revalidate c) k [(dunder_dict, PDict d); (dunder_extra, extra_value extra); (dunder_fields_set, fs)] H) as (force & E & F).
  unfold model_validate, model_inst at 1. rewrite E, F.
  change (inst_attr (PObj k _) dunder_fields_set) with (VOk fs). cbv iota beta. rewrite R.
  assert (D : model_data false (PObj k [(dunder_dict, PDict d); (dunder_extra, extra_value extra); (dunder_fields_set, fs)]) = VOk (PDict (model_dict d extra))) by (destruct extra; reflexivity).
  rewrite D. unfold model_construct. rewrite C, R. destruct (inner _ s) as [[out|e] s']; cbn [fst snd]; [|reflexivity].
  f_equal. unfold build_model. destruct out as [| | | | | | |[|x [|y [|z [|? ?]]]]| | | | |]; reflexivity.
Qed.
Theorem C62_dataclass_revalidated : forall c inner k attrs s,
  (sub k (da_cls c) = true /\ again (da_revalidate c) k (da_cls c)) \/
  (sub k (da_cls c) = false /\ exists g, da_origin c = Some g /\ sub k g = true) ->
  forall d, inst_to_dict (da_names c) (PObj k attrs) [] = VOk d ->
  let r := inner (IPy (PDict d)) s in
  dataclass_validate sub c inner (IPy (PObj k attrs)) s =
    (match fst r with VErr e => VErr e | VOk out => set_dict_call c out (IPy (PObj k attrs)) end, snd r).
Proof.
  intros c inner k attrs s H d D r. subst r. destruct (instance_again (da_cls c) (da_origin c) (da_revalidate c) k attrs H) as (force & E & F).
  unfold dataclass_validate. rewrite E, F, D. destruct (inner _ s) as [[out|e] s']; reflexivity.
Qed.
(** The dict of a dataclass instance holds its fields (and nothing else). *)
Lemma inst_to_dict_get names k attrs : NoDup names -> (forall n, In n names -> exists v, assoc n attrs = Some v) ->
  forall d0, (forall x y, In (x, y) d0 -> exists n, x = PStr n /\ ~ In n names) ->
  inst_to_dict names (PObj k attrs) d0 = VOk (d0 ++ map (fun n => (PStr n, match assoc n attrs with Some v => v | None => PNone end)) names).
Proof.
  induction 1 as [|n names Nn Nd IH]; intros A d0 K; cbn [inst_to_dict map]; [now rewrite app_nil_r|].
  destruct (A n (or_introl eq_refl)) as [v V]. cbn [inst_attr]. rewrite V.
  assert (S : forall d, (forall x y, In (x, y) d -> exists m, x = PStr m /\ m <> n) -> dict_set (PStr n) v d = d ++ [(PStr n, v)]).
  { induction d as [|[x y] d IHd]; intros X; [reflexivity|]. cbn [dict_set app].
    destruct (X x y (or_introl eq_refl)) as (m & -> & M).
    rewrite py_eq_str. apply str_eqb_neq in M. rewrite M. f_equal. apply IHd. intros x' y' Z. apply (X x' y'). now right. }
  rewrite S. 2: { intros x y X. destruct (K x y X) as (m & -> & M). exists m. split; [reflexivity|]. intros ->. apply M. now left. }
  rewrite IH.
  - now rewrite <- app_assoc.
  - intros m M. apply A. now right.
  - intros x y X. apply in_app_or in X. destruct X as [X|[[= <- <-]|[]]].
    + destruct (K x y X) as (m & -> & M). exists m. split; [reflexivity|]. intros Z. apply M. now right.
    + exists n. split; [reflexivity|exact Nn].
Qed.
Theorem C62_dataclass_dict : forall names k attrs, NoDup names -> (forall n, In n names -> exists v, assoc n attrs = Some v) ->
  exists vs, inst_to_dict names (PObj k attrs) [] = VOk (combine (map PStr names) vs) /\ map Some vs = map (fun n => assoc n attrs) names.
Proof.
  intros names k attrs Nd A. exists (map (fun n => match assoc n attrs with Some v => v | None => PNone end) names).
  rewrite inst_to_dict_get by (auto; intros ? ? []). split.
  - f_equal. cbn [app]. clear. induction names as [|n l IH]; cbn; [reflexivity|]. now rewrite IH.
  - rewrite map_map. apply map_ext_in. intros n I. destruct (A n I) as [v ->]. reflexivity.
Qed.
(** A field the instance does not have stops the validation with an AttributeError. *)
Theorem C62_dataclass_missing : forall names k attrs n, In n names -> assoc n attrs = None ->
  inst_to_dict names (PObj k attrs) [] = VErr (InternalErr XAttributeError).
Proof.
  intros names k attrs n I A. generalize (@nil (pyval * pyval)) as d. revert I.
  induction names as [|m names IH]; intros I d; [destruct I|]. cbn [inst_to_dict inst_attr].
  destruct I as [->|I]; [now rewrite A|]. destruct (assoc m attrs); [now apply IH|reflexivity].
Qed.

Lemma no_instance_input cls origin i : no_instance cls origin i -> instance_input sub cls origin i = None.
Proof.
  intros H. unfold instance_input, is_instance. destruct i as [v| | |]; try reflexivity. specialize (H v eq_refl).
  destruct (class_of v) as [k|]; [|now destruct origin]. destruct (H k eq_refl) as [-> G]. destruct origin as [g|]; [|reflexivity]. now rewrite (G g eq_refl).
Qed.

(** Any other input goes through the inner schema, and the result is a new instance of
    the schema's class with exactly the values, extras and field names that came out. *)
Theorem C62_model_fresh : forall c inner i s, mo_root c = false -> mo_custom_init c = None -> no_instance (mo_cls c) (mo_origin c) i ->
  let r := inner i (floor_exactness Strict s) in
  model_validate sub c inner i s =
    (match fst r with
     | VErr e => VErr e
     | VOk (PTuple [d; extra; fs]) => call_post_init (mo_post_init c) (model_inst (mo_cls c) d extra fs) i
     | VOk _ => VErr type_error
     end, snd r).
Proof.
  intros c inner i s R C H r. subst r. unfold model_validate. rewrite no_instance_input by assumption. unfold model_construct. rewrite C, R.
  destruct (inner i _) as [[out|e] s']; cbn [fst snd]; [|reflexivity]. f_equal. unfold build_model.
  destruct out as [| | | | | | |[|x [|y [|z [|? ?]]]]| | | | |]; reflexivity.
Qed.
(** Root models: the instance holds the one value; it counts as set unless the input was
    the undefined marker. *)
Theorem C62_root_fresh : forall c inner i s, mo_root c = true -> mo_custom_init c = None -> no_instance (mo_cls c) (mo_origin c) i ->
  exists s', model_validate sub c inner i s =
    (match fst (inner i (set_extra (set_field_name (Some root_name) (st_extra (floor_exactness Strict s))) (floor_exactness Strict s))) with
     | VErr e => VErr e
     | VOk v => call_post_init (mo_post_init c) (root_inst (mo_cls c) v (PSet (if is_undefined i then [] else [PStr root_name]))) i
     end, s') /\ st_extra s' = st_extra s.
Proof.
  intros c inner i s R C H. unfold model_validate. rewrite no_instance_input by assumption. unfold model_construct. rewrite C, R. unfold rebind.
  destruct (inner i _) as [[out|e] s']; cbn [fst]; eexists; (split; [|]).
  1, 3: reflexivity.
  all: unfold floor_exactness; destruct (st_exactness s) as [[]|]; reflexivity.
Qed.
(** A class with its own __init__ gets a dict-like input as keyword arguments, and the
    inner schema is not used. *)
Theorem C62_custom_init : forall c inner f d s, mo_custom_init c = Some f ->
  model_validate sub c inner (IPy (PDict d)) s = (match f d with inl v => VOk v | inr e => VErr (convert_err e (IPy (PDict d))) end, floor_exactness Strict s).
Proof.
  intros c inner f d s C. unfold model_validate. replace (instance_input _ _ _ _) with (@None (pyval * bool)).
  - unfold model_construct. rewrite C. cbn [as_kwargs as_dict]. destruct (f d); reflexivity.
  - unfold instance_input, is_instance. cbn [class_of]. now destruct (mo_origin c).
Qed.

(** Calling the class (whose __init__ validates into the new object) gives the same as
    validating the data. *)
Theorem C62_init_agrees : forall c inner i s, mo_custom_init c = None -> no_instance (mo_cls c) (mo_origin c) i ->
  model_validate sub c inner i s = model_init c inner i (floor_exactness Strict s).
Proof.
  intros c inner i s C H. unfold model_validate. rewrite no_instance_input by assumption. unfold model_construct, model_init. rewrite C. reflexivity.
Qed.

(** Strict mode: a dataclass needs an instance, unless the input is JSON (or strings);
    for a model it makes no difference. *)
Theorem C62_strict_dataclass : forall c inner i s, no_instance (da_cls c) (da_origin c) i ->
  strict_or s (da_strict c) = true -> x_input_type (st_extra s) = ITPython ->
  dataclass_validate sub c inner i s = (VErr (LineErrors [{| le_type := EOther 2; le_loc := LEmpty; le_input := i |}]), s).
Proof. intros c inner i s H S T. unfold dataclass_validate. rewrite no_instance_input by assumption. rewrite S, T. reflexivity. Qed.
Theorem C62_dataclass_fresh : forall c inner i s, no_instance (da_cls c) (da_origin c) i ->
  strict_or s (da_strict c) = false \/ x_input_type (st_extra s) <> ITPython ->
  fst (dataclass_validate sub c inner i s) = match fst (inner i s) with VErr e => VErr e | VOk out => set_dict_call c out i end.
Proof.
  intros c inner i s H S. unfold dataclass_validate. rewrite no_instance_input by assumption.
  replace (strict_or s (da_strict c) && _) with false.
  - destruct (inner i s) as [[out|e] s']; reflexivity.
  - destruct S as [->|S]; [reflexivity|]. destruct (x_input_type _); [now destruct S| |]; now rewrite andb_false_r.
Qed.
(** The new dataclass instance has the validated values as attributes. *)
Theorem C62_dataclass_attrs : forall c d i, da_post_init c = None ->
  set_dict_call c (PTuple [PDict (map (fun kv => (PStr (fst kv), snd kv)) d); PNone]) i = VOk (PObj (da_cls c) d).
Proof.
  intros c d i P. unfold set_dict_call. cbn [as_dict]. rewrite P. do 2 f_equal. unfold attrs_of.
  induction d as [|[k v] d IH]; [reflexivity|]. cbn [map flat_map fst snd as_str app]. now rewrite IH.
Qed.
(** __post_init__ gets the init-only values; its exception becomes the error. *)
Theorem C62_dataclass_post_init : forall c f d args i, da_post_init c = Some f ->
  set_dict_call c (PTuple [PDict (map (fun kv => (PStr (fst kv), snd kv)) d); PTuple args]) i =
    match f (PObj (da_cls c) d) args with inl v => VOk v | inr e => VErr (convert_err e i) end.
Proof.
  intros c f d args i P. unfold set_dict_call. cbn [as_dict]. rewrite P. replace (attrs_of _) with d; [reflexivity|]. unfold attrs_of.
  induction d as [|[k v] d IH]; [reflexivity|]. cbn [map flat_map fst snd as_str app]. now rewrite <- IH.
Qed.

(** What comes out of a model schema without user hooks is an instance of the class:
    the input itself, or a new one of exactly the class. *)
Theorem C62_result_class : forall c inner i s v s', mo_custom_init c = None -> mo_post_init c = None ->
  model_validate sub c inner i s = (VOk v, s') ->
  (i = IPy v /\ exists k, class_of v = Some k /\ sub k (mo_cls c) = true) \/ class_of v = Some (mo_cls c).
Proof.
  intros c inner i s v s' C P. assert (K : forall i ex s, match fst (model_construct c inner i ex s) with VOk w => class_of w = Some (mo_cls c) | VErr _ => True end).
  { intros i0 ex s0. unfold model_construct. rewrite C, P. destruct (mo_root c).
    - destruct (rebind _ s0 _) as [[out|e] s1]; reflexivity.
    - destruct (inner i0 s0) as [[out|e] s1]; [|exact I]. unfold build_model. destruct out as [| | | | | | |[|x [|y [|z [|? ?]]]]| | | | |]; try exact I; reflexivity. }
  intros E. unfold model_validate in E. destruct (instance_input _ _ _ _) as [[w force]|] eqn:I.
  - destruct (_ || force) eqn:F.
    + destruct (inst_attr w _) as [fs|]; [|discriminate]. destruct (model_data _ w) as [d|]; [|discriminate]. specialize (K (IPy d) (Some fs) s). rewrite E in K. now right.
    + injection E as -> _. left. destruct i as [u| | |]; try discriminate I. cbn [instance_input] in I. unfold is_instance in I.
      apply orb_false_iff in F. destruct F as [_ ->].
      destruct (class_of u) as [k|] eqn:U; [|destruct (mo_origin c); discriminate I]. destruct (sub k (mo_cls c)) eqn:S.
      * injection I as ->. eauto.
      * destruct (mo_origin c); [|discriminate I]. destruct (sub k n); discriminate I.
  - specialize (K i None (floor_exactness Strict s)). rewrite E in K. now right.
Qed.
End C62.
Print Assumptions C62_model_kept.
Print Assumptions C62_dataclass_kept.
Print Assumptions C62_model_revalidated.
Print Assumptions C62_dataclass_revalidated.
Print Assumptions C62_dataclass_dict.
Print Assumptions C62_dataclass_missing.
Print Assumptions C62_model_fresh.
Print Assumptions C62_root_fresh.
Print Assumptions C62_custom_init.
Print Assumptions C62_init_agrees.
Print Assumptions C62_strict_dataclass.
Print Assumptions C62_dataclass_fresh.
Print Assumptions C62_dataclass_attrs.
Print Assumptions C62_dataclass_post_init.
Print Assumptions C62_result_class.

(** Revalidating a root model that was built from its default marks the root as set:
    unlike for other models the old set of fields is not kept. *)
Theorem C62_root_fields_set_refuted : exists sub c inner k v s s',
  mo_root c = true /\ sub k (mo_cls c) = true /\ inner (IPy v) = (fun s => (VOk v, s)) /\
  model_validate sub c inner (IPy (root_inst k v (PSet []))) s = (VOk (root_inst k v (PSet [PStr root_name])), s').
Proof.
  exists N.eqb, {| mo_cls := 7; mo_origin := None; mo_revalidate := RAlways; mo_root := true; mo_custom_init := None; mo_post_init := None |}, (fun i s => (VOk (input_object i), s)), 7%N, (PInt 3).
  exists {| st_exactness := None; st_fields_set := None; st_partial := PartialOff; st_extra := {| x_input_type := ITPython; x_strict := None; x_from_attributes := None; x_by_alias := None; x_by_name := None; x_data := None; x_field_name := None |} |}.
  eexists. repeat (split; [reflexivity|]). reflexivity.
Qed.
Print Assumptions C62_root_fields_set_refuted.
(** A slotted or plain dataclass instance lacking a field's attribute cannot be
    revalidated, although the field has a default: the error is an AttributeError, not a
    ValidationError. *)
Theorem C62_dataclass_default_refuted : exists sub c inner attrs s s',
  (forall i s, exists v, fst (inner i s) = VOk v) /\
  dataclass_validate sub c inner (IPy (PObj (da_cls c) attrs)) s = (VErr (InternalErr XAttributeError), s').
Proof.
  exists N.eqb, {| da_cls := 7; da_origin := None; da_revalidate := RAlways; da_strict := false; da_names := [lit "a"]; da_slots := false; da_post_init := None |}, any_validate, [].
  exists {| st_exactness := None; st_fields_set := None; st_partial := PartialOff; st_extra := {| x_input_type := ITPython; x_strict := None; x_from_attributes := None; x_by_alias := None; x_by_name := None; x_data := None; x_field_name := None |} |}.
  eexists. split; [intros i s; eexists; reflexivity|]. reflexivity.
Qed.
Print Assumptions C62_dataclass_default_refuted.

(** Non-vacuity. *)
Definition c62_cfg (r : revalidate) : model_cfg := {| mo_cls := 7; mo_origin := Some 3%N; mo_revalidate := r; mo_root := false; mo_custom_init := None; mo_post_init := None |}.
(** Class 8 is a subclass of 7; 3 is the generic origin of 7, and 9 another of its
    parametrisations. *)
Definition c62_sub (a b : N) : bool := N.eqb a b || (N.eqb a 8 && N.eqb b 7) || (N.eqb b 3 && (N.eqb a 7 || N.eqb a 8 || N.eqb a 9)).
Definition c62_inner : validator := fun i s =>
  match i with IPy (PDict d) => (VOk (PTuple [PDict (dict_set (PStr (lit "a")) (PInt 1) d); PNone; PSet [PStr (lit "a")]]), s) | _ => (val_err EDictType i, s) end.
Definition c62_state : state := {| st_exactness := Some Exact; st_fields_set := None; st_partial := PartialOff; st_extra := {| x_input_type := ITPython; x_strict := None; x_from_attributes := None; x_by_alias := None; x_by_name := None; x_data := None; x_field_name := None |} |}.
Example C62_ex_kept : c62_sub 8 7 = true /\ ~ again RNever 8 7 /\ ~ again RSubclassInstances 7 7 /\ again RSubclassInstances 8 7 /\ c62_sub 9 7 = false /\ c62_sub 9 3 = true.
Proof. repeat split; cbn; try discriminate; auto. Qed.
Example C62_ex_revalidated :
  fst (model_validate c62_sub (c62_cfg RNever) c62_inner (IPy (model_inst 9 (PDict [(PStr (lit "a"), PInt 5)]) (PDict [(PStr (lit "z"), PInt 2)]) (PSet []))) c62_state) =
  VOk (model_inst 7 (PDict [(PStr (lit "a"), PInt 1); (PStr (lit "z"), PInt 2)]) PNone (PSet [])).
Proof. reflexivity. Qed.
Example C62_ex_fresh : no_instance c62_sub 7 (Some 3%N) (IPy (PDict [])) /\
  exists s', model_validate c62_sub (c62_cfg RNever) c62_inner (IPy (PDict [])) c62_state =
    (VOk (model_inst 7 (PDict [(PStr (lit "a"), PInt 1)]) PNone (PSet [PStr (lit "a")])), s') /\ st_exactness s' = Some Strict.
Proof. split; [intros v [= <-]; discriminate|]. eexists. split; reflexivity. Qed.

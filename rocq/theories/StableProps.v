(** C30: a valid value is given back unchanged when it is validated again in strict mode. *)
From Coq Require Import List NArith ZArith Bool Lia.
From Verif Require Import Base Float64 IntParse Numbers BytesCodec Values VState LookupKey Collections Child Inputs Scalars Literal LiteralSpec Wrappers Union TaggedUnion Tuple ModelFields TypedDict Assign Arguments Classes Interp InterpSpec InterpExamples ConformSpec ConformProofs StableSpec StableProofs StableProofs2 StableProofs3 StableProofs4.
Import ListNotations.
Open Scope nat_scope.

(** C30: whatever the input (Python or JSON), the options and the nesting, when a stable
    schema accepts it and returns [v], strict validation of [v] with the same schema
    returns [v], or complains about nothing but nesting beyond the recursion limit. *)
Theorem C30_revalidation : forall E defs named fuel fuel2 sc i s v s' s2,
  holds_of proper defs sc -> stable_definitions E defs named -> stable E defs named sc -> e_wd_fuel E <> 0 ->
  python_or_json i -> run E defs fuel sc i s = (VOk v, s') ->
  strict_call s2 -> guard_limit < fuel2 ->
  fst (run E defs fuel2 sc (IPy v) s2) = VOk v \/
  has_ref sc = true /\ exists e, fst (run E defs fuel2 sc (IPy v) s2) = VErr e /\ nested_too_deep e.
Proof.
  intros E defs named fuel fuel2 sc i s v s' s2 [W D] SD S WF PJ R C F.
  assert (A : allowed false i) by (destruct i; first [exact I | destruct PJ]).
  pose proof (run_stays E defs named WF D SD fuel sc i s v s' W S A R) as H.
  destruct (H fuel2 0 (Nat.le_0_l _) ltac:(lia) s2 C) as [_ [Q|(L & e & Q & B)]]; [now left|right]. split; [exact L|]. exists e. split; [exact Q|now apply bad_too_deep].
Qed.
Print Assumptions C30_revalidation.

(** C30 for validate_python(v, strict=True) and a schema without references to
    definitions: it returns [v]. *)
Theorem C30_revalidation_call : forall E sc fuel t o i v,
  everywhere proper sc -> stable E (fun _ => None) (fun _ => False) sc -> e_wd_fuel E <> 0 -> has_ref sc = false ->
  python_or_json i -> fst (run E (fun _ => None) fuel sc i (call_state t o)) = VOk v ->
  fst (run E (fun _ => None) 256 sc (IPy v) (call_state ITPython {| op_strict := Some true; op_from_attributes := None; op_by_alias := None; op_by_name := None; op_partial := PartialOff |})) = VOk v.
Proof.
  intros E sc fuel t o i v W S WF NR PJ R. destruct (run E (fun _ => None) fuel sc i (call_state t o)) as [r s'] eqn:RR. cbn in R. subst r.
  destruct (C30_revalidation E (fun _ => None) (fun _ => False) fuel 256 sc i (call_state t o) v s'
     (call_state ITPython {| op_strict := Some true; op_from_attributes := None; op_by_alias := None; op_by_name := None; op_partial := PartialOff |})) as [Q|[Q _]]; auto.
  - split; [exact W|discriminate].
  - intros k d [].
  - repeat split.
  - congruence.
Qed.
Print Assumptions C30_revalidation_call.

(** ** Where it does not hold, and why the fragment is what it is *)
Definition again_fails (E : env) (defs : nat -> option schema) (sc : schema) (i : input) : Prop :=
  exists v e, fst (run E defs 300 sc i (call_state (match i with IJson _ => ITJson | _ => ITPython end) ex_opts)) = VOk v /\
    fst (run E defs 300 sc (IPy v) (call_state ITPython strict_opts)) = VErr (LineErrors [e]).
Definition again_differs (E : env) (defs : nat -> option schema) (sc : schema) (i : input) : Prop :=
  exists v w, fst (run E defs 300 sc i (call_state (match i with IJson _ => ITJson | _ => ITPython end) ex_opts)) = VOk v /\
    fst (run E defs 300 sc (IPy v) (call_state ITPython strict_opts)) = VOk w /\ v <> w.
Definition none_defs (k : nat) : option schema := None.

(** A string is checked before its case is changed: "ß" passes max_length=1 and becomes
    "SS", which does not. *)
Theorem C30_case_change_refuted : exists E c, sc_to_upper c = true /\ again_fails E none_defs (SStr c) (IPy (PStr [223%N])).
Proof.
  exists {| e_parse_f64 := fun _ => None; e_py_str := fun _ => lit "?"; e_f64_to_string := fun _ => lit "?"; e_max_digits := 4300;
     e_to_lower := fun s => s; e_to_upper := flat_map (fun c => if N.eqb c 223 then lit "SS" else [c]); e_repr := fun _ => lit "?"; e_getattr := fun _ _ => AMissing; e_subclass := N.eqb; e_wd_fuel := 3 |},
    {| sc_strict := false; sc_coerce_numbers := false; sc_strip := false; sc_min := None; sc_max := Some 1; sc_pattern := None; sc_to_lower := false; sc_to_upper := true |}.
  split; [reflexivity|]. eexists _, _. split; [vm_compute; reflexivity|vm_compute; reflexivity].
Qed.
Print Assumptions C30_case_change_refuted.
(** A typed dict writes the name and reads the alias. *)
Theorem C30_alias_refuted : exists f sc, ~ unaliased (fi_name f) (fi_keys f) /\
  exists i, again_fails ex_env none_defs (STypedDict (xinfos ExtraIgnore) [(f, sc)] None) i.
Proof.
  exists {| fi_name := lit "a"; fi_keys := {| kc_by_name := Simple (path_from_str (lit "a")); kc_by_alias := Some (Simple (path_from_str (lit "b"))); kc_by_alias_then_name := None |}; fi_frozen := false; fi_required := true |}, xint.
  split; [discriminate|]. exists (IPy (PDict [(PStr (lit "b"), PInt 1)])). eexists _, _. split; [vm_compute; reflexivity|vm_compute; reflexivity].
Qed.
Print Assumptions C30_alias_refuted.
(** A required field that on_error="omit" left out is missing afterwards. *)
Theorem C30_omitted_field_refuted : exists sc, omittable none_defs sc /\
  exists i, again_fails ex_env none_defs (STypedDict (xinfos ExtraIgnore) [xfield (lit "a") true sc] None) i.
Proof.
  exists (SDefault DNone OnOmit false xint). split; [apply OmItself; reflexivity|].
  exists (IPy (PDict [(PStr (lit "a"), PNone)])). eexists _, _. split; [vm_compute; reflexivity|vm_compute; reflexivity].
Qed.
Print Assumptions C30_omitted_field_refuted.
(** Defaults are not counted for max_length of a tuple the first time. *)
Theorem C30_tuple_default_refuted : exists c items i, tn_max c = Some 1 /\ again_fails ex_env none_defs (STuple c items) i.
Proof.
  exists {| tn_strict := false; tn_variadic := None; tn_min := None; tn_max := Some 1; tn_fail_fast := false |}, [xint; SDefault (DValue (PInt 7)) OnRaise false xint], (IPy (PTuple [PInt 5])).
  split; [reflexivity|]. eexists _, _. split; [vm_compute; reflexivity|vm_compute; reflexivity].
Qed.
Print Assumptions C30_tuple_default_refuted.
(** A default that is not validated need not be valid. *)
Theorem C30_default_refuted : exists k i, again_fails ex_env none_defs (SDefault k OnRaise false xint) i.
Proof. exists (DValue (PStr (lit "x"))), (IPy py_undefined). eexists _, _. split; [vm_compute; reflexivity|vm_compute; reflexivity]. Qed.
Print Assumptions C30_default_refuted.
(** An earlier member of a union may take the result of a later one, and change it:
    bytes fail the first member and become " a", which the first member strips. *)
Theorem C30_union_refuted : exists mode l i, again_differs ex_env none_defs (SUnion mode None l) i.
Proof.
  exists UnionLeftToRight,
    [(SStr {| sc_strict := true; sc_coerce_numbers := false; sc_strip := true; sc_min := None; sc_max := None; sc_pattern := None; sc_to_lower := false; sc_to_upper := false |}, lit "x"); (xstr, lit "y")],
    (IPy (PBytes [32; 97]%N)).
  eexists _, _. split; [vm_compute; reflexivity|]. split; [vm_compute; reflexivity|]. discriminate.
Qed.
Print Assumptions C30_union_refuted.
(** So may the members of a smart union. *)
Theorem C30_smart_union_refuted : exists l i, again_differs ex_env none_defs (SUnion UnionSmart None l) i.
Proof.
  exists [(SStr {| sc_strict := true; sc_coerce_numbers := false; sc_strip := true; sc_min := None; sc_max := None; sc_pattern := None; sc_to_lower := false; sc_to_upper := false |}, lit "x"); (xstr, lit "y")],
    (IPy (PBytes [32; 97]%N)).
  eexists _, _. split; [vm_compute; reflexivity|]. split; [vm_compute; reflexivity|]. discriminate.
Qed.
Print Assumptions C30_smart_union_refuted.
(** Different schemas for the two modes need not have results in common. *)
Theorem C30_lax_or_strict_refuted : exists l t i, again_fails ex_env none_defs (SLaxOrStrict false l t) i.
Proof. exists xint, xstr, (IPy (PInt 1)). eexists _, _. split; [vm_compute; reflexivity|vm_compute; reflexivity]. Qed.
Print Assumptions C30_lax_or_strict_refuted.

(** Nesting that JSON may have and Python objects may not: the recursion guard counts
    only Python objects. *)
Definition nest : schema := SList xcoll (Some (SRef 0)).
Definition nest_defs (k : nat) : option schema := match k with 0 => Some nest | _ => None end.
Fixpoint deep (n : nat) : json := match n with 0 => JArr [] | S n => JArr [deep n] end.
Definition deep_check : bool :=
  match fst (run ex_env nest_defs 300 nest (IJson (deep 260)) (call_state ITJson ex_opts)) with
  | VOk v => match fst (run ex_env nest_defs 300 nest (IPy v) (call_state ITPython strict_opts)) with
             | VErr (LineErrors (x :: _)) => match le_type x with ERecursionLoop => true | _ => false end
             | _ => false end
  | _ => false end.
Lemma deep_checked : deep_check = true. Proof. vm_compute. reflexivity. Qed.
Theorem C30_deep_json_refuted : exists i v e,
  fst (run ex_env nest_defs 300 nest i (call_state ITJson ex_opts)) = VOk v /\
  fst (run ex_env nest_defs 300 nest (IPy v) (call_state ITPython strict_opts)) = VErr e /\ nested_too_deep e.
Proof.
  exists (IJson (deep 260)). pose proof deep_checked as H. unfold deep_check in H.
  destruct (fst (run ex_env nest_defs 300 nest (IJson (deep 260)) (call_state ITJson ex_opts))) as [v|]; [|discriminate H]. exists v.
  destruct (fst (run ex_env nest_defs 300 nest (IPy v) (call_state ITPython strict_opts))) as [w|[[|x l]| | | |]]; try discriminate H. eexists. split; [reflexivity|]. split; [reflexivity|].
  destruct (le_type x) eqn:T; try discriminate H. exists (x :: l), x. split; [reflexivity|]. split; [now left|exact T].
Qed.
Print Assumptions C30_deep_json_refuted.

(** ** Non-vacuity *)
Lemma not_omittable_leaf defs sc : omit_through sc = [] -> ~ omits_itself sc -> (forall k, sc <> SRef k) -> ~ omittable defs sc.
Proof. intros T N R O. inversion O; subst; [contradiction|now rewrite T in *|now apply (R k)]. Qed.
(** A tree with integer values, an optional set of labels, and a model inside. *)
Definition tag_model : schema :=
  SModel {| mo_cls := 5; mo_origin := None; mo_revalidate := RNever; mo_root := false; mo_custom_init := None; mo_post_init := None |}
    (SModelFields (xinfos ExtraIgnore) [xfield (lit "x") true xint] None None).
Definition stable_tree : schema :=
  STypedDict (xinfos ExtraAllow)
    [xfield (lit "value") true xint; xfield (lit "labels") false (SSet false xcoll xstr); xfield (lit "tag") false (SNullable tag_model);
     xfield (lit "children") true (SList xcoll (Some (SRef 0)))] (Some (SFloat false {| fc_multiple_of := None; fc_le := None; fc_lt := None; fc_ge := None; fc_gt := None; fc_allow_inf_nan := true |})).
Definition stable_tree_defs (k : nat) : option schema := match k with 0 => Some stable_tree | _ => None end.
Example C30_tree_stable : stable ex_env stable_tree_defs (fun k => k = 0) stable_tree /\ stable_definitions ex_env stable_tree_defs (fun k => k = 0) /\ holds_of proper stable_tree_defs stable_tree.
Proof.
  assert (S : stable ex_env stable_tree_defs (fun k => k = 0) stable_tree).
  { constructor.
    - intros f sc J. repeat (destruct J as [J|J]; [injection J as <- <-|]); try destruct J.
      + split; [constructor|]. split; [apply not_omittable_leaf; [reflexivity|cbn; auto|discriminate]|]. split; [reflexivity|now left].
      + split; [constructor; now constructor|]. split; [apply not_omittable_leaf; [reflexivity|cbn; auto|discriminate]|]. split; [reflexivity|now right].
      + split; [constructor; now constructor|]. split; [|split; [reflexivity|now right]].
        intros O. inversion O as [? O'|? c J O'|]; subst; [exact O'|]. cbn in J. destruct J as [<-|[]]. inversion O' as [? O2|? c J O2|]; subst.
        * cbn in O2. destruct O2 as [(f & kw & Q & _)|(f & v & Q & _)]; discriminate Q.
        * cbn in J. destruct J as [<-|[]]. revert O2. apply not_omittable_leaf; [reflexivity|cbn; auto|discriminate].
      + split; [constructor; now constructor|]. split; [apply not_omittable_leaf; [reflexivity|cbn; auto|discriminate]|]. split; [reflexivity|now left].
    - cbn. repeat constructor; cbn; intros J; repeat destruct J as [J|J]; try discriminate J; destruct J.
    - intros sc [= <-]. constructor.
    - left. discriminate. }
  assert (T : everywhere proper stable_tree).
  { repeat (constructor; [cbn; try discriminate; try exact I; try (split; intros; discriminate); intros; discriminate|cbn; intros ? J; repeat destruct J as [<-|J]; try destruct J]). }
  split; [exact S|]. split; [intros k d -> [= <-]; exact S|]. split; [exact T|]. intros [|k] d; cbn; [|discriminate]. intros [= <-]. exact T.
Qed.
Example C30_tree_example :
  let i := IJson (JObj [(lit "children", JArr [JObj [(lit "value", JStr (lit "2")); (lit "children", JArr [])]]); (lit "value", JInt 1);
                         (lit "w", JInt 4); (lit "tag", JObj [(lit "x", JInt 3)]); (lit "labels", JArr [JStr (lit "a"); JStr (lit "a")])]) in
  let v := PDict [(PStr (lit "value"), PInt 1); (PStr (lit "labels"), PSet [PStr (lit "a")]);
                  (PStr (lit "tag"), model_inst 5 (PDict [(PStr (lit "x"), PInt 3)]) PNone (PSet [PStr (lit "x")]));
                  (PStr (lit "children"), PList [PDict [(PStr (lit "value"), PInt 2); (PStr (lit "children"), PList [])]]); (PStr (lit "w"), PFloat (f_of_Z 4))] in
  fst (run ex_env stable_tree_defs 300 stable_tree i (call_state ITJson ex_opts)) = VOk v /\
  fst (run ex_env stable_tree_defs 300 stable_tree (IPy v) (call_state ITPython strict_opts)) = VOk v.
Proof. split; vm_compute; reflexivity. Qed.
(** A default that need not be validated because it is valid. *)
Example C30_default_stable : stable ex_env none_defs (fun _ => False) (SDefault (DValue (PInt 0)) OnRaise false xint) /\
  fst (run ex_env none_defs 300 (SDefault (DValue (PInt 0)) OnRaise false xint) (IPy py_undefined) (call_state ITPython ex_opts)) = VOk (PInt 0).
Proof.
  split; [|reflexivity]. constructor; [constructor|now left|]. intros _ v ->. split; [|discriminate].
  intros ref s C. eexists. split; [reflexivity|]. now apply calm_floor.
Qed.

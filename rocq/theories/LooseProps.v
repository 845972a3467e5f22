(** C90: a looser schema accepts what the schema accepts, with the same result. *)
From Coq Require Import List NArith ZArith Bool Lia.
From Verif Require Import Base Float64 IntParse Numbers BytesCodec Values VState LookupKey Collections Child Inputs Scalars Literal Wrappers Union TaggedUnion Tuple ModelFields TypedDict Assign Arguments Classes Interp InterpSpec InterpExamples StrictSpec LooseSpec LooseOff LooseProofs5.
Import ListNotations.
Open Scope nat_scope.

(** C90: if the schema accepts an input (without allow_partial), then a looser schema
    accepts it with the same value; the number of fields set and the exactness (which decide
    in an enclosing smart union) are the same too. *)
Theorem C90_looser_accepts : forall E U defs defs' fuel n sc sc' i s v t,
  e_wd_fuel E <> 0 -> holds_of orderly defs sc -> looser_defs U defs defs' -> looser U n sc sc' ->
  st_partial s = PartialOff -> run E defs fuel sc i s = (VOk v, t) -> run E defs' fuel sc' i s = (VOk v, t).
Proof. intros E U defs defs' fuel n sc sc' i s v t FU [W D] LD L P. exact (run_loose E defs defs' U FU LD D fuel n sc sc' i s v t L W P). Qed.
Print Assumptions C90_looser_accepts.

(** C90: the same for calls, and any number of steps. *)
Theorem C90_loosened_call : forall E defs sc defs' sc' fuel t o i v,
  e_wd_fuel E <> 0 -> loosened defs sc defs' sc' -> op_partial o = PartialOff ->
  fst (run E defs fuel sc i (call_state t o)) = VOk v -> fst (run E defs' fuel sc' i (call_state t o)) = VOk v.
Proof.
  intros E defs sc defs' sc' fuel t o i v FU L P. induction L as [|U n defs sc defs1 sc1 defs' sc' H LD L1 LS IH]; [easy|].
  intros X. apply IH. destruct (run E defs fuel sc i (call_state t o)) as [r s1] eqn:R. cbn in X. subst r.
  now rewrite (C90_looser_accepts E U defs defs1 fuel n sc sc1 i (call_state t o) v s1 FU H LD L1 P R).
Qed.
Print Assumptions C90_loosened_call.
(** C90: what the looser schema refuses, the schema refuses. *)
Theorem C90_refusal : forall E defs sc defs' sc' fuel t o i e,
  e_wd_fuel E <> 0 -> loosened defs sc defs' sc' -> op_partial o = PartialOff ->
  fst (run E defs' fuel sc' i (call_state t o)) = VErr e -> exists e', fst (run E defs fuel sc i (call_state t o)) = VErr e'.
Proof.
  intros E defs sc defs' sc' fuel t o i e FU L P H. destruct (fst (run E defs fuel sc i (call_state t o))) as [v|e'] eqn:X; [|now exists e'].
  rewrite (C90_loosened_call E _ _ _ _ _ _ _ _ _ FU L P X) in H. discriminate.
Qed.
Print Assumptions C90_refusal.

(** ** A recursive schema *)
Definition gt0 : int_constraints := {| ic_multiple_of := None; ic_le := None; ic_lt := None; ic_ge := None; ic_gt := Some (I64 0) |}.
Definition gtm5 : int_constraints := {| ic_multiple_of := None; ic_le := None; ic_lt := None; ic_ge := None; ic_gt := Some (I64 (-5)) |}.
Definition most (n : nat) : coll := {| co_strict := false; co_min := None; co_max := Some n; co_fail_fast := false |}.
Definition tight_node : schema :=
  STypedDict (xinfos ExtraForbid)
    [xfield (lit "value") true (SInt true (Some gt0));
     xfield (lit "name") true xstr;
     xfield (lit "children") false (SDefault (DValue (PList [])) OnRaise false (SList (most 2) (Some (SRef 0))))] None.
(** Lax mode and a lower bound for the value, None as another value, a default for the name,
    more children, extra keys. *)
Definition loose_node : schema :=
  STypedDict (xinfos ExtraAllow)
    [xfield (lit "value") true (SNullable (SInt false (Some gtm5)));
     xfield (lit "name") false (SDefault (DValue (PStr (lit "-"))) OnRaise false xstr);
     xfield (lit "children") false (SDefault (DValue (PList [])) OnDefault false (SList (most 9) (Some (SRef 0))))] (Some xint).
Definition tight_defs (k : nat) : option schema := match k with 0 => Some tight_node | _ => None end.
Definition loose_defs (k : nat) : option schema := match k with 0 => Some loose_node | _ => None end.
Definition nowhere (k : nat) : Prop := False.
Ltac every := repeat (constructor; [cbn; auto|]; cbn; intros ?c ?C; repeat (destruct C as [<-|C]; [|]); try contradiction).
Lemma tight_orderly : everywhere orderly tight_node.
Proof.
  constructor; [exact I|]. cbn. intros c [<-|[<-|[<-|[]]]].
  - constructor; [exact I|]. cbn. contradiction.
  - constructor; [cbn; discriminate|]. cbn. contradiction.
  - constructor; [cbn; split; [exact I|discriminate]|]. cbn. intros c [<-|[]]. constructor; [exact I|]. cbn. intros c [<-|[]]. constructor; [exact I|]. cbn. contradiction.
Qed.
Lemma node_looser : looser nowhere false tight_node loose_node.
Proof.
  apply L_typed_dict.
  - unfold fields_looser. cbn. split; [right; split; [reflexivity|now right]|]. now repeat split.
  - constructor; [|constructor; [|constructor; [|constructor]]]; cbn.
    + split; [reflexivity|]. split; [reflexivity|]. split; [easy|]. apply L_add_nullable; [exact I|]. apply L_int; [discriminate|]. left. constructor. unfold int_looser, upper, lower, kept_or_dropped. cbn.
      split; [now left|]. do 3 (split; [exact I|]). exists (I64 0). split; [reflexivity|]. unfold int_le. cbn. lia.
    + split; [reflexivity|]. split; [reflexivity|]. split; [discriminate|]. apply L_add_default; [exact I|]. apply L_same. constructor; [exact I|]. cbn. contradiction.
    + split; [reflexivity|]. split; [reflexivity|]. split; [easy|]. apply L_default. apply L_list; [|constructor; apply L_ref]. unfold coll_looser. cbn. split; [easy|]. split; [exact I|]. exists 2. split; [reflexivity|lia].
  - right. reflexivity.
Qed.
Example C90_node_loosened : loosened tight_defs (SRef 0) loose_defs (SRef 0).
Proof.
  apply (LD_step nowhere true _ _ loose_defs (SRef 0)); [| | |apply LD_refl].
  - split; [constructor; [exact I|cbn; contradiction]|]. intros [|k] d; cbn; [intros [= <-]; apply tight_orderly|discriminate].
  - split; [intros k []|]. intros [|k] d; cbn; [intros [= <-]; exists loose_node; split; [reflexivity|apply node_looser]|discriminate].
  - apply L_ref.
Qed.
Definition node_in (v : pyval) : pyval :=
  PDict [(PStr (lit "value"), v); (PStr (lit "name"), PStr (lit "a")); (PStr (lit "children"), PList [PDict [(PStr (lit "value"), PInt 2); (PStr (lit "name"), PStr (lit "b"))]])].
Definition node_out : pyval :=
  PDict [(PStr (lit "value"), PInt 1); (PStr (lit "name"), PStr (lit "a"));
         (PStr (lit "children"), PList [PDict [(PStr (lit "value"), PInt 2); (PStr (lit "name"), PStr (lit "b")); (PStr (lit "children"), PList [])]])].
Example C90_node_tight : fst (run ex_env tight_defs 5 (SRef 0) (IPy (node_in (PInt 1))) (call_state ITPython ex_opts)) = VOk node_out.
Proof. vm_compute. reflexivity. Qed.
Example C90_node_loose : fst (run ex_env loose_defs 5 (SRef 0) (IPy (node_in (PInt 1))) (call_state ITPython ex_opts)) = VOk node_out.
Proof. apply (C90_loosened_call ex_env tight_defs (SRef 0)); [discriminate|apply C90_node_loosened|reflexivity|apply C90_node_tight]. Qed.
(** The looser schema accepts more. *)
Example C90_node_more : exists e v, fst (run ex_env tight_defs 5 (SRef 0) (IPy (node_in (PStr (lit "-3")))) (call_state ITPython ex_opts)) = VErr (LineErrors [e]) /\
  fst (run ex_env loose_defs 5 (SRef 0) (IPy (node_in (PStr (lit "-3")))) (call_state ITPython ex_opts)) = VOk v.
Proof. eexists _, _. split; [vm_compute; reflexivity|vm_compute; reflexivity]. Qed.
(** A model, a dataclass, a tuple, a left-to-right union, arguments and a tagged union. *)
Definition tm_tight : schema := SModel {| mo_cls := 7; mo_origin := None; mo_revalidate := RNever; mo_root := false; mo_custom_init := None; mo_post_init := None |}
  (SModelFields (xinfos ExtraForbid) [xfield (lit "p") true (STuple {| tn_strict := true; tn_variadic := Some 0; tn_min := Some 2; tn_max := Some 3; tn_fail_fast := true |} [SInt false (Some gt0)]);
    xfield (lit "u") true (SUnion UnionLeftToRight None [(SBool true, []); (SInt false (Some gt0), [])])] None None).
Definition tm_loose : schema := SModel {| mo_cls := 7; mo_origin := None; mo_revalidate := RNever; mo_root := false; mo_custom_init := None; mo_post_init := None |}
  (SModelFields (xinfos ExtraIgnore) [xfield (lit "p") false (STuple {| tn_strict := false; tn_variadic := Some 0; tn_min := Some 1; tn_max := None; tn_fail_fast := false |} [SInt false None]);
    xfield (lit "u") false (SUnion UnionLeftToRight None [(SBool true, []); (xint, []); (xstr, [])])] None None).
Example C90_model_looser : looser nowhere true tm_tight tm_loose.
Proof.
  apply L_model, L_model_fields; [| |constructor|constructor].
  - unfold fields_looser. cbn. split; [right; split; [reflexivity|now left]|]. now repeat split.
  - constructor; [|constructor; [|constructor]]; cbn; (split; [reflexivity|]); (split; [reflexivity|]).
    + apply L_tuple; [unfold tuple_looser; cbn; split; [easy|]; split; [reflexivity|]; split; [exists 2; split; [reflexivity|lia]|exact I]|].
      constructor; [|constructor]. apply L_int; [easy|now right].
    + apply (L_union nowhere true None None [(SBool true, [])] (SInt false (Some gt0)) xint [] [] [(xstr, [])]); [|apply L_int; [easy|now right]].
      constructor; [|constructor]. cbn. constructor; [exact I|]. cbn. contradiction.
Qed.
Definition tm_in : input := IPy (PDict [(PStr (lit "p"), PTuple [PInt 1; PInt 2]); (PStr (lit "u"), PStr (lit "4"))]).
Example C90_model_tight : exists v, fst (run ex_env (fun _ => None) 0 tm_tight tm_in (call_state ITPython ex_opts)) = VOk v /\ fst (run ex_env (fun _ => None) 0 tm_loose tm_in (call_state ITPython ex_opts)) = VOk v.
Proof. eexists. split; [vm_compute; reflexivity|vm_compute; reflexivity]. Qed.

(** ** Loosenings that are not covered, because they change results *)
Definition none_defs (k : nat) : option schema := None.
Definition changes (sc sc' : schema) (i : input) (o : call_opts) : Prop :=
  exists v r, fst (run ex_env none_defs 3 sc i (call_state ITPython o)) = VOk v /\ fst (run ex_env none_defs 3 sc' i (call_state ITPython o)) = r /\ r <> VOk v.
Ltac changed := eexists _, _; split; [vm_compute; reflexivity|]; split; [vm_compute; reflexivity|]; discriminate.
Definition gt5 : int_constraints := {| ic_multiple_of := None; ic_le := None; ic_lt := None; ic_ge := None; ic_gt := Some (I64 5) |}.
(** A member of a smart union may win once its bound is dropped. *)
Theorem C90_smart_member_refuted : exists others i, changes (SUnion UnionSmart None ((SInt false (Some gt5), []) :: others)) (SUnion UnionSmart None ((xint, []) :: others)) i ex_opts.
Proof. exists [(SBool false, [])], (IPy (PInt 1)). changed. Qed.
Print Assumptions C90_smart_member_refuted.
(** So may a new member of a smart union. *)
Theorem C90_smart_new_member_refuted : exists sc new i, changes (SUnion UnionSmart None [(sc, [])]) (SUnion UnionSmart None [(sc, []); (new, [])]) i ex_opts.
Proof. exists (SBool false), xint, (IPy (PInt 1)). changed. Qed.
Print Assumptions C90_smart_new_member_refuted.
(** In a left-to-right union an earlier member takes inputs from a later one. *)
Theorem C90_ltr_member_refuted : exists others i, changes (SUnion UnionLeftToRight None ((SInt false (Some gt5), []) :: others)) (SUnion UnionLeftToRight None ((xint, []) :: others)) i ex_opts.
Proof. exists [(xstr, [])], (IPy (PStr (lit "1"))). changed. Qed.
Print Assumptions C90_ltr_member_refuted.
(** That may even turn acceptance into refusal. *)
Theorem C90_now_refused_refuted : exists u u' sc i v e, u = SUnion UnionLeftToRight None [(SInt false (Some gt5), []); (xstr, [])] /\ u' = SUnion UnionLeftToRight None [(xint, []); (xstr, [])] /\
  fst (run ex_env none_defs 3 (SChain [u; sc]) i (call_state ITPython ex_opts)) = VOk v /\ fst (run ex_env none_defs 3 (SChain [u'; sc]) i (call_state ITPython ex_opts)) = VErr (LineErrors e).
Proof. eexists _, _, xstr, (IPy (PStr (lit "1"))), _, _. split; [reflexivity|]. split; [reflexivity|]. split; [vm_compute; reflexivity|vm_compute; reflexivity]. Qed.
Print Assumptions C90_now_refused_refuted.
(** With on_error="default" the refused value is used once it is no longer refused. *)
Theorem C90_on_error_refuted : exists d i, changes (SDefault (DValue d) OnDefault false (SInt false (Some gt5))) (SDefault (DValue d) OnDefault false xint) i ex_opts.
Proof. exists (PInt 9), (IPy (PInt 1)). changed. Qed.
Print Assumptions C90_on_error_refuted.
(** on_error="omit" drops items. *)
Theorem C90_omit_refuted : exists i, changes (SList xcoll (Some (SDefault DNone OnOmit false (SInt false (Some gt5))))) (SList xcoll (Some (SDefault DNone OnOmit false xint))) i ex_opts.
Proof. exists (IPy (PList [PInt 1])). changed. Qed.
Print Assumptions C90_omit_refuted.
(** A default for a field that is not required appears in the result. *)
Theorem C90_new_default_refuted : exists k i, changes (STypedDict (xinfos ExtraForbid) [xfield k false xint] None) (STypedDict (xinfos ExtraForbid) [xfield k false (SDefault (DValue (PInt 1)) OnRaise false xint)] None) i ex_opts.
Proof. exists (lit "a"), (IPy (PDict [])). changed. Qed.
Print Assumptions C90_new_default_refuted.
(** extra="allow" instead of "forbid" gives a model instance an (empty) extra dict. *)
Theorem C90_model_extra_refuted : exists i, changes (SModelFields (xinfos ExtraForbid) [xfield (lit "a") true xint] None None) (SModelFields (xinfos ExtraAllow) [xfield (lit "a") true xint] None None) i ex_opts.
Proof. exists (IPy (PDict [(PStr (lit "a"), PInt 1)])). changed. Qed.
Print Assumptions C90_model_extra_refuted.
(** extra="allow" instead of "ignore" keeps what was dropped. *)
Theorem C90_extra_ignore_refuted : exists i, changes (STypedDict (xinfos ExtraIgnore) [] None) (STypedDict (xinfos ExtraAllow) [] None) i ex_opts.
Proof. exists (IPy (PDict [(PStr (lit "a"), PInt 1)])). changed. Qed.
Print Assumptions C90_extra_ignore_refuted.
(** With allow_partial a refused last item is dropped. *)
Theorem C90_partial_refuted : exists o i, op_partial o = PartialOn /\ changes (SList xcoll (Some (SInt false (Some gt5)))) (SList xcoll (Some xint)) i o.
Proof.
  exists {| op_strict := None; op_from_attributes := None; op_by_alias := None; op_by_name := None; op_partial := PartialOn |}, (IPy (PList [PInt 7; PInt 1])).
  split; [reflexivity|]. changed.
Qed.
Print Assumptions C90_partial_refuted.
(** A wrap function may answer a refusal. *)
Theorem C90_wrap_refuted : exists f i, changes (SWrap f None (SInt false (Some gt5))) (SWrap f None xint) i ex_opts.
Proof. exists (fun v _ => WCall v None (fun r => match r with inl x => WReturn x | inr _ => WReturn PNone end)), (IPy (PInt 1)). changed. Qed.
Print Assumptions C90_wrap_refuted.
(** So does a function that raises PydanticUseDefault inside a default. *)
Theorem C90_use_default_refuted : exists f i, changes (SDefault (DValue PNone) OnRaise false (SWrap f None (SInt false (Some gt5)))) (SDefault (DValue PNone) OnRaise false (SWrap f None xint)) i ex_opts.
Proof. exists (fun v _ => WCall v None (fun r => match r with inl x => WReturn x | inr _ => WRaise XUseDefault end)), (IPy (PInt 1)). changed. Qed.
Print Assumptions C90_use_default_refuted.
(** fail_fast, a key named in error locations and the text of a custom error are free. *)
Example C90_free_settings : looser nowhere true (SCustomError (EOther 3) (SList {| co_strict := false; co_min := None; co_max := None; co_fail_fast := true |} None)) (SCustomError (EOther 4) (SList xcoll None)).
Proof. apply L_custom, L_list; [|constructor]. unfold coll_looser. cbn. split; [easy|]. split; exact I. Qed.

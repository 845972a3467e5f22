(** C28: what is accepted in strict mode is accepted in lax mode, with the same result. *)
From Coq Require Import List NArith ZArith Bool Lia.
From Verif Require Import Base Float64 IntParse Numbers BytesCodec Values VState LookupKey Collections Child Inputs Scalars Literal Wrappers Union TaggedUnion Tuple ModelFields TypedDict Assign Arguments Classes Interp InterpSpec InterpExamples StrictSpec StrictProofs StrictProofs6.
Import ListNotations.
Open Scope nat_scope.

(** C28: for every schema without unions (tagged ones excepted), wrap functions,
    lax-or-strict nodes and on_error other than "raise", every input and all options
    without allow_partial: if the call with strict=True returns [v], so does the call
    without. *)
Theorem C28_strict_implies_lax : forall E defs fuel sc t o i v,
  holds_of union_free defs sc -> op_partial o = PartialOff ->
  fst (run E defs fuel sc i (call_state t (made_strict o))) = VOk v ->
  fst (run E defs fuel sc i (call_state t o)) = VOk v.
Proof.
  intros E defs fuel sc t o i v [W D] P H.
  assert (K : R (call_state t (made_strict o)) (call_state t o)) by (split; cbn; auto).
  destruct (run_sub E defs D fuel sc W i _ _ K) as [e s r Q _|? ? ? []|a t1 t2 _]; cbn in *; congruence.
Qed.
Print Assumptions C28_strict_implies_lax.

(** C28: equivalently, what lax mode refuses strict mode refuses. *)
Theorem C28_lax_refusal : forall E defs fuel sc t o i e,
  holds_of union_free defs sc -> op_partial o = PartialOff ->
  fst (run E defs fuel sc i (call_state t o)) = VErr e ->
  exists e', fst (run E defs fuel sc i (call_state t (made_strict o))) = VErr e'.
Proof.
  intros E defs fuel sc t o i e W P H. destruct (fst (run E defs fuel sc i (call_state t (made_strict o)))) as [v|e'] eqn:S; [|now exists e'].
  apply (C28_strict_implies_lax _ _ _ _ _ _ _ _ W P) in S. congruence.
Qed.
Print Assumptions C28_lax_refusal.

(** ** Why the fragment is what it is *)
Definition no_defs (k : nat) : option schema := None.
Definition modes_differ (sc : schema) (i : input) (o : call_opts) : Prop :=
  exists v w, fst (run ex_env no_defs 5 sc i (call_state ITPython (made_strict o))) = VOk v /\
    fst (run ex_env no_defs 5 sc i (call_state ITPython o)) = VOk w /\ v <> w.

(** A left-to-right union: "1" is a string in strict mode and an integer in lax mode. *)
Theorem C28_union_refuted : exists l i, modes_differ (SUnion UnionLeftToRight None l) i ex_opts.
Proof.
  exists [(xint, lit "int"); (xstr, lit "str")], (IPy (PStr (lit "1"))). eexists _, _.
  split; [vm_compute; reflexivity|]. split; [vm_compute; reflexivity|]. discriminate.
Qed.
Print Assumptions C28_union_refuted.
(** A smart union of two typed dicts: {"a": "1", "b": 1} is exactly the second one, which
    ignores b, but in lax mode the first one has more fields set. *)
Theorem C28_smart_union_refuted : exists l i, modes_differ (SUnion UnionSmart None l) i ex_opts.
Proof.
  exists [(STypedDict (xinfos ExtraIgnore) [xfield (lit "a") true xint; xfield (lit "b") true xint] None, lit "x");
          (STypedDict (xinfos ExtraIgnore) [xfield (lit "a") true xstr] None, lit "y")],
    (IPy (PDict [(PStr (lit "a"), PStr (lit "1")); (PStr (lit "b"), PInt 1)])).
  eexists _, _. split; [vm_compute; reflexivity|]. split; [vm_compute; reflexivity|]. discriminate.
Qed.
Print Assumptions C28_smart_union_refuted.
(** on_error="default": strict mode falls back where lax mode converts. *)
Theorem C28_on_error_refuted : exists k i, modes_differ (SDefault k OnDefault false xint) i ex_opts.
Proof.
  exists (DValue (PInt 0)), (IPy (PStr (lit "1"))). eexists _, _.
  split; [vm_compute; reflexivity|]. split; [vm_compute; reflexivity|]. discriminate.
Qed.
Print Assumptions C28_on_error_refuted.
(** on_error="omit": strict mode leaves out what lax mode converts. *)
Theorem C28_omit_refuted : exists i, modes_differ (SList xcoll (Some (SDefault DNone OnOmit false xint))) i ex_opts.
Proof.
  exists (IPy (PList [PInt 1; PStr (lit "2")])). eexists _, _.
  split; [vm_compute; reflexivity|]. split; [vm_compute; reflexivity|]. discriminate.
Qed.
Print Assumptions C28_omit_refuted.
(** The two schemas of lax-or-strict need not agree. *)
Theorem C28_lax_or_strict_refuted : exists l t i, modes_differ (SLaxOrStrict false l t) i ex_opts.
Proof.
  exists xint, xstr, (IPy (PStr (lit "1"))). eexists _, _.
  split; [vm_compute; reflexivity|]. split; [vm_compute; reflexivity|]. discriminate.
Qed.
Print Assumptions C28_lax_or_strict_refuted.
(** A wrap function may catch the refusal. *)
Theorem C28_wrap_refuted : exists f i, modes_differ (SWrap f None xint) i ex_opts.
Proof.
  exists (fun v _ => WCall v None (fun r => match r with inl x => WReturn x | inr _ => WReturn v end)), (IPy (PStr (lit "1"))). eexists _, _.
  split; [vm_compute; reflexivity|]. split; [vm_compute; reflexivity|]. discriminate.
Qed.
Print Assumptions C28_wrap_refuted.
(** So may a function that answers a refusal with PydanticOmit. *)
Theorem C28_function_omit_refuted : exists f i, modes_differ (SList xcoll (Some (SWrap f None xint))) i ex_opts.
Proof.
  exists (fun v _ => WCall v None (fun r => match r with inl x => WReturn x | inr _ => WRaise XOmit end)), (IPy (PList [PStr (lit "1")])). eexists _, _.
  split; [vm_compute; reflexivity|]. split; [vm_compute; reflexivity|]. discriminate.
Qed.
Print Assumptions C28_function_omit_refuted.
(** With allow_partial the last item is dropped where it is refused. *)
Theorem C28_partial_refuted : exists o i, op_partial o = PartialOn /\ modes_differ (SList xcoll (Some xint)) i o.
Proof.
  exists {| op_strict := None; op_from_attributes := None; op_by_alias := None; op_by_name := None; op_partial := PartialOn |}, (IPy (PList [PInt 1; PStr (lit "2")])).
  split; [reflexivity|]. eexists _, _. split; [vm_compute; reflexivity|]. split; [vm_compute; reflexivity|]. discriminate.
Qed.
Print Assumptions C28_partial_refuted.

(** ** A recursive schema meets the hypotheses *)
(** A node has an integer, an optional note with a default, and child nodes. *)
Definition strict_node : schema :=
  STypedDict (xinfos ExtraForbid)
    [xfield (lit "value") true xint;
     xfield (lit "note") false (SDefault (DValue (PStr (lit "-"))) OnRaise false (SNullable xstr));
     xfield (lit "children") false (SDefault (DValue (PList [])) OnRaise false (SList xcoll (Some (SRef 0))))] None.
Definition strict_node_defs (k : nat) : option schema := match k with 0 => Some strict_node | _ => None end.
Ltac every := repeat (constructor; [cbn; auto|]; cbn; intros ?c ?C; repeat (destruct C as [<-|C]; [|]); try contradiction).
Example C28_node_fragment : holds_of union_free strict_node_defs (SRef 0).
Proof.
  assert (W : everywhere union_free strict_node) by every.
  split; [now every|]. intros [|k] d; cbn; [intros [= <-]; exact W|discriminate].
Qed.
Definition strict_tree (one : pyval) : pyval :=
  PDict [(PStr (lit "value"), one); (PStr (lit "children"), PList [PDict [(PStr (lit "value"), PInt 2); (PStr (lit "note"), PNone)]])].
Definition strict_out : pyval :=
  PDict [(PStr (lit "value"), PInt 1); (PStr (lit "note"), PStr (lit "-"));
         (PStr (lit "children"), PList [PDict [(PStr (lit "value"), PInt 2); (PStr (lit "note"), PNone); (PStr (lit "children"), PList [])]])].
(** Accepted in strict mode, hence in lax mode. *)
Example C28_node_strict : fst (run ex_env strict_node_defs 5 (SRef 0) (IPy (strict_tree (PInt 1))) (call_state ITPython (made_strict ex_opts))) = VOk strict_out.
Proof. vm_compute. reflexivity. Qed.
Example C28_node_lax : fst (run ex_env strict_node_defs 5 (SRef 0) (IPy (strict_tree (PInt 1))) (call_state ITPython ex_opts)) = VOk strict_out.
Proof. apply C28_strict_implies_lax; [apply C28_node_fragment|reflexivity|apply C28_node_strict]. Qed.
(** The converse is false: the string "1" is accepted in lax mode only. *)
Example C28_converse : exists e, fst (run ex_env strict_node_defs 5 (SRef 0) (IPy (strict_tree (PStr (lit "1")))) (call_state ITPython (made_strict ex_opts))) = VErr (LineErrors [e]) /\
  fst (run ex_env strict_node_defs 5 (SRef 0) (IPy (strict_tree (PStr (lit "1")))) (call_state ITPython ex_opts)) = VOk strict_out.
Proof. eexists. split; [vm_compute; reflexivity|vm_compute; reflexivity]. Qed.

(** C32: failing validations report an error, for whole schemas. *)
From Coq Require Import List NArith ZArith Bool Lia.
From Verif Require Import Base Float64 IntParse Numbers BytesCodec Values VState LookupKey Collections Child Inputs Scalars Literal Wrappers Union TaggedUnion Tuple ModelFields TypedDict Assign Arguments Classes Interp InterpSpec InterpExamples InterpProofs.
Import ListNotations.
Open Scope nat_scope.

(** C32: whatever the schema, the options and the input, a ValidationError has at least
    one line error, provided that user functions do not raise an empty ValidationError
    themselves. *)
Theorem C32_errors_not_empty : forall E defs fuel sc t o i errs s', holds_of proper defs sc ->
  run E defs fuel sc i (call_state t o) = (VErr (LineErrors errs), s') -> errs <> [].
Proof. intros E defs fuel sc t o i errs s' H R. pose proof (run_ne E defs fuel sc H i (call_state t o)) as N. now rewrite R in N. Qed.
Print Assumptions C32_errors_not_empty.
(** The same for a validator called in any state, and for a ValidationError that passes
    through as an exception. *)
Theorem C32_no_empty_exception : forall E defs fuel sc i s e s', holds_of proper defs sc ->
  run E defs fuel sc i s = (VErr e, s') -> e <> LineErrors [] /\ e <> InternalErr (XValidation []).
Proof.
  intros E defs fuel sc i s e s' H R. pose proof (run_ne E defs fuel sc H i s) as N. rewrite R in N. cbn in N.
  split; intros ->; now apply N.
Qed.
Print Assumptions C32_no_empty_exception.

(** Without the proviso the claim is false: a function validator that re-raises a
    ValidationError without line errors. *)
Theorem C32_empty_reraised_refuted : exists E defs fuel sc i o s',
  run E defs fuel sc i (call_state ITPython o) = (VErr (LineErrors []), s').
Proof.
  exists ex_env, tree_defs, 1, (SNullable (SBefore (fun _ _ => inr (XValidation [])) None xint)), (IPy (PInt 1)), ex_opts.
  eexists. reflexivity.
Qed.
Print Assumptions C32_empty_reraised_refuted.
(** Inside a list it is worse: the item is dropped and the validation succeeds. *)
Theorem C32_empty_item_dropped_refuted : exists E defs fuel sc i o s',
  run E defs fuel (SList xcoll (Some sc)) i (call_state ITPython o) = (VOk (PList [PInt 2]), s') /\
  i = IPy (PList [PInt 1; PInt 2]) /\ exists s'', run E defs fuel sc (IPy (PInt 1)) (call_state ITPython o) = (VErr (LineErrors []), s'').
Proof.
  exists ex_env, tree_defs, 1, (SBefore (fun v _ => match v with PInt 1 => inr (XValidation []) | _ => inl v end) None xint), (IPy (PList [PInt 1; PInt 2])), ex_opts.
  eexists. split; [vm_compute; reflexivity|]. split; [reflexivity|]. eexists. vm_compute. reflexivity.
Qed.
Print Assumptions C32_empty_item_dropped_refuted.

(** Non-vacuity: a recursive tree with two mistakes, one of them below a union. *)
Lemma tree_proper : holds_of proper tree_defs (SRef 0).
Proof.
  assert (T : everywhere proper tree).
  { constructor; [exact I|]. intros c [<-|[<-|[]]].
    - constructor; [discriminate|]. intros c [<-|[<-|[]]]; (constructor; [try exact I; discriminate|intros c []]).
    - constructor; [exact I|]. intros c [<-|[]]. constructor; [exact I|]. intros c [<-|[]]. constructor; [exact I|intros c []]. }
  split; [constructor; [exact I|intros c []]|]. intros [|k] d [= <-]. exact T.
Qed.
Example C32_ex : exists errs s', run ex_env tree_defs 5 (SRef 0) (IPy (node (PInt 1) [leaf (PStr (lit "x")); node PNone [PInt 5]])) (call_state ITPython ex_opts) =
    (VErr (LineErrors errs), s') /\
  map (fun e => (le_type e, loc_path (le_loc e))) errs =
    [(EIntType, [LStr (lit "children"); LInt 1; LStr (lit "value"); LStr (lit "int")]);
     (EStringType, [LStr (lit "children"); LInt 1; LStr (lit "value"); LStr (lit "str")]);
     (EDictType, [LStr (lit "children"); LInt 1; LStr (lit "children"); LInt 0])].
Proof. eexists. eexists. split; vm_compute; reflexivity. Qed.

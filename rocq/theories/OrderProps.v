(** C92: the order of the keys of the input does not matter. *)
From Coq Require Import List NArith ZArith Bool Permutation Lia.
From Verif Require Import Base Float64 IntParse Numbers BytesCodec Values VState LookupKey Collections Child Inputs Scalars Literal Wrappers Union TaggedUnion Tuple ModelFields TypedDict Assign Arguments Classes Interp InterpSpec InterpExamples OrderSpec OrderProofs OrderProofs6.
Import ListNotations.
Open Scope nat_scope.

(** C92: on two inputs that differ only in the order of dict items or of JSON object members,
    at any depth, validation (without allow_partial) gives the same value, or errors of the
    same types at the same locations, or the same exception; the exactness and the number of
    fields set (which decide in an enclosing smart union) are the same too. *)
Theorem C92_key_order : forall E defs fuel sc i i' s,
  holds_of order_blind defs sc -> reordered_input i i' -> st_partial s = PartialOff ->
  same_result (fst (run E defs fuel sc i s)) (fst (run E defs fuel sc i' s)) /\ snd (run E defs fuel sc i s) = snd (run E defs fuel sc i' s).
Proof.
  intros E defs fuel sc i i' s H I O. destruct (run_rel E defs fuel sc H i i' s I O) as [r r' t [a a' <-|e e' [l l' L|x]] T]; split; try reflexivity; cbn.
  - exact L.
  - now destruct x.
Qed.
Print Assumptions C92_key_order.

(** C92: the same for calls: what is accepted in one order is accepted in every order, with
    the very same value. *)
Theorem C92_accepted : forall E defs fuel sc i i' t o v,
  holds_of order_blind defs sc -> reordered_input i i' -> op_partial o = PartialOff ->
  fst (run E defs fuel sc i (call_state t o)) = VOk v <-> fst (run E defs fuel sc i' (call_state t o)) = VOk v.
Proof.
  intros E defs fuel sc i i' t o v H I O. destruct (C92_key_order E defs fuel sc i i' (call_state t o) H I O) as [S _].
  destruct (fst (run E defs fuel sc i _)) as [a|e], (fst (run E defs fuel sc i' _)) as [b|e']; cbn in S.
  - now subst.
  - contradiction.
  - now destruct e.
  - now split.
Qed.
Print Assumptions C92_accepted.
(** C92: what is refused in one order is refused in every order, for the same reasons at the
    same places, as many times. *)
Theorem C92_refused : forall E defs fuel sc i i' t o l,
  holds_of order_blind defs sc -> reordered_input i i' -> op_partial o = PartialOff ->
  fst (run E defs fuel sc i (call_state t o)) = VErr (LineErrors l) ->
  exists l', fst (run E defs fuel sc i' (call_state t o)) = VErr (LineErrors l') /\ length l = length l' /\
    forall e, In e l -> exists e', In e' l' /\ error_kind e = error_kind e'.
Proof.
  intros E defs fuel sc i i' t o l H I O X. destruct (C92_key_order E defs fuel sc i i' (call_state t o) H I O) as [S _]. rewrite X in S.
  destruct (fst (run E defs fuel sc i' _)) as [b|[l'| | | |]]; cbn in S; try contradiction; try discriminate S. exists l'. split; [reflexivity|]. split.
  - apply Permutation_length in S. now rewrite !map_length in S.
  - intros e Y. apply (in_map error_kind) in Y. apply (Permutation_in _ S) in Y. apply in_map_iff in Y. destruct Y as (e' & Q & Y). exists e'. now split.
Qed.
Print Assumptions C92_refused.

(** ** A recursive schema with a tagged union, a smart union and forbidden extras *)
Definition shape : schema := STagged (DLookup (Simple (path_from_str (lit "kind")))) false None
  [(PStr (lit "leaf"), STypedDict (xinfos ExtraForbid) [xfield (lit "kind") true (SLiteral [PStr (lit "leaf")]); xfield (lit "value") true (SUnion UnionSmart None [(xint, []); (xstr, [])])] None);
   (PStr (lit "node"), STypedDict (xinfos ExtraForbid) [xfield (lit "kind") true (SLiteral [PStr (lit "node")]); xfield (lit "left") true (SRef 0); xfield (lit "right") true (SRef 0)] None)].
Definition shape_defs (k : nat) : option schema := match k with 0 => Some shape | _ => None end.
Lemma shape_blind : everywhere order_blind shape.
Proof.
  constructor; [cbn; repeat constructor|]. cbn. intros c [<-|[<-|[]]]; (constructor; [cbn; discriminate|]); cbn.
  - intros c [<-|[<-|[]]]; [constructor; [cbn; repeat constructor|cbn; contradiction]|]. constructor; [exact I|]. cbn. intros c [<-|[<-|[]]]; (constructor; [exact I|cbn; contradiction]).
  - intros c [<-|[<-|[<-|[]]]]; [constructor; [cbn; repeat constructor|cbn; contradiction]|..]; (constructor; [exact I|cbn; contradiction]).
Qed.
Example C92_shape_blind : holds_of order_blind shape_defs (SRef 0).
Proof. split; [constructor; [exact I|cbn; contradiction]|]. intros [|k] d; cbn; [intros [= <-]; apply shape_blind|discriminate]. Qed.
Definition kv (k : str) (v : pyval) : pyval * pyval := (PStr k, v).
Definition leaf (v : pyval) : pyval := PDict [kv (lit "kind") (PStr (lit "leaf")); kv (lit "value") v].
Definition leaf' (v : pyval) : pyval := PDict [kv (lit "value") v; kv (lit "kind") (PStr (lit "leaf"))].
Definition tree (v w : pyval) : pyval := PDict [kv (lit "kind") (PStr (lit "node")); kv (lit "left") (leaf v); kv (lit "right") (leaf w)].
Definition tree' (v w : pyval) : pyval := PDict [kv (lit "right") (leaf' w); kv (lit "left") (leaf v); kv (lit "kind") (PStr (lit "node"))].
Lemma leaf_reordered v : reordered (leaf v) (leaf' v).
Proof.
  apply (RO_dict _ [kv (lit "value") v; kv (lit "kind") (PStr (lit "leaf"))]).
  - constructor; [eexists; reflexivity|constructor; [eexists; reflexivity|constructor]].
  - cbn. constructor; [intros [X|[]]; discriminate|constructor; [intros []|constructor]].
  - apply perm_swap.
  - constructor; [split; [reflexivity|constructor]|constructor; [split; [reflexivity|constructor]|constructor]].
Qed.
Lemma tree_reordered v w : reordered (tree v w) (tree' v w).
Proof.
  apply (RO_dict _ [kv (lit "right") (leaf w); kv (lit "left") (leaf v); kv (lit "kind") (PStr (lit "node"))]).
  - constructor; [eexists; reflexivity|constructor; [eexists; reflexivity|constructor; [eexists; reflexivity|constructor]]].
  - cbn. constructor; [intros [X|[X|[]]]; discriminate|constructor; [intros [X|[]]; discriminate|constructor; [intros []|constructor]]].
  - apply (Permutation_rev [_; _; _]).
  - constructor; [split; [reflexivity|apply leaf_reordered]|constructor; [split; [reflexivity|constructor]|constructor; [split; [reflexivity|constructor]|constructor]]].
Qed.
Definition order_run (sc : schema) (i : input) : vres pyval := fst (run ex_env shape_defs 5 sc i (call_state ITPython ex_opts)).
Example C92_tree : order_run (SRef 0) (IPy (tree (PInt 1) (PStr (lit "x")))) = VOk (tree (PInt 1) (PStr (lit "x"))) /\ order_run (SRef 0) (IPy (tree' (PInt 1) (PStr (lit "x")))) = VOk (tree (PInt 1) (PStr (lit "x"))).
Proof.
  assert (X : order_run (SRef 0) (IPy (tree (PInt 1) (PStr (lit "x")))) = VOk (tree (PInt 1) (PStr (lit "x")))) by (vm_compute; reflexivity).
  split; [exact X|]. unfold order_run in *.
  refine (proj1 (C92_accepted ex_env shape_defs 5 (SRef 0) (IPy (tree (PInt 1) (PStr (lit "x")))) (IPy (tree' (PInt 1) (PStr (lit "x")))) ITPython ex_opts _ C92_shape_blind _ eq_refl) X).
  apply RI_py, tree_reordered.
Qed.
(** Four errors (two for the smart union on each side). *)
Example C92_tree_refused : exists l, order_run (SRef 0) (IPy (tree PNone (PList []))) = VErr (LineErrors l) /\ length l = 4.
Proof. eexists. split; [vm_compute; reflexivity|reflexivity]. Qed.

(** ** Where the order shows *)
Definition two (k1 k2 : str) (v1 v2 : pyval) : pyval := PDict [kv k1 v1; kv k2 v2].
Lemma two_reordered k1 k2 v1 v2 : k1 <> k2 -> reordered (two k1 k2 v1 v2) (two k2 k1 v2 v1).
Proof.
  intros N. apply (RO_dict _ [kv k2 v2; kv k1 v1]).
  - constructor; [eexists; reflexivity|constructor; [eexists; reflexivity|constructor]].
  - cbn. constructor; [intros [X|[]]; now injection X as <-|constructor; [intros []|constructor]].
  - apply perm_swap.
  - constructor; [split; [reflexivity|constructor]|constructor; [split; [reflexivity|constructor]|constructor]].
Qed.
Definition shows_order (sc : schema) (o : call_opts) : Prop :=
  exists v v', reordered v v' /\ ~ same_result (fst (run ex_env shape_defs 5 sc (IPy v) (call_state ITPython o))) (fst (run ex_env shape_defs 5 sc (IPy v') (call_state ITPython o))).
Definition ab (v w : pyval) : pyval := two (lit "a") (lit "b") v w.
Definition ba (w v : pyval) : pyval := two (lit "b") (lit "a") w v.
Ltac shows := exists (ab (PInt 1) (PInt 2)), (ba (PInt 2) (PInt 1)); split; [apply two_reordered; discriminate|]; vm_compute; intros X; discriminate X.
(** Any, list without items schema, dict, extra="allow" and **kwargs keep the input's order in
    their result. *)
Theorem C92_any_refuted : shows_order SAny ex_opts.
Proof. shows. Qed.
Theorem C92_dict_refuted : shows_order (SDict xcoll xstr xint) ex_opts.
Proof. shows. Qed.
Theorem C92_extra_allow_refuted : shows_order (STypedDict (xinfos ExtraAllow) [] None) ex_opts.
Proof. shows. Qed.
Theorem C92_kwargs_refuted : shows_order (SArguments {| po_unpacked := false; po_extra := ExtraForbid; po_loc_by_alias := true; po_by_alias := None; po_by_name := None |} [] None (Some xint)) ex_opts.
Proof. shows. Qed.
Theorem C92_list_any_refuted : shows_order (SList xcoll None) ex_opts.
Proof. exists (PList [ab (PInt 1) (PInt 2)]), (PList [ba (PInt 2) (PInt 1)]). split; [apply RO_list; constructor; [apply two_reordered; discriminate|constructor]|]. vm_compute. intros X; discriminate X. Qed.
(** A function sees the order. *)
Definition first_key (v : pyval) (_ : info) : pyval + pyexc := match v with PDict ((k, _) :: _) => inl k | _ => inl PNone end.
Theorem C92_before_refuted : exists f, shows_order (SBefore f None xstr) ex_opts.
Proof. exists first_key. shows. Qed.
Theorem C92_discriminator_function_refuted : exists f choices, shows_order (STagged (DFunction f) false None choices) ex_opts.
Proof.
  exists (fun v => first_key v (info_of None (call_state ITPython ex_opts))), [(PStr (lit "a"), SNone)]. exists (ab (PInt 1) (PInt 2)), (ba (PInt 2) (PInt 1)).
  split; [apply two_reordered; discriminate|]. vm_compute. intros X. apply Permutation_length_1 in X. discriminate X.
Qed.
(** With allow_partial the errors of the last key are dropped. *)
Theorem C92_partial_refuted : exists o, op_partial o = PartialOn /\ shows_order (STypedDict (xinfos ExtraForbid) [xfield (lit "a") false xint; xfield (lit "b") false xint] None) o.
Proof.
  exists {| op_strict := None; op_from_attributes := None; op_by_alias := None; op_by_name := None; op_partial := PartialOn |}. split; [reflexivity|].
  exists (ab (PInt 1) (PStr (lit "x"))), (ba (PStr (lit "x")) (PInt 1)). split; [apply two_reordered; discriminate|]. vm_compute. easy.
Qed.
(** Of two members of a JSON object with the same name the last one counts. *)
Theorem C92_json_duplicates_refuted : exists sc l l', holds_of order_blind shape_defs sc /\ Permutation l l' /\
  ~ same_result (fst (run ex_env shape_defs 5 sc (IJson (JObj l)) (call_state ITJson ex_opts))) (fst (run ex_env shape_defs 5 sc (IJson (JObj l')) (call_state ITJson ex_opts))).
Proof.
  exists (STypedDict (xinfos ExtraForbid) [xfield (lit "a") true xint] None), [(lit "a", JInt 1); (lit "a", JInt 2)], [(lit "a", JInt 2); (lit "a", JInt 1)].
  split; [|split; [apply perm_swap|vm_compute; intros X; discriminate X]].
  split; [constructor; [cbn; discriminate|]; cbn; intros c [<-|[]]; (constructor; [exact I|cbn; contradiction])|apply C92_shape_blind].
Qed.
(** The errors themselves do come in the order of the keys. *)
Theorem C92_error_order_refuted : exists sc v v' l l', holds_of order_blind shape_defs sc /\ reordered v v' /\ order_run sc (IPy v) = VErr (LineErrors l) /\ order_run sc (IPy v') = VErr (LineErrors l') /\ map le_loc l <> map le_loc l'.
Proof.
  exists (STypedDict (xinfos ExtraForbid) [] None), (ab (PInt 1) (PInt 2)), (ba (PInt 2) (PInt 1)). eexists _, _.
  split; [split; [constructor; [cbn; discriminate|cbn; contradiction]|apply C92_shape_blind]|]. split; [apply two_reordered; discriminate|].
  split; [vm_compute; reflexivity|]. split; [vm_compute; reflexivity|]. vm_compute. discriminate.
Qed.
Print Assumptions C92_any_refuted. Print Assumptions C92_dict_refuted. Print Assumptions C92_extra_allow_refuted. Print Assumptions C92_kwargs_refuted. Print Assumptions C92_list_any_refuted.
Print Assumptions C92_before_refuted. Print Assumptions C92_discriminator_function_refuted. Print Assumptions C92_partial_refuted. Print Assumptions C92_json_duplicates_refuted. Print Assumptions C92_error_order_refuted.

(** C34: what a validation returns depends on its input and options only.
    C33: JSON documents are validated like the Python objects they denote. *)
From Coq Require Import List NArith ZArith Bool Lia.
From Verif Require Import Base Float64 IntParse Numbers BytesCodec Values VState LookupKey Collections Child Inputs Scalars Literal Wrappers Union TaggedUnion Tuple ModelFields TypedDict Assign Arguments Classes Interp InterpSpec InterpExamples RelSpec RelProofs RelProofs3 RelProofs4.
Import ListNotations.
Open Scope nat_scope.

(** ** C34 *)

(** Two states of the validation machinery that agree on the options of the call: they
    may differ in the exactness and the number of set fields left behind by whatever was
    validated before. *)
Definition same_options (s1 s2 : state) : Prop :=
  st_extra s1 = st_extra s2 /\ st_partial s1 = st_partial s2 /\ (st_exactness s1 = None <-> st_exactness s2 = None).

(** C34: whatever the schema and the input, the result (the value, or the line errors as
    the caller sees them) is the same in both states. *)
Theorem C34_leftovers_irrelevant : forall E defs fuel sc i s1 s2, same_options s1 s2 ->
  shown (fst (run E defs fuel sc i s1)) = shown (fst (run E defs fuel sc i s2)).
Proof.
  intros E defs fuel sc i s1 s2 (X & P & Q).
  assert (S : Rst true s1 s2). { split; [rewrite X; apply Rst_refl|exact P|]. destruct (st_exactness s1), (st_exactness s2); cbn; try reflexivity; exfalso; destruct Q as [Q1 Q2]; [discriminate (Q2 eq_refl)|discriminate (Q1 eq_refl)]. }
  destruct (run_same E defs fuel sc i i s1 s2 (Rin_eq _ _) S) as [r1 r2 t1 t2 R T]. now apply Rr_shown.
Qed.
Print Assumptions C34_leftovers_irrelevant.

(** A sequence of calls on one validator that does not even clear its bookkeeping: each
    call overwrites the options and starts without an exactness to track, the rest is
    left as it was. *)
Record call := { ca_type : input_type; ca_opts : call_opts; ca_input : input }.
Definition reuse (c : call) (s : state) : state :=
  {| st_exactness := None; st_fields_set := st_fields_set s; st_partial := op_partial (ca_opts c); st_extra := st_extra (call_state (ca_type c) (ca_opts c)) |}.
Fixpoint session (v : validator) (cs : list call) (s : state) : list (vres pyval) :=
  match cs with
  | [] => []
  | c :: cs' => let '(r, s') := v (ca_input c) (reuse c s) in shown r :: session v cs' s'
  end.
(** C34: the results of the calls are those of fresh calls, whatever came before. *)
Theorem C34_calls_independent : forall E defs fuel sc cs s,
  session (run E defs fuel sc) cs s =
  map (fun c => shown (fst (run E defs fuel sc (ca_input c) (call_state (ca_type c) (ca_opts c))))) cs.
Proof.
  intros E defs fuel sc cs. induction cs as [|c cs IH]; intros s; cbn [session map]; [reflexivity|].
  pose proof (C34_leftovers_irrelevant E defs fuel sc (ca_input c) (reuse c s) (call_state (ca_type c) (ca_opts c))) as H.
  destruct (run E defs fuel sc (ca_input c) (reuse c s)) as [r s']. cbn [fst] in H. rewrite H by (repeat split; reflexivity). f_equal. apply IH.
Qed.
Print Assumptions C34_calls_independent.

(** The condition on the exactness matters, and not only between calls: a smart union
    whose member is omitted forgets to restore it, so that the value of one field
    decides how a later field is validated. *)
Definition leaky : schema :=
  STypedDict (xinfos ExtraForbid)
    [xfield (lit "a") false (SUnion UnionSmart None [(SDefault DNone OnOmit false xint, lit "int"); (SNone, lit "none")]);
     xfield (lit "b") true (SLaxOrStrict false (SPlain (fun _ _ => inl (PStr (lit "lax"))) None) (SPlain (fun _ _ => inl (PStr (lit "strict"))) None))] None.
Definition leaky_input (a : pyval) : input := IPy (PDict [(PStr (lit "a"), a); (PStr (lit "b"), PNone)]).
Theorem C34_sibling_leak_refuted : exists E sc i1 i2 d1 d2,
  i1 = leaky_input (PInt 1) /\ i2 = leaky_input (PStr (lit "x")) /\
  fst (run E (fun _ => None) 0 sc i1 (call_state ITPython ex_opts)) = VOk (PDict d1) /\
  fst (run E (fun _ => None) 0 sc i2 (call_state ITPython ex_opts)) = VOk (PDict d2) /\
  dict_get (PStr (lit "b")) d1 = Some (PStr (lit "lax")) /\ dict_get (PStr (lit "b")) d2 = Some (PStr (lit "strict")).
Proof. exists ex_env, leaky, (leaky_input (PInt 1)), (leaky_input (PStr (lit "x"))). do 2 eexists. repeat split; vm_compute; reflexivity. Qed.
Print Assumptions C34_sibling_leak_refuted.

(** Non-vacuity: a tree with a union at the nodes, validated after another call has left
    a count behind. *)
Example C34_ex : same_options (reuse {| ca_type := ITPython; ca_opts := ex_opts; ca_input := IPy PNone |} (add_fields_set 7 (call_state ITPython strict_opts))) (call_state ITPython ex_opts) /\
  session (run ex_env tree_defs 5 (SRef 0))
    [{| ca_type := ITPython; ca_opts := ex_opts; ca_input := IPy (node (PInt 1) [leaf PNone]) |};
     {| ca_type := ITPython; ca_opts := ex_opts; ca_input := IPy (node (PInt 1) [leaf (PStr (lit "x"))]) |}] (add_fields_set 7 (call_state ITJson strict_opts)) =
  [VErr (LineErrors [{| le_type := EIntType; le_loc := LRev [LStr (lit "int"); LStr (lit "value"); LInt 0; LStr (lit "children")]; le_input := IPy PNone |};
                     {| le_type := EStringType; le_loc := LRev [LStr (lit "str"); LStr (lit "value"); LInt 0; LStr (lit "children")]; le_input := IPy PNone |}]);
   VOk (node (PInt 1) [node (PStr (lit "x")) []])].
Proof. split; [repeat split; reflexivity|vm_compute; reflexivity]. Qed.

(** ** C33 *)

(** A call in lax mode that does not ask for attributes. *)
Definition lax_call (o : call_opts) : Prop := op_strict o = Some false /\ op_from_attributes o <> Some true.

(** C33: for a schema of JSON types and a document with distinct keys and 64-bit
    integers, validating the document and validating the Python objects it denotes give
    the same value, or the same errors. *)
Theorem C33_json_agrees : forall E defs fuel sc j o, fuel <= guard_limit -> holds_of (json_native true) defs sc -> plain_json j -> lax_call o ->
  shown (fst (run E defs fuel sc (IJson j) (call_state ITJson o))) =
  shown (fst (run E defs fuel sc (IPy (json_to_py j)) (call_state ITPython o))).
Proof.
  intros E defs fuel sc j o L H P [A B].
  assert (S : Rst false (call_state ITJson o) (call_state ITPython o)) by (split; [split|..]; cbn; auto; discriminate).
  destruct (@run_docs exactly E defs fuel sc L H (IJson j) (IPy (json_to_py j)) _ _ (Rin_json Docs j (or_introl eq_refl) P) S) as [r1 r2 t1 t2 R T]. now apply Rr_shown.
Qed.
Print Assumptions C33_json_agrees.
(** Where attributes may be read (tagged unions do so unless told otherwise), something
    that is not a mapping is a model_attributes_type error in Python mode and a dict_type
    or model_type error in JSON mode.  Everything else is still the same. *)
Theorem C33_agrees_up_to_name : forall E defs fuel sc j o, fuel <= guard_limit -> holds_of (json_native false) defs sc -> plain_json j -> lax_call o ->
  with_one_name (shown (fst (run E defs fuel sc (IJson j) (call_state ITJson o)))) =
  with_one_name (shown (fst (run E defs fuel sc (IPy (json_to_py j)) (call_state ITPython o)))).
Proof.
  intros E defs fuel sc j o L H P [A B].
  assert (S : Rst false (call_state ITJson o) (call_state ITPython o)) by (split; [split|..]; cbn; auto; discriminate).
  destruct (@run_docs loosely E defs fuel sc L H (IJson j) (IPy (json_to_py j)) _ _ (Rin_json Docs j (or_introl eq_refl) P) S) as [r1 r2 t1 t2 R T]. now apply Rr_named.
Qed.
Print Assumptions C33_agrees_up_to_name.
(** In particular the values agree and success does. *)
Theorem C33_same_value : forall E defs fuel sc j o v names, fuel <= guard_limit -> holds_of (json_native names) defs sc -> plain_json j -> lax_call o ->
  fst (run E defs fuel sc (IJson j) (call_state ITJson o)) = VOk v <->
  fst (run E defs fuel sc (IPy (json_to_py j)) (call_state ITPython o)) = VOk v.
Proof.
  intros E defs fuel sc j o v names L H P O.
  assert (S : with_one_name (shown (fst (run E defs fuel sc (IJson j) (call_state ITJson o)))) = with_one_name (shown (fst (run E defs fuel sc (IPy (json_to_py j)) (call_state ITPython o))))).
  { destruct names; [f_equal; now apply C33_json_agrees|now apply C33_agrees_up_to_name]. }
  destruct (fst (run E defs fuel sc (IJson j) _)) as [a|[]], (fst (run E defs fuel sc (IPy _) _)) as [a'|[]]; cbn in S; try discriminate S; try (split; discriminate).
  injection S as ->. tauto.
Qed.
Print Assumptions C33_same_value.

(** Outside of that fragment the two differ.  Each theorem gives a schema, a document
    and the two results. *)
Definition lax_opts : call_opts := {| op_strict := Some false; op_from_attributes := None; op_by_alias := None; op_by_name := None; op_partial := PartialOff |}.
Definition on_json (E : env) (sc : schema) (j : json) : vres pyval := fst (run E (fun _ => None) 0 sc (IJson j) (call_state ITJson lax_opts)).
Definition on_python (E : env) (sc : schema) (j : json) : vres pyval := fst (run E (fun _ => None) 0 sc (IPy (json_to_py j)) (call_state ITPython lax_opts)).
Definition any_float : schema := SFloat false {| fc_allow_inf_nan := true; fc_multiple_of := None; fc_le := None; fc_lt := None; fc_ge := None; fc_gt := None |}.

(** An integer too large for a double is infinity in JSON, an error in Python. *)
Theorem C33_huge_int_refuted : exists E,
  on_json E any_float (JInt (10 ^ 400)) = VOk (PFloat (SpecFloat.S754_infinity false)) /\
  exists i, on_python E any_float (JInt (10 ^ 400)) = VErr (LineErrors [new_error EFloatType i]).
Proof. exists ex_env. split; [vm_compute; reflexivity|]. eexists. vm_compute. reflexivity. Qed.
Print Assumptions C33_huge_int_refuted.
(** A string in JSON is never an exact match, so a smart union goes on to a function. *)
Theorem C33_smart_union_refuted : exists E sc j,
  on_json E sc j = VOk (PInt 0) /\ on_python E sc j = VOk (PStr (lit "x")).
Proof. exists ex_env, (SUnion UnionSmart None [(xstr, lit "str"); (SPlain (fun _ _ => inl (PInt 0)) None, lit "f")]), (JStr (lit "x")). split; vm_compute; reflexivity. Qed.
Print Assumptions C33_smart_union_refuted.
(** Coercing numbers to strings: Rust and Python print floats differently. *)
Theorem C33_float_text_refuted : forall E sc f,
  sc = SStr {| sc_strict := false; sc_coerce_numbers := true; sc_strip := false; sc_min := None; sc_max := None; sc_pattern := None; sc_to_lower := false; sc_to_upper := false |} ->
  e_f64_to_string E f <> e_py_str E (PFloat f) -> on_json E sc (JFloat f) <> on_python E sc (JFloat f).
Proof. intros E sc f -> N H. apply N. vm_compute in H. now injection H. Qed.
Print Assumptions C33_float_text_refuted.
(** Dict keys: a literal bool matches the text of a bool in JSON only. *)
Theorem C33_bool_key_refuted : exists E sc j,
  on_json E sc j = VOk (PDict [(PBool true, PInt 1)]) /\ exists e, on_python E sc j = VErr (LineErrors [e]) /\ le_type e = ELiteralError.
Proof.
  exists ex_env, (SDict xcoll (SLiteral [PBool true]) xint), (JObj [(lit "true", JInt 1)]). split; [vm_compute; reflexivity|].
  eexists. split; [vm_compute; reflexivity|]. reflexivity.
Qed.
Print Assumptions C33_bool_key_refuted.
(** A key given twice: JSON validation looks at both values. *)
Theorem C33_duplicate_key_refuted : exists E sc j,
  on_python E sc j = VOk (PDict [(PStr (lit "a"), PInt 1)]) /\ exists e, on_json E sc j = VErr (LineErrors [e]).
Proof.
  exists ex_env, (SDict xcoll xstr xint), (JObj [(lit "a", JNull); (lit "a", JInt 1)]). split; [vm_compute; reflexivity|]. eexists. vm_compute. reflexivity.
Qed.
Print Assumptions C33_duplicate_key_refuted.
(** A list schema with contradictory limits reports one or the other. *)
Theorem C33_list_limits_refuted : exists E sc j e1 e2,
  on_json E sc j = VErr (LineErrors [e1]) /\ on_python E sc j = VErr (LineErrors [e2]) /\ le_type e1 <> le_type e2.
Proof.
  exists ex_env, (SList {| co_strict := false; co_min := Some 3; co_max := Some 1; co_fail_fast := false |} None), (JArr [JNull; JNull]).
  do 2 eexists. split; [vm_compute; reflexivity|]. split; [vm_compute; reflexivity|]. discriminate.
Qed.
Print Assumptions C33_list_limits_refuted.

(** A tagged union that may read attributes names the error differently. *)
Definition shapes : schema := STagged (DLookup (Simple (path_from_str (lit "kind")))) true None
  [(PStr (lit "a"), STypedDict (xinfos ExtraIgnore) [xfield (lit "x") true xint] None); (PStr (lit "b"), SRef 0)].
Theorem C33_tagged_name_refuted : exists E sc j e1 e2,
  on_json E sc j = VErr (LineErrors [e1]) /\ on_python E sc j = VErr (LineErrors [e2]) /\ le_type e1 = EDictType /\ le_type e2 = EModelAttributesType.
Proof. exists ex_env, shapes, (JInt 1). do 2 eexists. split; [vm_compute; reflexivity|]. split; [vm_compute; reflexivity|]. split; reflexivity. Qed.
Print Assumptions C33_tagged_name_refuted.
(** Non-vacuity of the agreement up to names: nested tagged unions. *)
Definition shape_defs (k : nat) : option schema := match k with
  | 0 => Some (STypedDict (xinfos ExtraIgnore) [xfield (lit "y") true (SList xcoll (Some (SRef 1)))] None)
  | 1 => Some shapes | _ => None end.
Definition shape_doc (j : json) : json := JObj [(lit "kind", JStr (lit "b")); (lit "y", JArr [JObj [(lit "x", JStr (lit "3")); (lit "kind", JStr (lit "a"))]; j])].
Example C33_up_to_name_ex : holds_of (json_native false) shape_defs (SRef 1) /\ lax_call lax_opts /\ plain_json (shape_doc (JInt 1)) /\
  (exists e1 e2, fst (run ex_env shape_defs 5 (SRef 1) (IJson (shape_doc (JInt 1))) (call_state ITJson lax_opts)) = VErr (LineErrors [e1]) /\
     fst (run ex_env shape_defs 5 (SRef 1) (IPy (json_to_py (shape_doc (JInt 1)))) (call_state ITPython lax_opts)) = VErr (LineErrors [e2]) /\ le_type e1 <> le_type e2) /\
  exists v, fst (run ex_env shape_defs 9 (SRef 1) (IJson (shape_doc (JObj [(lit "kind", JStr (lit "b")); (lit "y", JArr [])]))) (call_state ITJson lax_opts)) = VOk v.
Proof.
  assert (W : forall sc, json_native false sc -> (forall c, In c (children sc) -> everywhere (json_native false) c) -> everywhere (json_native false) sc) by (intros; now constructor).
  assert (T : everywhere (json_native false) shapes).
  { apply W; [split; [discriminate|intros k []]|]. intros c [<-|[<-|[]]]; (apply W; [split; [exact I|intros k []]|]); [|intros c []].
    intros c [<-|[]]. apply W; [split; [exact I|intros k []]|intros c []]. }
  split; [split; [apply W; [split; [exact I|intros k []]|intros c []]|]|].
  - intros [|[|k]] d [= <-]; [|exact T]. apply W; [split; [exact I|intros k []]|]. intros c [<-|[]]. apply W; [split; [exact I|intros k []]|].
    intros c [<-|[]]. apply W; [split; [exact I|intros k []]|intros c []].
  - split; [split; [reflexivity|discriminate]|]. split.
    + assert (N : forall A (x y : A), x <> y -> NoDup [x; y]) by (intros A x y D; constructor; [intros [H|[]]; now apply D|constructor; [intros []|constructor]]).
      constructor; [now apply N|]. constructor; [constructor|]. constructor; [|constructor]. cbn. constructor. constructor; [|constructor; [|constructor]].
      * constructor; [now apply N|]. repeat constructor.
      * constructor. reflexivity.
    + split; [do 2 eexists; split; [vm_compute; reflexivity|split; [vm_compute; reflexivity|discriminate]]|]. eexists. vm_compute. reflexivity.
Qed.

(** Non-vacuity: a recursive tree of labelled numbers. *)
Definition jtree : schema :=
  STypedDict (xinfos ExtraForbid)
    [xfield (lit "value") true (SUnion UnionLeftToRight None [(xint, lit "int"); (SNullable xstr, lit "str")]);
     xfield (lit "weights") false (SDefault (DValue PNone) OnRaise false (SDict xcoll (SLiteral [PStr (lit "w")]) any_float));
     xfield (lit "children") false (SDefault (DValue (PList [])) OnRaise false (SList xcoll (Some (SRef 0))))] None.
Definition jtree_defs (k : nat) : option schema := match k with 0 => Some jtree | _ => None end.
Definition jdoc (v : json) : json :=
  JObj [(lit "value", JStr (lit "7")); (lit "children", JArr [JObj [(lit "value", v); (lit "weights", JObj [(lit "w", JInt 1)])]])].
Lemma jtree_native : holds_of (json_native true) jtree_defs (SRef 0).
Proof.
  assert (LS : everywhere (native_key true) (SLiteral [PStr (lit "w")])) by (constructor; [split; [exact I|repeat constructor]|intros c []]).
  assert (T : everywhere (json_native true) jtree).
  { constructor; [split; [exact I|intros k []]|]. intros c [<-|[<-|[<-|[]]]].
    - constructor; [split; [exact I|intros k []]|]. intros c [<-|[<-|[]]]; (constructor; [split; [exact I|intros k []]|]); [intros c []|].
      intros c [<-|[]]. constructor; [split; [reflexivity|intros k []]|intros c []].
    - constructor; [split; [exact I|intros k []]|]. intros c [<-|[]]. constructor; [split; [exact I|intros k [<-|[]]; exact LS]|].
      intros c [<-|[<-|[]]]; (constructor; [split; [exact I|intros k []]|intros c []]).
    - constructor; [split; [exact I|intros k []]|]. intros c [<-|[]]. constructor; [split; [exact I|intros k []]|]. intros c [<-|[]]. constructor; [split; [exact I|intros k []]|intros c []]. }
  split; [constructor; [split; [exact I|intros k []]|intros c []]|]. intros [|k] d [= <-]. exact T.
Qed.
Example C33_ex : holds_of (json_native true) jtree_defs (SRef 0) /\ lax_call lax_opts /\ plain_json (jdoc JNull) /\
  (exists v, fst (run ex_env jtree_defs 5 (SRef 0) (IJson (jdoc JNull)) (call_state ITJson lax_opts)) = VOk v) /\
  (exists e1 e2, fst (run ex_env jtree_defs 5 (SRef 0) (IJson (jdoc (JBool true))) (call_state ITJson lax_opts)) = VOk e1 /\
     fst (run ex_env jtree_defs 5 (SRef 0) (IJson (jdoc (JArr []))) (call_state ITJson lax_opts)) = VErr e2).
Proof.
  split; [exact jtree_native|]. split; [split; [reflexivity|discriminate]|]. split.
  - assert (N : forall A (x y : A), x <> y -> NoDup [x; y]) by (intros A x y D; constructor; [intros [H|[]]; now apply D|constructor; [intros []|constructor]]).
    constructor; [now apply N|]. repeat constructor; cbn; intros H; repeat (destruct H as [H|H]; [discriminate H|]); exact H.
  - split; [eexists; vm_compute; reflexivity|]. do 2 eexists. split; vm_compute; reflexivity.
Qed.

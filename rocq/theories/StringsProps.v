(** C88: [validate_strings] treats strings like [validate_python] in lax mode does. *)
From Coq Require Import List NArith ZArith Bool Lia.
From Verif Require Import Base Float64 IntParse Numbers BytesCodec Values VState LookupKey Collections Child Inputs Scalars Literal Wrappers Union TaggedUnion Tuple ModelFields TypedDict Assign Arguments Classes Interp InterpSpec InterpExamples RelSpec RelProofs RelProofs3 RelProofs4 RelProps.
Import ListNotations.
Open Scope nat_scope.

(** validators/mod.rs:264-293 [validate_strings]: the argument must be a string or a dict;
    the call has no [from_attributes] option. *)
Definition validate_strings (E : env) (defs : nat -> option schema) (fuel : nat) (sc : schema) (v : pyval) (o : call_opts) : vres pyval :=
  match new_value v with
  | VOk i => fst (run E defs fuel sc i (call_state ITString o))
  | VErr e => VErr e
  end.
(** validators/mod.rs:160-190 [validate_python]. *)
Definition validate_python (E : env) (defs : nat -> option schema) (fuel : nat) (sc : schema) (v : pyval) (o : call_opts) : vres pyval :=
  fst (run E defs fuel sc (IPy v) (call_state ITPython o)).

(** C88: for strings and nested dicts of strings, the two calls give the same value or
    the same errors. *)
Theorem C88_strings_agree : forall E defs fuel sc v o, fuel <= guard_limit -> holds_of (strings_native true) defs sc -> plain_strings v -> lax_call o ->
  shown (validate_strings E defs fuel sc v o) = shown (validate_python E defs fuel sc v o).
Proof.
  intros E defs fuel sc v o L H P [A B]. unfold validate_strings, validate_python. rewrite (new_value_plain _ P).
  assert (S : Rst false (call_state ITString o) (call_state ITPython o)) by (split; [split|..]; cbn; auto; discriminate).
  destruct (@run_strings exactly E defs fuel sc L H (IStrings v) (IPy v) _ _ (Rin_strings Strs v eq_refl P) S) as [r1 r2 t1 t2 R T]. now apply Rr_shown.
Qed.
Print Assumptions C88_strings_agree.
(** Where attributes may be read: up to the name of the error for something that is not a
    mapping. *)
Theorem C88_agree_up_to_name : forall E defs fuel sc v o, fuel <= guard_limit -> holds_of (strings_native false) defs sc -> plain_strings v -> lax_call o ->
  with_one_name (shown (validate_strings E defs fuel sc v o)) = with_one_name (shown (validate_python E defs fuel sc v o)).
Proof.
  intros E defs fuel sc v o L H P [A B]. unfold validate_strings, validate_python. rewrite (new_value_plain _ P).
  assert (S : Rst false (call_state ITString o) (call_state ITPython o)) by (split; [split|..]; cbn; auto; discriminate).
  destruct (@run_strings loosely E defs fuel sc L H (IStrings v) (IPy v) _ _ (Rin_strings Strs v eq_refl P) S) as [r1 r2 t1 t2 R T]. now apply Rr_named.
Qed.
Print Assumptions C88_agree_up_to_name.
Theorem C88_same_value : forall E defs fuel sc v o w names, fuel <= guard_limit -> holds_of (strings_native names) defs sc -> plain_strings v -> lax_call o ->
  validate_strings E defs fuel sc v o = VOk w <-> validate_python E defs fuel sc v o = VOk w.
Proof.
  intros E defs fuel sc v o w names L H P O.
  assert (S : with_one_name (shown (validate_strings E defs fuel sc v o)) = with_one_name (shown (validate_python E defs fuel sc v o))).
  { destruct names; [f_equal; now apply C88_strings_agree|now apply C88_agree_up_to_name]. }
  destruct (validate_strings E defs fuel sc v o) as [a|[]], (validate_python E defs fuel sc v o) as [a'|[]]; cbn in S; try discriminate S; try (split; discriminate).
  injection S as ->. tauto.
Qed.
Print Assumptions C88_same_value.

(** With C33: the strings may as well come in a JSON document. *)
Theorem C88_json_agrees : forall E defs fuel sc j o, fuel <= guard_limit -> holds_of (strings_native true) defs sc -> holds_of (json_native true) defs sc ->
  plain_json j -> plain_strings (json_to_py j) -> lax_call o ->
  shown (validate_strings E defs fuel sc (json_to_py j) o) = shown (fst (run E defs fuel sc (IJson j) (call_state ITJson o))).
Proof. intros E defs fuel sc j o L H1 H2 J P O. rewrite (C88_strings_agree _ _ _ _ _ _ L H1 P O), (C33_json_agrees _ _ _ _ _ _ L H2 J O). reflexivity. Qed.
Print Assumptions C88_json_agrees.

(** Everything in the input has to be a string or a dict. *)
Fixpoint is_text (v : pyval) : bool := match v with PStr _ => true | PSub _ w => is_text w | _ => false end.
Fixpoint is_mapping (v : pyval) : bool := match v with PDict _ => true | PSub _ w => is_mapping w | _ => false end.
Theorem C88_only_strings : forall E defs fuel sc v o, is_text v = false -> is_mapping v = false ->
  validate_strings E defs fuel sc v o = VErr (LineErrors [{| le_type := EStringType; le_loc := LEmpty; le_input := IPy v |}]).
Proof.
  intros E defs fuel sc v o T M. unfold validate_strings, new_value.
  assert (A : as_str v = None) by (induction v; cbn in *; auto; discriminate).
  assert (B : dict_items v = None) by (clear A T; induction v; cbn in *; auto; discriminate).
  rewrite A, B. reflexivity.
Qed.
Print Assumptions C88_only_strings.

(** At any place of a dict that is read as a dict of strings as well: one key that is no
    string, or one value that is neither a string nor a dict, and the call fails. *)
Lemma bad_entry_fails kv vv p : forall items out errors s n b e, In (n, b, BadEntry e) items ->
  exists e', fst (fst (dict_loop kv vv p out errors items s)) = VErr e'.
Proof.
  induction items as [|[[n0 b0] en] items IH]; intros out errors s n b e I; [destruct I|]. cbn [dict_loop].
  destruct en as [k kl v|e0]; [|eexists; reflexivity].
  assert (J : In (n, b, BadEntry e) items) by (destruct I as [I|I]; [discriminate I|exact I]). clear I.
  assert (W : forall ok errs st, exists e', fst (fst
     (match vv v (set_partial (if b0 then p else PartialOff) st) with
      | (VOk w, s') => match ok with
                       | Some k0 => match Collections.set_item k0 w out with VOk o' => dict_loop kv vv p o' errs items s' | VErr e1 => (VErr e1, errs, s') end
                       | None => dict_loop kv vv p out errs items s' end
      | (VErr (LineErrors es), s') => dict_loop kv vv p out (if b0 then errs else errs ++ map (with_outer kl) es) items s'
      | (VErr Omit, s') => dict_loop kv vv p out errs items s'
      | (VErr e1, s') => (VErr e1, errs, s')
      end)) = VErr e').
  { intros ok errs st. destruct (vv v _) as [[w|[es|x| | |]] s']; try (eexists; reflexivity); try (eapply IH; exact J).
    destruct ok as [k0|]; [|eapply IH; exact J]. destruct (Collections.set_item k0 w out); [eapply IH; exact J|eexists; reflexivity]. }
  destruct (kv k _) as [[w|[es|x| | |]] s']; try (eexists; reflexivity); try (eapply IH; exact J).
  - exact (W (Some w) errors s').
  - exact (W None _ s').
Qed.
Lemma enumerate_in A (l : list A) b a : forall n, In a l -> exists m c, In (m, c, a) (enumerate_from b n l).
Proof.
  induction l as [|x l IH]; intros n I; [destruct I|]. cbn [enumerate_from]. destruct I as [->|I]; [eexists _, _; left; reflexivity|].
  destruct (IH (S n) I) as (m & c & J). exists m, c. right. exact J.
Qed.
Theorem C88_dict_only_strings : forall E defs fuel c ks vs d k v o, In (k, v) d -> is_text k = false \/ (is_text v = false /\ is_mapping v = false) ->
  exists e, validate_strings E defs fuel (SDict c ks vs) (PDict d) o = VErr e.
Proof.
  intros E defs fuel c ks vs d k v o I B. unfold validate_strings. change (new_value (PDict d)) with (VOk (IStrings (PDict d))).
  assert (X : exists e, In (BadEntry e) (map (fun kv => match new_key (fst kv), new_value (snd kv) with
                                    | VOk k, VOk v => Entry k (strings_loc (e_repr E) (fst kv)) v
                                    | VErr e, _ => BadEntry e
                                    | _, VErr e => BadEntry e
                                    end) d)).
  { assert (T : forall w, is_text w = false -> as_str w = None) by (intros w; induction w; cbn; auto; discriminate).
    assert (M : forall w, is_mapping w = false -> dict_items w = None) by (intros w; induction w; cbn; auto; discriminate).
    destruct (new_key k) as [k'|e] eqn:Ek.
    - destruct B as [B|[B1 B2]]; [unfold new_key in Ek; rewrite (T _ B) in Ek; discriminate Ek|].
      assert (Ev : new_value v = val_err EStringType (IPy v)) by (unfold new_value; rewrite (T _ B1), (M _ B2); reflexivity).
      eexists. apply in_map_iff. exists (k, v). cbn [fst snd]. rewrite Ek, Ev. split; [reflexivity|exact I].
    - exists e. apply in_map_iff. exists (k, v). cbn [fst snd]. rewrite Ek. split; [reflexivity|exact I]. }
  destruct X as [e X]. destruct (enumerate_in _ _ (is_active (st_partial (call_state ITString o))) _ 0 X) as (m & b & Y).
  destruct (bad_entry_fails (cv_validate (eval E (refs E defs fuel 0) ks)) (cv_validate (eval E (refs E defs fuel 0) vs)) (st_partial (call_state ITString o)) _ [] []
              (call_state ITString o) m b e Y) as [e' Z].
  exists e'. change (fst (run E defs fuel (SDict c ks vs) (IStrings (PDict d)) (call_state ITString o))) with
    (fst (match dict_loop (cv_validate (eval E (refs E defs fuel 0) ks)) (cv_validate (eval E (refs E defs fuel 0) vs)) (st_partial (call_state ITString o)) [] []
            (enumerate_from (is_active (st_partial (call_state ITString o))) 0
               (map (fun kv => match new_key (fst kv), new_value (snd kv) with
                               | VOk k, VOk v => Entry k (strings_loc (e_repr E) (fst kv)) v
                               | VErr e, _ => BadEntry e
                               | _, VErr e => BadEntry e
                               end) d)) (call_state ITString o) with
          | (VErr e, _, s') => (VErr e, s')
          | (VOk output, errors, s') =>
              if is_nil errors then
                match min_check CDict (IStrings (PDict d)) (co_min c) (length output) with
                | Some e => (VErr e, s')
                | None =>
                    match max_check_err CDict (IStrings (PDict d)) (co_max c) (length output) with
                    | Some e => (VErr e, s')
                    | None => (VOk (PDict output), s')
                    end
                end
              else (VErr (LineErrors errors), s')
          end)).
  destruct (dict_loop _ _ _ _ _ _ _) as [[r er] s']. cbn [fst] in Z. subst r. reflexivity.
Qed.
Print Assumptions C88_dict_only_strings.
Example C88_dict_only_strings_hyps : In (PStr (lit "a"), PDict [(PStr (lit "b"), PStr (lit "1"))]) [(PStr (lit "a"), PDict [(PStr (lit "b"), PStr (lit "1"))]); (PStr (lit "c"), PInt 1)] /\
  In (PStr (lit "c"), PInt 1) [(PStr (lit "a"), PDict [(PStr (lit "b"), PStr (lit "1"))]); (PStr (lit "c"), PInt 1)] /\ is_text (PInt 1) = false /\ is_mapping (PInt 1) = false.
Proof. repeat split; cbn; auto. Qed.

(** Outside of that fragment the two calls differ. *)
Definition on_strings (E : env) (sc : schema) (v : pyval) : vres pyval := validate_strings E (fun _ => None) 0 sc v lax_opts.
Definition on_python_v (E : env) (sc : schema) (v : pyval) : vres pyval := validate_python E (fun _ => None) 0 sc v lax_opts.
Definition xmodel (init : option (pydict -> pyval + pyexc)) : schema :=
  SModel {| mo_cls := 5; mo_origin := None; mo_revalidate := RNever; mo_root := false; mo_custom_init := init; mo_post_init := None |}
    (SModelFields (xinfos ExtraIgnore) [xfield (lit "a") true xint] None None).
(** A model's own [__init__] is not called. *)
Theorem C88_custom_init_refuted : exists E sc v attrs,
  sc = xmodel (Some (fun _ => inl (PStr (lit "made by __init__")))) /\
  on_python_v E sc v = VOk (PStr (lit "made by __init__")) /\ on_strings E sc v = VOk (PObj 5 attrs).
Proof. exists ex_env. do 2 eexists. exists [(lit "__dict__", PDict [(PStr (lit "a"), PInt 1)]); (lit "__pydantic_extra__", PNone); (lit "__pydantic_fields_set__", PSet [PStr (lit "a")])].
  split; [reflexivity|]. instantiate (1 := PDict [(PStr (lit "a"), PStr (lit "1"))]). split; vm_compute; reflexivity. Qed.
Print Assumptions C88_custom_init_refuted.
(** A literal bool is matched by its text, a literal int is not. *)
Theorem C88_literal_bool_refuted : exists E, on_strings E (SLiteral [PBool true]) (PStr (lit "yes")) = VOk (PBool true) /\
  (exists e, on_python_v E (SLiteral [PBool true]) (PStr (lit "yes")) = VErr e) /\
  exists e, on_strings E (SLiteral [PInt 1]) (PStr (lit "1")) = VErr e.
Proof. exists ex_env. split; [vm_compute; reflexivity|]. split; eexists; vm_compute; reflexivity. Qed.
Print Assumptions C88_literal_bool_refuted.
(** In a smart union, every successful parse is as good as a string. *)
Theorem C88_smart_union_refuted : exists E sc v, on_strings E sc v = VOk (PInt 1) /\ on_python_v E sc v = VOk (PStr (lit "1")).
Proof. exists ex_env, (SUnion UnionSmart None [(xint, lit "int"); (xstr, lit "str")]), (PStr (lit "1")). split; vm_compute; reflexivity. Qed.
Print Assumptions C88_smart_union_refuted.
(** Strict mode does not stop strings from being parsed. *)
Theorem C88_strict_refuted : exists E v o, op_strict o = Some true /\ validate_strings E (fun _ => None) 0 xint v o = VOk (PInt 1) /\
  exists e, validate_python E (fun _ => None) 0 xint v o = VErr e.
Proof. exists ex_env, (PStr (lit "1")), strict_opts. split; [reflexivity|]. split; [vm_compute; reflexivity|]. eexists. vm_compute. reflexivity. Qed.
Print Assumptions C88_strict_refuted.
(** json_or_python takes the JSON branch. *)
Theorem C88_json_branch_refuted : exists E sc v, on_strings E sc v = VOk (PInt 1) /\ on_python_v E sc v = VOk (PStr (lit "1")).
Proof. exists ex_env, (SJsonOrPython xint xstr), (PStr (lit "1")). split; vm_compute; reflexivity. Qed.
Print Assumptions C88_json_branch_refuted.
(** Arguments are never accepted. *)
Theorem C88_arguments_refuted : exists E sc v w,
  on_python_v E sc v = VOk w /\ exists e, on_strings E sc v = VErr (LineErrors [e]) /\ le_type e = EArgumentsType.
Proof.
  exists ex_env, (SArguments {| po_unpacked := false; po_extra := ExtraForbid; po_loc_by_alias := true; po_by_alias := None; po_by_name := None |}
       [({| pi_name := lit "a"; pi_mode := PosOrKw; pi_keys := xkeys (lit "a") |}, xint)] None None), (PDict [(PStr (lit "a"), PStr (lit "1"))]).
  eexists. split; [vm_compute; reflexivity|]. eexists. split; [vm_compute; reflexivity|]. reflexivity.
Qed.
Print Assumptions C88_arguments_refuted.
(** A string for the arguments of a dataclass: "arguments expected" instead of "dataclass
    expected". *)
Theorem C88_dataclass_error_refuted : exists E sc v e1 e2,
  on_python_v E sc v = VErr (LineErrors [e1]) /\ on_strings E sc v = VErr (LineErrors [e2]) /\ le_type e1 = EDataclassType /\ le_type e2 = EArgumentsType.
Proof.
  exists ex_env, (SDataclassArgs {| do_collect := false; do_extra := ExtraIgnore; do_loc_by_alias := true; do_by_alias := None; do_by_name := None |} [] None), (PStr (lit "x")).
  do 2 eexists. split; [vm_compute; reflexivity|]. split; [vm_compute; reflexivity|]. split; reflexivity.
Qed.
Print Assumptions C88_dataclass_error_refuted.

(** Non-vacuity: a recursive schema of labelled numbers. *)
Definition stree : schema :=
  STypedDict (xinfos ExtraForbid)
    [xfield (lit "value") true (SUnion UnionLeftToRight None [(xint, lit "int"); (SLiteral [PStr (lit "x")], lit "x")]);
     xfield (lit "model") false (SDefault (DValue PNone) OnRaise false (xmodel None));
     xfield (lit "counts") false (SDefault (DValue PNone) OnRaise false (SDict xcoll xint (SBool true)));
     xfield (lit "child") false (SDefault (DValue PNone) OnRaise false (SRef 0))] None.
Definition stree_defs (k : nat) : option schema := match k with 0 => Some stree | _ => None end.
Definition sdoc (v : str) : pyval :=
  PDict [(PStr (lit "value"), PStr (lit "7"));
         (PStr (lit "child"), PDict [(PStr (lit "value"), PStr v); (PStr (lit "counts"), PDict [(PStr (lit "3"), PStr (lit "on"))]); (PStr (lit "model"), PDict [(PStr (lit "a"), PStr (lit " 5"))])])].
Lemma stree_native : holds_of (strings_native true) stree_defs (SRef 0).
Proof.
  assert (W : forall sc, strings_native true sc -> (forall c, In c (children sc) -> everywhere (strings_native true) c) -> everywhere (strings_native true) sc) by (intros; now constructor).
  assert (T : everywhere (strings_native true) stree).
  { apply W; [exact I|]. intros c [<-|[<-|[<-|[<-|[]]]]].
    - apply W; [exact I|]. intros c [<-|[<-|[]]]; (apply W; [|intros c []]); [exact I|]. constructor; [reflexivity|constructor].
    - apply W; [exact I|]. intros c [<-|[]]. apply W; [exact (eq_refl _)|]. intros c [<-|[]]. apply W; [intros _; exact (eq_refl _)|]. intros c [<-|[]]. apply W; [exact I|intros c []].
    - apply W; [exact I|]. intros c [<-|[]]. apply W; [exact I|]. intros c [<-|[<-|[]]]; (apply W; [exact I|intros c []]).
    - apply W; [exact I|]. intros c [<-|[]]. apply W; [exact I|intros c []]. }
  split; [apply W; [exact I|intros c []]|]. intros [|k] d [= <-]. exact T.
Qed.
Lemma sdoc_plain v : plain_strings (sdoc v).
Proof. unfold sdoc. repeat (constructor; cbn [fst snd]; eauto). Qed.
Example C88_ex : holds_of (strings_native true) stree_defs (SRef 0) /\ lax_call lax_opts /\ plain_strings (sdoc (lit "x")) /\
  (exists d, validate_strings ex_env stree_defs 5 (SRef 0) (sdoc (lit "x")) lax_opts = VOk (PDict d) /\ dict_get (PStr (lit "value")) d = Some (PInt 7)) /\
  exists e1 e2, shown (validate_strings ex_env stree_defs 5 (SRef 0) (sdoc (lit "y")) lax_opts) = VErr (LineErrors [e1; e2]) /\ le_input e1 = IPy (PStr (lit "y")).
Proof.
  split; [exact stree_native|]. split; [split; [reflexivity|discriminate]|]. split; [apply sdoc_plain|]. split.
  - eexists. split; [vm_compute; reflexivity|]. vm_compute. reflexivity.
  - do 2 eexists. split; [vm_compute; reflexivity|]. reflexivity.
Qed.

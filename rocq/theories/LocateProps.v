(** C31: the location of an error leads to the input it shows. *)
From Coq Require Import List NArith ZArith Bool Lia.
From Verif Require Import Base Float64 IntParse Numbers BytesCodec Values VState LookupKey Collections Child Inputs Scalars Literal Wrappers Union TaggedUnion Tuple ModelFields TypedDict Assign Arguments Classes Interp InterpSpec InterpExamples StableSpec LocateSpec LocateProofs6.
Import ListNotations.
Open Scope nat_scope.

(** C31: for every schema of the fragment [locatable] (with its definitions), every
    Python or JSON input and all options: each error of a failed call has a location
    that, followed from the top of the input, leads to the part of the input that the
    error shows, or to something missing from it ([located]). *)
Theorem C31_errors_point_into_the_input : forall E label defs fuel sc t o i l,
  holds_of (locatable E label) defs sc -> python_or_json i ->
  fst (run E defs fuel sc i (call_state t o)) = VErr (LineErrors l) ->
  Forall (located E label i) l.
Proof.
  intros E label defs fuel sc t o i l [W D] P H. pose proof (run_tracks E label defs D fuel sc W i (call_state t o) P) as Q. rewrite H in Q. exact Q.
Qed.
Print Assumptions C31_errors_point_into_the_input.

(** ** JSON input without unions: plain indexing *)

(** Following a location in a JSON value: numbers are positions in arrays, strings are
    keys of objects. *)
Inductive json_leads : json -> list loc_item -> json -> Prop :=
| jl_here j : json_leads j [] j
| jl_index l n x p y : nth_error l n = Some x -> json_leads x p y -> json_leads (JArr l) (LInt (Z.of_nat n) :: p) y
| jl_back l n x p y : nth_error l n = Some x -> json_leads x p y -> json_leads (JArr l) (LInt (Z.of_nat n - Z.of_nat (length l)) :: p) y
| jl_key l k x p y : In (k, x) l -> json_leads x p y -> json_leads (JObj l) (LStr k :: p) y.
(** The value at a path, the last one of a repeated key. *)
Definition index_of {A} (l : list A) (z : Z) : option A :=
  if (0 <=? z)%Z then nth_error l (Z.to_nat z) else if (0 <=? z + Z.of_nat (length l))%Z then nth_error l (Z.to_nat (z + Z.of_nat (length l))) else None.
Fixpoint json_at (j : json) (p : list loc_item) : option json :=
  match p with
  | [] => Some j
  | l :: p' =>
      match match j, l with JArr xs, LInt z => index_of xs z | JObj es, LStr k => assoc k (rev es) | _, _ => None end with
      | Some x => json_at x p'
      | None => None
      end
  end.
(** What the location of an error of a JSON value reaches: the value shown; the array or
    object shown, then something it does not have; the entry whose key is shown. *)
Inductive json_located (j : json) (e : line_error) : Prop :=
| jloc_here x : json_leads j (loc_path (le_loc e)) x -> input_object (le_input e) = json_to_py x -> json_located j e
| jloc_missing p x q : loc_path (le_loc e) = p ++ q -> q <> [] -> json_leads j p x -> input_object (le_input e) = json_to_py x ->
    json_at x q = None -> json_located j e
| jloc_key p l k r x : loc_path (le_loc e) = p ++ LStr k :: r -> (r = [] \/ r = [key_marker]) -> json_leads j p (JObj l) -> In (k, x) l -> input_object (le_input e) = PStr k -> json_located j e.

Definition no_labels (l : loc_item) : Prop := False.
Lemma last_in k l (x : json) : json_last k l = Some x -> In (k, x) l.
Proof. unfold json_last. intros H. apply in_rev. revert H. induction (rev l) as [|[n y] r IH]; [discriminate|]. cbn. destruct (str_eqb k n) eqn:Q; [intros [= ->]; apply str_eqb_eq in Q; subst; now left|right; auto]. Qed.
Lemma at_subs p : forall j y, json_at j p = Some y -> subscripts (IJson j) p (IJson y).
Proof.
  induction p as [|l p IH]; intros j y H; [injection H as <-; constructor|]. cbn [json_at] in H.
  destruct j as [| | | | |xs|es]; try (destruct l; discriminate H); destruct l as [k|z]; try discriminate H.
  - destruct (index_of xs z) as [x|] eqn:X; [|discriminate]. econstructor; [|exact (IH _ _ H)]. apply sub_array. unfold index_of in X.
    destruct (0 <=? z)%Z eqn:Z1; [exists (Z.to_nat z); split; [exact X|left; lia]|]. destruct (0 <=? z + _)%Z eqn:Z2; [|discriminate]. exists (Z.to_nat (z + Z.of_nat (length xs))). split; [exact X|right; lia].
  - destruct (assoc k (rev es)) as [x|] eqn:X; [|discriminate]. econstructor; [|exact (IH _ _ H)]. now apply sub_object.
Qed.
Lemma leads_json E i p x : leads E no_labels i p x -> forall j, i = IJson j ->
  (exists y, json_leads j p y /\ x = IJson y) \/
  (exists q l k r v, p = q ++ LStr k :: r /\ r = [key_marker] /\ json_leads j q (JObj l) /\ In (k, v) l /\ x = IKey k).
Proof.
  intros H. induction H as [i|i l j p x S H IH|i l p x []|i l k p x K H IH]; intros j0 ->.
  - left. exists j0. split; [constructor|reflexivity].
  - assert (J : exists y, j = IJson y /\ forall q z, json_leads y q z -> json_leads j0 (l :: q) z).
    { inversion S as [i0 l0 x0 U| | l1 k1 x1 U| | | | | | |]; subst.
      - inversion U as [| | | |l1 z y A|l1 k y A]; subst.
        + exists y. split; [reflexivity|]. intros q w Q. destruct A as (n & N & [->| ->]); [eapply jl_index|eapply jl_back]; eauto.
        + exists y. split; [reflexivity|]. intros q w Q. eapply jl_key; [|exact Q]. exact (last_in _ _ _ A).
      - exists x1. split; [reflexivity|]. intros q w Q. eapply jl_key; eauto. }
    destruct J as (y & -> & J). destruct (IH _ eq_refl) as [(z & Z1 & Z2)|(q & l1 & k & r & v & -> & R & Q & I1 & I2)].
    + left. exists z. split; [now apply J|exact Z2].
    + right. exists (l :: q), l1, k, r, v. repeat split; auto.
  - inversion K as [| |l1 k1 x1 U]; subst. right. assert (HP : p = [] /\ x = IKey k1).
    { clear - H. inversion H as [|? ? ? ? ? S _|? ? ? ? []|? ? ? ? ? S _]; subst; [now split| |]; inversion S; subst; match goal with Q : subscript _ _ _ |- _ => inversion Q end. }
    destruct HP as [-> ->]. exists [], l1, k1, [key_marker], x1. repeat split; auto. constructor.
Qed.

Lemma located_json E j e : located E no_labels (IJson j) e -> json_located j e.
Proof.
  intros L. destruct L as [x L S|p x k r M P L S A|p x n M P L S A|p q x ob r w k y M P Q L O S A G|p x k key M P L K S].
  - destruct (leads_json _ _ _ _ L _ eq_refl) as [(y & Y & ->)|(q & es & k & r & v & P & R & Q & V & ->)]; [eapply jloc_here; eauto|]. eapply jloc_key; eauto.
  - destruct (leads_json _ _ _ _ L _ eq_refl) as [(y & Y & ->)|(q & es & k' & r' & v & -> & -> & Q & V & ->)].
    + eapply jloc_missing; [exact P|discriminate|exact Y|exact S|]. destruct A as [_ A|[o' [_ [[O _]|[kw [O _]]]]] _]; [|discriminate|discriminate].
      destruct (json_at y (k :: r)) eqn:J; [|reflexivity]. destruct A. apply at_subs in J. inversion J; subst. eapply data_sub; eauto.
    + exfalso. destruct A as [A _|[o' [_ [[O _]|[kw [O _]]]]] _]; [exact A|discriminate|discriminate].
  - destruct A as [(v & d & -> & A)|A]; [exfalso; destruct (leads_json _ _ _ _ L _ eq_refl) as [(y & _ & Y)|(q & es & k' & r' & w & _ & _ & _ & _ & Y)]; discriminate Y|].
    destruct (leads_json _ _ _ _ L _ eq_refl) as [(y & Y & ->)|(q & es & k' & r' & v & -> & -> & Q & V & ->)].
    + eapply jloc_missing; [exact P|discriminate|exact Y|exact S|]. destruct A as [_ A|[o' [_ [[O _]|[kw [O _]]]]] _]; [|discriminate|discriminate].
      destruct (json_at y _) eqn:J; [|reflexivity]. destruct A. apply at_subs in J. inversion J; subst. eapply data_sub; eauto.
    + exfalso. destruct A as [A _|[o' [_ [[O _]|[kw [O _]]]]] _]; [exact A|discriminate|discriminate].
  - exfalso. destruct (leads_json _ _ _ _ L _ eq_refl) as [(y' & _ & ->)|(q' & es & k' & r' & w' & _ & _ & _ & _ & ->)]; destruct O as [O|[kw O]]; discriminate O.
  - destruct (leads_json _ _ _ _ L _ eq_refl) as [(y & Y & ->)|(q & es & k' & r' & v & -> & -> & Q & V & ->)]; [|inversion K].
    inversion K as [| |es k1 v1 V]; subst. eapply jloc_key; eauto.
Qed.
(** C31, for JSON: without unions, the location of every error indexes the JSON value and
    reaches the value shown by the error, or ends with something that the array or object
    shown does not have, or with the entry whose key is shown. *)
Theorem C31_json : forall E defs fuel sc t o j l,
  holds_of (locatable E no_labels) defs sc ->
  fst (run E defs fuel sc (IJson j) (call_state t o)) = VErr (LineErrors l) ->
  Forall (json_located j) l.
Proof.
  intros E defs fuel sc t o j l W H. eapply Forall_impl; [|exact (C31_errors_point_into_the_input E no_labels defs fuel sc t o (IJson j) l W I H)].
  intros e. apply located_json.
Qed.
Print Assumptions C31_json.

(** The hypotheses are met: the tree of InterpExamples, whose union has the labels "int"
    and "str", and an error deep in a JSON tree. *)
Definition tree_labels (l : loc_item) : Prop := l = LStr (lit "int") \/ l = LStr (lit "str").
Ltac nodes := repeat match goal with
  | |- everywhere _ _ => constructor; [cbn|cbn; intros ? ?; repeat match goal with Q : _ \/ _ |- _ => destruct Q as [<-|Q] | Q : False |- _ => destruct Q end]
  end.
Example C31_tree_ok : forall E, holds_of (locatable E tree_labels) tree_defs (SRef 0).
Proof.
  intros E. assert (T : everywhere (locatable E tree_labels) tree).
  { unfold tree. nodes; auto.
    - split; [reflexivity|]. repeat constructor; exists None; reflexivity.
    - intros sc l [[= <- <-]|[[= <- <-]|[]]]; [now left|now right]. }
  split; [nodes; exact I|]. intros [|k] d; [|discriminate]. intros [= <-]. exact T.
Qed.
Definition jtree (v : json) (cs : list json) : json := JObj [(lit "value", v); (lit "children", JArr cs)].
Example C31_tree_errors : fst (run ex_env tree_defs 5 (SRef 0) (IJson (jtree (JInt 1) [jtree (JInt 2) [jtree JNull []]; JObj [(lit "children", JArr [])]])) (call_state ITJson ex_opts)) =
  VErr (LineErrors [
    {| le_type := EIntType; le_loc := LRev [LStr (lit "int"); LStr (lit "value"); LInt 0; LStr (lit "children"); LInt 0; LStr (lit "children")]; le_input := IJson JNull |};
    {| le_type := EStringType; le_loc := LRev [LStr (lit "str"); LStr (lit "value"); LInt 0; LStr (lit "children"); LInt 0; LStr (lit "children")]; le_input := IJson JNull |};
    {| le_type := EMissing; le_loc := LRev [LStr (lit "value"); LInt 1; LStr (lit "children")]; le_input := IJson (JObj [(lit "children", JArr [])]) |}]).
Proof. vm_compute. reflexivity. Qed.

(** ** Why the fragment is what it is *)
Definition no_defs (k : nat) : option schema := None.
(** An input with one error, whose location does not lead to what the error shows. *)
Definition misplaced (sc : schema) (j : json) : Prop :=
  exists e, fst (run ex_env no_defs 5 sc (IJson j) (call_state ITJson ex_opts)) = VErr (LineErrors [e]) /\ ~ located ex_env no_labels (IJson j) e.
Ltac here := repeat match goal with
  | Q : json_leads _ (_ :: _) _ |- _ => inversion Q; clear Q; subst
  | Q : json_leads _ [] _ |- _ => inversion Q; clear Q; subst
  | Q : In _ (_ :: _) |- _ => destruct Q as [Q|Q]
  | Q : In _ [] |- _ => destruct Q
  | Q : (_, _) = (_, _) |- _ => injection Q; clear Q; intros; subst
  | Q : nth_error _ ?n = Some _ |- _ => is_var n; destruct n; cbn in Q; [|]
  | Q : Some _ = Some _ |- _ => injection Q; clear Q; intros; subst
  | Q : nth_error [] ?n = Some _ |- _ => destruct n
  | Q : [?a] = ?p ++ _ |- _ => destruct p; cbn in Q
  | Q : _ :: _ = _ :: _ |- _ => injection Q; clear Q; intros; subst
  | Q : [] = ?p ++ _ |- _ => destruct p; cbn in Q
  end; try discriminate; try lia.
Ltac away := eexists; split; [vm_compute; reflexivity|]; intros L; apply located_json in L; destruct L as [x L S|p x q P N L S A|p l k r x P R L M S]; cbn in *; here; auto.

(** A variadic item before the end of a tuple: the location of what follows it is one
    item off. *)
Definition xtuple (items : list schema) (variadic : option nat) : schema :=
  STuple {| tn_strict := false; tn_variadic := variadic; tn_min := None; tn_max := None; tn_fail_fast := false |} items.
Theorem C31_tuple_tail_refuted : exists items k j, misplaced (xtuple items (Some k)) j.
Proof. exists [xint; xstr; xint], 1, (JArr [JInt 1; JStr (lit "a"); JStr (lit "b")]). away. Qed.
Print Assumptions C31_tuple_tail_refuted.
(** A validated default that fails: nothing in the input is at fault. *)
Theorem C31_default_refuted : exists k, misplaced (STypedDict (xinfos ExtraIgnore) [xfield (lit "a") false (SDefault k OnRaise true xint)] None) (JObj []).
Proof. exists (DValue (PStr (lit "x"))). away. Qed.
Print Assumptions C31_default_refuted.
(** The second step of a chain and the schema behind a before-function: their errors show
    a value made by the first step or by the function. *)
Theorem C31_chain_refuted : exists f j, misplaced (SList xcoll (Some (SChain [SPlain f None; xint]))) (JArr [j]).
Proof. exists (fun _ _ => inl (PStr (lit "x"))), (JInt 1). away. Qed.
Print Assumptions C31_chain_refuted.
Theorem C31_before_function_refuted : exists f j, misplaced (SList xcoll (Some (SBefore f None xint))) (JArr [j]).
Proof. exists (fun _ _ => inl (PStr (lit "x"))), (JInt 1). away. Qed.
Print Assumptions C31_before_function_refuted.
(** A validated extra key: the error shows the key but its location is that of the value,
    and its type is not invalid_key. *)
Theorem C31_extra_key_refuted : exists c e, fst (run ex_env no_defs 5 (SModelFields c [] None (Some xint)) (IJson (JObj [(lit "k", JInt 1)])) (call_state ITJson ex_opts)) = VErr (LineErrors [e]) /\
  loc_path (le_loc e) = [LStr (lit "k")] /\ input_object (le_input e) = PStr (lit "k") /\ le_type e = EIntParsing /\ ~ leads ex_env no_labels (IJson (JObj [(lit "k", JInt 1)])) (loc_path (le_loc e)) (le_input e).
Proof.
  exists (xinfos ExtraAllow). eexists. split; [vm_compute; reflexivity|]. repeat (split; [reflexivity|]). cbn. intros L.
  destruct (leads_json _ _ _ _ L _ eq_refl) as [(y & _ & Y)|(q & l & k & r & v & P & -> & _)]; [discriminate Y|]. destruct q as [|? [|? ?]]; discriminate P.
Qed.
Print Assumptions C31_extra_key_refuted.
(** loc_by_alias=False: the location has the name of the field, the input its alias. *)
Definition xalias (name alias : str) : key_collection := match collection_new (Some (ASt alias)) name with BOk k => k | BErr => xkeys name end.
Theorem C31_field_name_refuted : exists c sc keys, misplaced (STypedDict c [({| fi_name := lit "a"; fi_keys := keys; fi_frozen := false; fi_required := true |}, sc)] None) (JObj [(lit "b", JNull)]) /\ built (lit "a") keys.
Proof.
  exists {| fo_extra := ExtraIgnore; fo_strict := false; fo_from_attributes := false; fo_loc_by_alias := false; fo_by_alias := None; fo_by_name := None |}, xint, (xalias (lit "a") (lit "b")).
  split; [away|]. exists (Some (ASt (lit "b"))). reflexivity.
Qed.
Print Assumptions C31_field_name_refuted.
(** A function that raises a ValidationError of its own. *)
Theorem C31_raised_refuted : exists f j, misplaced (SList xcoll (Some (SPlain f None))) (JArr [j]).
Proof. exists (fun _ _ => inr (XValidation [new_error EMissing (IPy (PInt 7))])), (JInt 1). away. Qed.
Print Assumptions C31_raised_refuted.
(** Two values for one argument: the error is located by the parameter's name even when
    the keyword is its alias. *)
Theorem C31_multiple_values_refuted : exists v sc e,
  fst (run ex_env no_defs 5 sc (IPy v) (call_state ITPython ex_opts)) = VErr (LineErrors [e]) /\ le_type e = EMultipleArgumentValues /\ loc_path (le_loc e) = [LStr (lit "a")] /\
  (forall args kw x, as_args_kwargs v = Some (args, Some kw) -> ~ In (PStr (lit "a"), x) kw) /\ ~ located ex_env no_labels (IPy v) e.
Proof.
  exists (args_kwargs [PInt 1] [(PStr (lit "b"), PInt 2)]),
    (SArguments {| po_unpacked := false; po_extra := ExtraForbid; po_loc_by_alias := true; po_by_alias := None; po_by_name := None |}
       [({| pi_name := lit "a"; pi_mode := PosOrKw; pi_keys := xalias (lit "a") (lit "b") |}, xint)] None None).
  eexists. split; [vm_compute; reflexivity|]. do 2 (split; [reflexivity|]). split; [intros args kw x [= <- <-] [[= ]|[]]|].
  intros L. destruct L as [x L S|p x k r M P L S A|p x n M P L S A|p q x ob r w k y M P Q L O S A G|p x k key M P L K S]; try discriminate M.
  cbn in L, S. inversion L as [|? ? ? ? ? ST L2|? ? ? ? []|]; subst. inversion ST; subst; try (match goal with Q : subscript _ _ _ |- _ => inversion Q; subst end);
    try match goal with Q : strip _ = _ \/ strip _ = _ |- _ => destruct Q end; try discriminate.
  - match goal with Q : as_args_kwargs _ = _ |- _ => injection Q as <- <- end. cbn in *. match goal with Q : _ \/ False |- _ => destruct Q as [[= <- <-]|[]] end. match goal with Q : py_loc _ _ = _ |- _ => vm_compute in Q; discriminate Q end.
Qed.
Print Assumptions C31_multiple_values_refuted.
(** Revalidation of an instance: a missing field is reported with the instance's
    [__dict__], not with the instance that is in the input. *)
Theorem C31_revalidated_refuted : exists c sc v e,
  mo_revalidate c = RAlways /\ fst (run ex_env no_defs 5 (SModel c sc) (IPy v) (call_state ITPython ex_opts)) = VErr (LineErrors [e]) /\
  le_type e = EMissing /\ le_input e = IPy (PDict []) /\ ~ located ex_env no_labels (IPy v) e.
Proof.
  exists {| mo_cls := 5; mo_origin := None; mo_revalidate := RAlways; mo_root := false; mo_custom_init := None; mo_post_init := None |},
    (SModelFields (xinfos ExtraIgnore) [xfield (lit "a") true xint] None None), (model_inst 5 (PDict []) PNone (PSet [])).
  eexists. split; [reflexivity|]. split; [vm_compute; reflexivity|]. do 2 (split; [reflexivity|]).
  intros L. destruct L as [x L S|p x k r M P L S A|p x n M P L S A|p q x ob r w k y M P Q L O S A G|p x k key M P L K S]; try discriminate M.
  - cbn in L, S. inversion L as [|? ? ? ? ? ST L2|? ? ? ? []|]; subst. inversion ST; subst; try (match goal with Q : subscript _ _ _ |- _ => inversion Q; subst end);
    try match goal with Q : strip _ = _ \/ strip _ = _ |- _ => destruct Q end; discriminate.
  - destruct p as [|h p]; [|destruct p; discriminate P]. inversion L; subst. discriminate S.
Qed.
Print Assumptions C31_revalidated_refuted.

(** C29: what a successful validation returns has the shape the schema describes. *)
From Coq Require Import List NArith ZArith Bool Lia.
From Verif Require Import Base Float64 IntParse Numbers NumbersSpec BytesCodec Values VState LookupKey Collections Child Inputs Scalars Literal Wrappers Union TaggedUnion Tuple ModelFields TypedDict Assign Arguments Classes Interp InterpSpec InterpExamples ConformSpec ConformProofs ConformProofs8.
Import ListNotations.
Open Scope nat_scope.

(** Input of validate_strings. *)
Definition from_strings (i : input) : bool := match i with IStrings _ => true | _ => false end.
Lemma allowed_self i : allowed (from_strings i) i. Proof. now destruct i. Qed.

(** C29: for every schema (with any functions in it that raise properly), any
    definitions, any input and any options, a returned value conforms to the schema. *)
Theorem C29_result_conforms : forall E defs fuel sc i s v s', holds_of proper defs sc ->
  run E defs fuel sc i s = (VOk v, s') -> conforms E defs (from_strings i) sc v.
Proof.
  intros E defs fuel sc i s v s' [W D] H. pose proof (run_ok E defs (from_strings i) D fuel sc W i s (allowed_self i)) as K. now rewrite H in K.
Qed.
Print Assumptions C29_result_conforms.

(** C29: nothing is left out of a result unless the schema asks for it: a validation is
    abandoned with "omit" only below on_error="omit" or a function raising
    PydanticOmit. *)
Theorem C29_omissions_asked_for : forall E defs fuel sc i s s', holds_of proper defs sc ->
  run E defs fuel sc i s = (VErr Omit, s') -> omittable defs sc.
Proof.
  intros E defs fuel sc i s s' [W D] H. pose proof (run_ok E defs (from_strings i) D fuel sc W i s (allowed_self i)) as K. now rewrite H in K.
Qed.
Print Assumptions C29_omissions_asked_for.

(** ** The specification read back for common schemas *)
(** A fixed tuple has exactly its positions, each conforming, when no position may be
    omitted. *)
Lemma slots_full E defs st : forall slots (items : list schema), map fst slots = items ->
  (forall sc v, In (sc, Some v) slots -> conforms E defs st sc v) -> (forall sc, ~ In (sc, None) slots) ->
  Forall2 (conforms E defs st) items (somes (map snd slots)).
Proof.
  induction slots as [|[sc [v|]] slots IH]; intros items M C O; subst items; cbn; [constructor| |].
  - constructor; [apply C; now left|]. apply IH; [reflexivity| |]; intros; [apply C; now right|intros Q; apply (O sc0); now right].
  - exfalso. apply (O sc). now left.
Qed.
Theorem C29_fixed_tuple : forall E defs fuel c items i s v s', holds_of proper defs (STuple c items) -> tn_variadic c = None ->
  (forall sc, In sc items -> ~ omittable defs sc) ->
  run E defs fuel (STuple c items) i s = (VOk v, s') ->
  exists l, v = PTuple l /\ Forall2 (conforms E defs (from_strings i)) items l.
Proof.
  intros E defs fuel c items i s v s' W V O H. apply C29_result_conforms in H; [|exact W]. inversion H; subst.
  eexists. split; [reflexivity|]. rewrite V in *. cbn [expanded] in *. apply slots_full; auto.
  intros sc Q. apply (O sc); [|auto]. match goal with M : map fst _ = items |- _ => rewrite <- M end. apply in_map_iff. now exists (sc, None).
Qed.
Print Assumptions C29_fixed_tuple.

(** A model whose fields cannot be omitted: the instance is of the model's class and its
    __dict__ has exactly the declared fields, each conforming. *)
Theorem C29_model : forall E defs fuel c fc fields i s v s', holds_of proper defs (SModel c (SModelFields fc fields None None)) ->
  mo_root c = false -> mo_custom_init c = None -> mo_post_init c = None -> mo_revalidate c = RAlways ->
  (forall f sc, In (f, sc) fields -> ~ omittable defs sc) ->
  run E defs fuel (SModel c (SModelFields fc fields None None)) i s = (VOk v, s') ->
  exists d x fs, v = PObj (mo_cls c) [(dunder_dict, PDict d); (dunder_extra, x); (dunder_fields_set, fs)] /\
    distinct fst d /\
    (forall f sc, In (f, sc) fields -> exists w, In (PStr (fi_name f), w) d) /\
    (forall k w, In (k, w) d -> exists f sc, In (f, sc) fields /\ k = PStr (fi_name f) /\ conforms E defs (from_strings i) sc w) /\
    (fo_extra fc <> ExtraAllow -> x = PNone).
Proof.
  intros E defs fuel c fc fields i s v s' W R CI PI RV O H. apply C29_result_conforms in H; [|exact W]. inversion H; subst; try congruence.
  - match goal with X : should_revalidate _ _ _ = false |- _ => rewrite RV in X; discriminate X end.
  - match goal with X : conforms _ _ _ (SModelFields _ _ _ _) _ |- _ => inversion X; subst end.
    match goal with X : after_init _ _ _ |- _ => rewrite PI in X; cbn in X; subst v end.
    do 3 eexists. split; [reflexivity|]. repeat split; try assumption.
    intros f sc F. match goal with X : forall f sc, In (f, sc) fields -> _ \/ _ |- _ => destruct (X f sc F) as [K|K] end; [|destruct (O f sc F K)].
    apply in_map_iff in K. destruct K as ([k w] & <- & K). now exists w.
Qed.
Print Assumptions C29_model.

(** A list of constrained integers. *)
Theorem C29_int_list : forall E defs fuel c st k i s v s',
  run E defs fuel (SList c (Some (SInt st (Some k)))) i s = (VOk v, s') -> (forall n d, defs n = Some d -> everywhere proper d) ->
  exists l, v = PList (map PInt l) /\ within (co_min c) (co_max c) (length l) /\ Forall (int_constraints_hold k) l.
Proof.
  intros E defs fuel c st k i s v s' H D. apply C29_result_conforms in H.
  - inversion H; subst.
    match goal with X : forall sc x, Some _ = Some sc -> In x l -> _ |- _ => rename X into C end.
    assert (L : exists zs, l = map PInt zs /\ Forall (int_constraints_hold k) zs).
    { clear - C. induction l as [|x l IH]; [now exists []|]. destruct IH as (zs & -> & F); [intros sc y S Y; apply C; [exact S|now right]|].
      assert (Q := C _ x eq_refl (or_introl eq_refl)). inversion Q; subst. exists (z :: zs). split; [reflexivity|]. constructor; auto. }
    destruct L as (zs & -> & F). exists zs. rewrite map_length in *. auto.
  - split; [|exact D]. constructor; [exact I|]. intros x [<-|[]]. constructor; [exact I|intros y []].
Qed.
Print Assumptions C29_int_list.

(** ** Non-vacuity *)
Definition positive_ints : schema :=
  SList {| co_strict := false; co_min := Some 1; co_max := Some 3; co_fail_fast := false |}
    (Some (SInt false (Some {| ic_multiple_of := None; ic_le := None; ic_lt := None; ic_ge := None; ic_gt := Some (Big 0) |}))).
Example C29_int_list_example :
  fst (run ex_env (fun _ => None) 0 positive_ints (IPy (PTuple [PStr (lit "7"); PBool true])) (call_state ITPython ex_opts)) = VOk (PList [PInt 7; PInt 1]) /\
  (exists e, fst (run ex_env (fun _ => None) 0 positive_ints (IPy (PList [PInt 0])) (call_state ITPython ex_opts)) = VErr (LineErrors [e])).
Proof. split; [reflexivity|]. eexists. reflexivity. Qed.

(** The recursive schema of trees, with what conforms to it and what does not. *)
Lemma tree_proper : holds_of proper tree_defs tree.
Proof.
  assert (T : everywhere proper tree).
  { repeat (constructor; [cbn; try discriminate; try exact I; intros; discriminate|cbn; intros ? J; repeat destruct J as [<-|J]; try destruct J]). }
  split; [exact T|]. intros [|k] d; cbn; [|discriminate]. intros [= <-]. exact T.
Qed.
Example C29_tree_example :
  let i := IPy (node (PStr (lit "1")) [leaf (PInt 2)]) in let v := node (PStr (lit "1")) [node (PInt 2) []] in
  fst (run ex_env tree_defs 5 tree i (call_state ITPython ex_opts)) = VOk v /\ conforms ex_env tree_defs false tree v.
Proof.
  cbv zeta. split; [reflexivity|].
  apply (C29_result_conforms ex_env tree_defs 5 tree (IPy (node (PStr (lit "1")) [leaf (PInt 2)])) (call_state ITPython ex_opts) _
           (snd (run ex_env tree_defs 5 tree (IPy (node (PStr (lit "1")) [leaf (PInt 2)])) (call_state ITPython ex_opts))) tree_proper).
  vm_compute. reflexivity.
Qed.
Example C29_tree_rejects : ~ conforms ex_env tree_defs false tree (leaf (PList [])) /\ ~ conforms ex_env tree_defs false tree (PDict []).
Proof.
  split; intros H; inversion H; subst.
  - match goal with X : forall k v, In (k, v) _ -> _ |- _ => destruct (X _ _ (or_introl eq_refl)) as [(f & sc & [Q|[Q|[]]] & K & C)|(Q & _)]; [| |discriminate Q] end; injection Q as <- <-; [|discriminate K].
    inversion C; subst. match goal with X : In (?c, _) _ |- _ => destruct X as [X|[X|[]]]; injection X as <- <- end; match goal with X : conforms _ _ _ _ (PList []) |- _ => inversion X end.
  - match goal with X : false = false -> _ |- _ => destruct (X eq_refl _ _ (or_introl eq_refl) eq_refl) as [[]|Q] end.
    inversion Q; subst; [now cbn in *|]. match goal with X : In ?c (omit_through _) |- _ => cbn in X; destruct X as [<-|[<-|[]]] end;
    match goal with X : omittable _ _ |- _ => inversion X; subst; [now cbn in *|now cbn in *] end.
Qed.

Definition point : schema :=
  SModel {| mo_cls := 5; mo_origin := None; mo_revalidate := RAlways; mo_root := false; mo_custom_init := None; mo_post_init := None |}
    (SModelFields (xinfos ExtraIgnore) [xfield (lit "x") true xint; xfield (lit "y") true (SDefault (DValue (PInt 0)) OnRaise false xint)] None None).
Example C29_model_example :
  fst (run ex_env (fun _ => None) 0 point (IJson (JObj [(lit "x", JStr (lit "3")); (lit "z", JNull)])) (call_state ITJson ex_opts)) =
    VOk (model_inst 5 (PDict [(PStr (lit "x"), PInt 3); (PStr (lit "y"), PInt 0)]) PNone (PSet [PStr (lit "x")])) /\
  holds_of proper (fun _ => None) point /\
  (forall f sc, In (f, sc) [xfield (lit "x") true xint; xfield (lit "y") true (SDefault (DValue (PInt 0)) OnRaise false xint)] -> ~ omittable (fun _ => None) sc).
Proof.
  split; [reflexivity|]. split.
  - split; [|discriminate]. repeat (constructor; [cbn; try exact I; try (split; discriminate)|cbn; intros ? J; repeat destruct J as [<-|J]; try destruct J]).
  - intros f sc [J|[J|[]]] O; injection J as <- <-; repeat (inversion O; subst; clear O; [now cbn in *|]; match goal with X : In ?c (omit_through _) |- _ => cbn in X; destruct X as [<-|[]] || destruct X end; rename H0 into O).
Qed.
Example C29_tuple_example :
  let c := {| tn_strict := false; tn_variadic := None; tn_min := None; tn_max := None; tn_fail_fast := false |} in
  fst (run ex_env (fun _ => None) 0 (STuple c [xint; xstr]) (IPy (PList [PStr (lit "4"); PStr (lit "a")])) (call_state ITPython ex_opts)) = VOk (PTuple [PInt 4; PStr (lit "a")]).
Proof. reflexivity. Qed.

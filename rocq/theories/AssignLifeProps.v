(** C99: what a series of assignments leaves behind. *)
From Coq Require Import List NArith ZArith Bool Lia.
From Verif Require Import Base Float64 Values VState LookupKey LookupKeyProofs Collections CollectionsSpec CollectionsProofs Child Wrappers Assign AssignSpec AssignProofs ModelFieldsProps AssignProps.
Import ListNotations.
Open Scope nat_scope.

(** ** Models *)
(** C99: no series of assignments, of whatever values to whatever attributes, changes the
    value of a frozen field. *)
Theorem C99_frozen_field : forall c root ops m m' ns f,
  instance_of c m -> NoDup (map f_name (fc_fields c)) -> In f (fc_fields c) -> f_frozen f = true ->
  attempts (model_assign false false root (model_fields_assign c)) ops m = (m', ns) ->
  attr m' (f_name f) = attr m (f_name f) /\ (is_set m' (f_name f) <-> is_set m (f_name f)).
Proof.
  intros c root ops m m' ns f HI ND I FR H.
  assert (N : ~ In (f_name f) ns).
  { revert m m' ns HI H. induction ops as [|[[n v] s] ops IH]; intros m m' ns HI H; cbn [attempts] in H; [injection H as _ <-; easy|].
    destruct (model_assign _ _ _ _ m n v s) as [[[[]|e] m1] s1] eqn:A.
    - destruct (attempts _ ops m1) as [m2 ns2] eqn:R. injection H as _ <-. intros [->|X].
      + rewrite (C40_frozen_field c root m (f_name f) v s f HI ND I eq_refl FR) in A. discriminate A.
      + destruct (C40_model_update _ _ _ _ _ _ _ _ HI A) as (_ & _ & _ & _ & HI1). exact (IH _ _ _ HI1 R X).
    - apply C40_failed_unchanged in A. subst m1. exact (IH _ _ _ HI H). }
  destruct (C40_history _ _ _ _ _ _ HI H) as (_ & G & S). split; [exact (G _ N)|]. rewrite S. tauto.
Qed.
Print Assumptions C99_frozen_field.

(** C99: nothing changes an instance of a frozen model, root models included. *)
Theorem C99_frozen_model : forall root_model root inner ops m,
  attempts (model_assign true root_model root inner) ops m = (m, []).
Proof. intros rm root inner ops m. induction ops as [|[[n v] s] ops IH]; [reflexivity|exact IH]. Qed.
Print Assumptions C99_frozen_model.

(** C99: an attribute that was assigned has the value that its validator made of the last
    value accepted, seeing the attributes as they were then. *)
Theorem C99_last_write : forall c root ops m m' ns k,
  instance_of c m -> attempts (model_assign false false root (model_fields_assign c)) ops m = (m', ns) -> In k ns ->
  exists before v s after m1 ns1 ns2 w,
    ops = before ++ (k, v, s) :: after /\
    attempts (model_assign false false root (model_fields_assign c)) before m = (m1, ns1) /\ ns = ns1 ++ k :: ns2 /\ ~ In k ns2 /\
    assignable c m1 k v w /\ attr m' k = Some w.
Proof.
  intros c root ops. induction ops as [|[[n v] s] ops IH]; intros m m' ns k HI H X; cbn [attempts] in H; [injection H as _ <-; destruct X|].
  destruct (model_assign _ _ _ _ m n v s) as [[[[]|e] m1] s1] eqn:A.
  - destruct (attempts _ ops m1) as [m2 ns2] eqn:R. injection H as <- <-.
    destruct (C40_model_update _ _ _ _ _ _ _ _ HI A) as (w & AS & G & _ & HI1).
    destruct (in_dec str_eq_dec k ns2) as [J|J].
    + destruct (IH _ _ _ _ HI1 R J) as (b & v' & s' & a & m3 & ns3 & ns4 & w' & -> & B & -> & NI & AS' & G').
      exists ((n, v, s) :: b), v', s', a, m3, (n :: ns3), ns4, w'. split; [reflexivity|]. split; [|split; [reflexivity|now split]].
      cbn [attempts]. rewrite A, B. reflexivity.
    + destruct X as [->|X]; [|contradiction]. exists [], v, s, ops, m, [], ns2, w. split; [reflexivity|]. split; [reflexivity|]. split; [reflexivity|]. split; [exact J|]. split; [exact AS|].
      destruct (C40_history _ _ _ _ _ _ HI1 R) as (_ & G2 & _). rewrite (G2 _ J), G, str_eqb_refl. reflexivity.
  - pose proof (C40_failed_unchanged _ _ _ _ _ _ _ _ _ _ _ A) as E. subst m1. destruct (IH _ _ _ _ HI H X) as (b & v' & s' & a & m3 & ns3 & ns4 & w' & -> & B & E & NI & AS' & G').
    exists ((n, v, s) :: b), v', s', a, m3, ns3, ns4, w'. split; [reflexivity|]. split; [|split; [exact E|now split]].
    cbn [attempts]. rewrite A. exact B.
Qed.
Print Assumptions C99_last_write.

(** C99: no attribute ever disappears; the only new ones are fields that had no value and,
    with extra="allow", the additional attributes assigned. *)
Theorem C99_nothing_lost : forall c root ops m m' ns k,
  instance_of c m -> attempts (model_assign false false root (model_fields_assign c)) ops m = (m', ns) ->
  (attr m k <> None -> attr m' k <> None) /\
  (attr m k = None -> attr m' k <> None -> In k ns /\ (declared c k \/ fc_extra c = ExtraAllow)).
Proof.
  intros c root ops m m' ns k HI H. destruct (C40_history _ _ _ _ _ _ HI H) as (_ & G & _). destruct (in_dec str_eq_dec k ns) as [J|J].
  - destruct (C99_last_write _ _ _ _ _ _ _ HI H J) as (b & v & s & a & m1 & n1 & n2 & w & _ & _ & _ & _ & AS & E). rewrite E. split; [discriminate|].
    intros _ _. split; [exact J|]. destruct AS as [f t t' w I N _ _ _ _| |]; [left; now exists f|now right|now right].
  - rewrite (G _ J). split; [auto|]. intros E N. now rewrite E in N.
Qed.
Print Assumptions C99_nothing_lost.

(** ** Dataclasses *)
Theorem C99_frozen_dataclass : forall slots fields ca inner ops o,
  attempts (dataclass_assign true slots fields ca inner) ops o = (o, []).
Proof. intros slots fields ca inner ops o. induction ops as [|[[n v] s] ops IH]; [reflexivity|exact IH]. Qed.
Print Assumptions C99_frozen_dataclass.

(** C99: the same for the fields of a dataclass, with and without slots. *)
Theorem C99_dataclass_last_write : forall slots fields ca c ops o o' ns k,
  keyed (di_attrs o) -> In k fields -> attempts (dataclass_assign false slots fields ca (dataclass_args_assign c)) ops o = (o', ns) ->
  (~ In k ns -> dc_getattr ca o' k = dc_getattr ca o k) /\
  (In k ns -> exists before v s after o1 ns1 ns2 w,
    ops = before ++ (k, v, s) :: after /\
    attempts (dataclass_assign false slots fields ca (dataclass_args_assign c)) before o = (o1, ns1) /\ ns = ns1 ++ k :: ns2 /\ ~ In k ns2 /\
    dc_assignable c (fun n => if mem_str n fields then dc_getattr ca o1 n else None) k v w /\ dc_getattr ca o' k = Some w).
Proof.
  intros slots fields ca c ops. induction ops as [|[[n v] s] ops IH]; intros o o' ns k KO F H; cbn [attempts] in H; [injection H as <- <-; split; [reflexivity|easy]|].
  destruct (dataclass_assign _ _ _ _ _ o n v s) as [[[[]|e] o1] s1] eqn:A.
  - destruct (attempts _ ops o1) as [o2 ns2] eqn:R. injection H as <- <-.
    destruct (C40_dataclass_update _ _ _ _ _ _ _ _ _ _ KO A) as (w & AS & G & G1 & K1). destruct (IH _ _ _ _ K1 F R) as [IN IL]. split.
    + intros NI. rewrite IN by (intros X; apply NI; now right). apply G1; [intros ->; apply NI; now left|now right].
    + intros X. destruct (in_dec str_eq_dec k ns2) as [J|J].
      * destruct (IL J) as (b & v' & s' & a & m3 & ns3 & ns4 & w' & -> & B & -> & NI & AS' & G').
        exists ((n, v, s) :: b), v', s', a, m3, (n :: ns3), ns4, w'. split; [reflexivity|]. split; [|split; [reflexivity|now split]].
        cbn [attempts]. rewrite A, B. reflexivity.
      * destruct X as [->|X]; [|contradiction]. exists [], v, s, ops, o, [], ns2, w. split; [reflexivity|]. split; [reflexivity|]. split; [reflexivity|]. split; [exact J|]. split; [exact AS|].
        rewrite (IN J). exact G.
  - pose proof (C40_dataclass_failed _ _ _ _ _ _ _ _ _ _ _ _ A) as E. subst o1. destruct (IH _ _ _ _ KO F H) as [IN IL]. split; [exact IN|]. intros X.
    destruct (IL X) as (b & v' & s' & a & m3 & ns3 & ns4 & w' & -> & B & E & NI & AS' & G').
    exists ((n, v, s) :: b), v', s', a, m3, ns3, ns4, w'. split; [reflexivity|]. split; [|split; [exact E|now split]].
    cbn [attempts]. rewrite A. exact B.
Qed.
Print Assumptions C99_dataclass_last_write.
Theorem C99_dataclass_frozen_field : forall slots fields ca c ops o o' ns f,
  keyed (di_attrs o) -> NoDup (map f_name (fc_fields c)) -> In f (fc_fields c) -> f_frozen f = true -> In (f_name f) fields ->
  attempts (dataclass_assign false slots fields ca (dataclass_args_assign c)) ops o = (o', ns) ->
  dc_getattr ca o' (f_name f) = dc_getattr ca o (f_name f).
Proof.
  intros slots fields ca c ops o o' ns f KO ND I FR F H. destruct (C99_dataclass_last_write _ _ _ _ _ _ _ _ _ KO F H) as [IN IL].
  destruct (in_dec str_eq_dec (f_name f) ns) as [J|J]; [|exact (IN J)].
  destruct (IL J) as (b & v & s & a & o1 & n1 & n2 & w & _ & _ & _ & _ & AS & _). exfalso.
  remember (f_name f) as k eqn:EK. destruct AS as [f' t t' w' d I' E FR' DD GG FN V|NDC X]; [|apply NDC; exists f; now subst].
  pose proof (find_unique _ _ _ ND I (eq_sym EK)) as U1. rewrite (find_unique _ _ _ ND I' E) in U1. injection U1 as ->. congruence.
Qed.
Print Assumptions C99_dataclass_frozen_field.

(** ** Where it ends *)
(** A "before" function between a model and its fields gets the attributes as a dict, and
    what it puts there for a frozen field is not looked at: assigning another field then
    changes the frozen one. *)
Theorem C99_function_refuted : exists f m n value s m' s',
  instance_of (as_cfg ExtraAllow) m /\
  model_assign false false (fun i s => (VErr Panic, s)) (dict_assign_before f None (model_fields_assign (as_cfg ExtraAllow))) m n value s = (VOk tt, m', s') /\
  n <> lit "b" /\ attr m' (lit "b") <> attr m (lit "b").
Proof.
  exists (fun _ _ => inl (PDict [(PStr (lit "a"), PInt 9); (PStr (lit "b"), PInt 7)])), as_model, (lit "a"), (PInt 9), ex_state.
  do 2 eexists. split; [exact as_instance|]. split; [vm_compute; reflexivity|]. split; discriminate.
Qed.
Print Assumptions C99_function_refuted.

(** ** A concrete case *)
Example C99_ex :
  let ops := [(lit "b", PInt 1, ex_state); (lit "a", PInt 4, ex_state); (lit "y", PInt 0, ex_state); (lit "a", PNone, ex_state); (lit "a", PInt 5, ex_state)] in
  instance_of (as_cfg ExtraAllow) as_model /\ NoDup (map f_name (fc_fields (as_cfg ExtraAllow))) /\
  exists m', attempts as_step ops as_model = (m', [lit "a"; lit "y"; lit "a"]) /\    attr m' (lit "a") = Some (PInt 5) /\ attr m' (lit "b") = Some (PInt 2) /\ attr m' (lit "x") = Some PNone /\ attr m' (lit "y") = Some (PInt 0).
Proof.
  cbv zeta. split; [exact as_instance|]. split; [repeat constructor; cbn; intuition discriminate|].
  exists (fst (attempts as_step [(lit "b", PInt 1, ex_state); (lit "a", PInt 4, ex_state); (lit "y", PInt 0, ex_state); (lit "a", PNone, ex_state); (lit "a", PInt 5, ex_state)] as_model)).
  split; [vm_compute; reflexivity|]. split; [|split; [|split]]; vm_compute; reflexivity.
Qed.

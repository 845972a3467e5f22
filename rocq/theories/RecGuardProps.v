(** C01, C02, C03: the recursion guard. *)
From Coq Require Import List NArith Bool.
From Verif Require Import Base RecGuard RecGuardSpec RecGuardProofs.
Import ListNotations.
Open Scope N_scope.

(** C01.  For every call tree within the depth limit, each attempt to enter a
    pair answers "cyclic" exactly when the pair is among its enclosing calls
    ([ideal] keeps nothing but that chain), whatever the internal
    representation; nothing panics. *)
Theorem C01_guard_is_a_set : forall b a st sc,
  real_build b -> reachable b a st ->
  N.of_nat (length a + height sc) <= depth_limit b ->
  exists st', run b sc st = Some (ideal a sc, st').
Proof.
  intros b a st sc Hb Hr Hh.
  destruct (reachable_call b a st sc Hb Hr Hh) as [st' [E _]]. exists st'. exact E.
Qed.
Print Assumptions C01_guard_is_a_set.

(** C01.  No call tree at all (even beyond the depth limit) makes the guard panic. *)
Theorem C01_guard_never_panics : forall b sc,
  real_build b -> run b sc rstate_default <> None.
Proof. exact run_never_panics. Qed.
Print Assumptions C01_guard_never_panics.

(** A chain of [n] distinct pairs below [sc]: exercises the array-to-set switch. *)
Fixpoint chain (n : nat) (id : N) (inner : list scope) : scope :=
  match n with
  | O => Scope (id, 0) inner
  | S n' => Scope (id, 0) [chain n' (N.succ id) inner]
  end.

Example C01_nontrivial :
  (* 21 nested pairs (so the representation switches), then the 4th again, then a new one *)
  let sc := chain 20 0 [Scope (3, 0) []; Scope (100, 0) []] in
  N.of_nat (length (@nil key) + height sc) <= depth_limit Release /\
  (exists st, run Release sc rstate_default = Some (ideal [] sc, st)) /\
  has_cyclic (ideal [] sc) = true.
Proof.
  split; [vm_compute; discriminate|]. split; [eexists; vm_compute; reflexivity | reflexivity].
Qed.

(** C02.  After any call within the limit the guard is as it was before. *)
Theorem C02_guard_balanced : forall b a st sc,
  real_build b -> reachable b a st ->
  N.of_nat (length a + height sc) <= depth_limit b ->
  exists v st', run b sc st = Some (v, st') /\ same_guard st st'.
Proof.
  intros b a st sc Hb Hr Hh.
  destruct (reachable_call b a st sc Hb Hr Hh) as [st' [E H]]. exists (ideal a sc), st'. split; [exact E | exact H].
Qed.
Print Assumptions C02_guard_balanced.

(** C02, finding.  Without the depth-limit proviso the claim is false: when the
    limit is hit the pair that could not be entered stays in the guard, and a
    later, unrelated sibling call on that pair is reported as cyclic although
    the pair is not among its enclosing calls. *)
Theorem C02_balanced_at_limit_refuted :
  exists sc1 sc2 k v1 st,
    run Release (Scope k [sc1; sc2]) rstate_default = Some (VEntered [v1; VCyclic], st) /\
    ideal [k] sc2 = VEntered [] /\
    ~ same_guard rstate_default st.
Proof.
  exists (chain 254 1 []), (Scope (255, 0) []), (0, 0).
  eexists. eexists. split; [vm_compute; reflexivity|]. split; [reflexivity|].
  intros [H _]. destruct (H (255, 0)) as [_ H2]. simpl in H2. apply H2. vm_compute. tauto.
Qed.
Print Assumptions C02_balanced_at_limit_refuted.

(** The limit in the release build is 255 nested guards: 255 are fine, the 256th is refused. *)
Example C02_limit_is_tight :
  (exists v st, run Release (chain 254 0 []) rstate_default = Some (v, st) /\ has_depth v = false) /\
  (exists v st, run Release (chain 255 0 []) rstate_default = Some (v, st) /\ has_depth v = true).
Proof. split; eexists; eexists; split; vm_compute; reflexivity. Qed.

(** C03.  The guarded traversal of any graph of (object, definition) nodes, from
    any node: it always finishes (within limit+1 nested steps), and it reports a
    recursion error (cyclic or too deep, both surfaced as [recursion_loop]) iff
    some path from the start revisits a node or is longer than the limit. *)
Theorem C03_cycles_reported_exactly : forall b succ k,
  real_build b ->
  exists v st',
    walk b succ (S (N.to_nat (depth_limit b))) k rstate_default = Some (v, st') /\
    (has_cyclic v = false /\ has_depth v = false <->
     forall p, path succ k p -> NoDup p /\ N.of_nat (length p) <= depth_limit b).
Proof. exact walk_total_and_exact. Qed.
Print Assumptions C03_cycles_reported_exactly.

(** A diamond (shared but acyclic) is clean; adding a back edge is reported. *)
Definition diamond (k : key) : list key :=
  match fst k with 0 => [(1, 7); (2, 7)] | 1 => [(3, 7)] | 2 => [(3, 7)] | _ => [] end.
Definition looped (k : key) : list key :=
  match fst k with 3 => [(1, 7)] | _ => diamond k end.
Example C03_nontrivial :
  (exists v st, walk Release diamond 256 (0, 7) rstate_default = Some (v, st) /\ has_cyclic v = false) /\
  (exists v st, walk Release looped 256 (0, 7) rstate_default = Some (v, st) /\ has_cyclic v = true).
Proof. split; eexists; eexists; split; vm_compute; reflexivity. Qed.

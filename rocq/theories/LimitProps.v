(** C13, C15: what max_length does to the other errors. *)
From Coq Require Import List NArith ZArith Bool.
From Verif Require Import Base Float64 Values VState LookupKey Collections Child Inputs Interp InterpSpec InterpExamples.
Import ListNotations.
Open Scope nat_scope.

Definition limited (n : nat) : coll := {| co_strict := false; co_min := None; co_max := Some n; co_fail_fast := false |}.
Definition refuses (sc : schema) (v : pyval) : Prop := exists e, fst (run ex_env (fun _ => None) 0 sc (IPy v) (call_state ITPython ex_opts)) = VErr e.
Definition only_too_long (sc : schema) (o : call_opts) (v : pyval) : Prop := exists e c n a,
  fst (run ex_env (fun _ => None) 0 sc (IPy v) (call_state ITPython o)) = VErr (LineErrors [e]) /\ loc_path (le_loc e) = [] /\ le_type e = ETooLong c n a.

(** C13: with max_length the errors of the items before the limit are lost: a list with a
    bad item is reported as too long and as nothing else. *)
Theorem C13_limit_hides_refuted : exists n x xs, refuses xint x /\ In x xs /\ n < length xs /\ only_too_long (SList (limited n) (Some xint)) ex_opts (PList xs).
Proof.
  exists 1, (PStr (lit "x")), [PStr (lit "x"); PInt 1]. split; [eexists; vm_compute; reflexivity|]. split; [now left|]. split; [apply le_n|].
  eexists _, _, _, _. split; [vm_compute; reflexivity|]. split; reflexivity.
Qed.
Print Assumptions C13_limit_hides_refuted.
(** The same for sets, where only the accepted items count. *)
Theorem C13_set_limit_hides_refuted : exists n x xs, refuses xint x /\ In x xs /\ only_too_long (SSet false (limited n) xint) ex_opts (PList xs).
Proof.
  exists 1, (PStr (lit "x")), [PStr (lit "x"); PInt 1; PInt 2]. split; [eexists; vm_compute; reflexivity|]. split; [now left|].
  eexists _, _, _, _. split; [vm_compute; reflexivity|]. split; reflexivity.
Qed.
Print Assumptions C13_set_limit_hides_refuted.
(** C15: an item that allow_partial drops still counts for the max_length of a list, but
    not for that of a set. *)
Definition streaming : call_opts := {| op_strict := None; op_from_attributes := None; op_by_alias := None; op_by_name := None; op_partial := PartialOn |}.
Theorem C15_dropped_counts_refuted : exists n xs x,
  fst (run ex_env (fun _ => None) 0 (SList (limited n) (Some xint)) (IPy (PList xs)) (call_state ITPython streaming)) = VOk (PList xs) /\
  fst (run ex_env (fun _ => None) 0 (SList xcoll (Some xint)) (IPy (PList (xs ++ [x]))) (call_state ITPython streaming)) = VOk (PList xs) /\
  only_too_long (SList (limited n) (Some xint)) streaming (PList (xs ++ [x])) /\
  fst (run ex_env (fun _ => None) 0 (SSet false (limited n) xint) (IPy (PList (xs ++ [x]))) (call_state ITPython streaming)) = VOk (PSet xs).
Proof.
  exists 2, [PInt 1; PInt 2], (PStr (lit "x")). split; [vm_compute; reflexivity|]. split; [vm_compute; reflexivity|]. split; [|vm_compute; reflexivity].
  eexists _, _, _, _. split; [vm_compute; reflexivity|]. split; reflexivity.
Qed.
Print Assumptions C15_dropped_counts_refuted.

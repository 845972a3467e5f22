(** C35: definition references. *)
From Coq Require Import List NArith Bool.
From Verif Require Import Base Defs DefsSpec DefsProofs.
Import ListNotations.

(** Building a schema succeeds exactly when no name is declared twice and every
    referenced name is declared, wherever the declarations are. *)
Theorem C35_build_succeeds : forall s,
  (exists v b, build_schema s = Ok (v, b)) <->
  NoDup (map fst (declared s)) /\ (forall r, In r (referenced s) -> In r (map fst (declared s))).
Proof. exact build_schema_succeeds. Qed.
Print Assumptions C35_build_succeeds.

(** The error names a culprit: a name declared at least
    twice, or a name used and never declared. *)
Theorem C35_build_error : forall s e, build_schema s = Err e ->
  match e with
  | DuplicateRef r => 2 <= count_occ str_eq_dec (map fst (declared s)) r
  | NeverFilled r => In r (referenced s) /\ ~ In r (map fst (declared s))
  end.
Proof. exact build_schema_error. Qed.
Print Assumptions C35_build_error.

(** The built object behaves, to any depth, as the schema in which every
    reference stands for the one definition declared under that name. *)
Theorem C35_references_resolve : forall s v b, build_schema s = Ok (v, b) ->
  forall n, behaviour n b v = meaning n (fun r => assoc r (declared s)) s.
Proof. exact build_schema_meaning. Qed.
Print Assumptions C35_references_resolve.

(** Two mutually recursive definitions, used before they are declared. *)
Definition ex_schema : schema :=
  SDefs [(lit "a", SNode 1 [SRef (lit "b"); SNode 7 []]); (lit "b", SNode 2 [SRef (lit "a")])] (SNode 3 [SRef (lit "b"); SRef (lit "a")]).
Example C35_ex :
  exists v b, build_schema ex_schema = Ok (v, b) /\
  behaviour 5 b v =
    TNode 3 [TNode 2 [TNode 1 [TCut; TCut]]; TNode 1 [TNode 2 [TCut]; TNode 7 []]].
Proof. eexists _, _. split; vm_compute; reflexivity. Qed.
Example C35_ex_undefined : build_schema (SNode 0 [SRef (lit "a")]) = Err (NeverFilled (lit "a")).
Proof. vm_compute. reflexivity. Qed.
Example C35_ex_duplicate :
  build_schema (SDefs [(lit "a", SNode 1 []); (lit "a", SNode 2 [])] (SRef (lit "a"))) = Err (DuplicateRef (lit "a")).
Proof. vm_compute. reflexivity. Qed.

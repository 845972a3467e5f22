(** Shared vocabulary of the model: Unicode strings, byte strings, small list
    helpers.  Nothing here models a particular Rust function. *)
From Coq Require Import List NArith ZArith Bool String Ascii Lia.
Import ListNotations.
Export StringSyntax.
#[global] Arguments Z.mul : simpl never.
#[global] Arguments Z.add : simpl never.
#[global] Arguments Z.sub : simpl never.
#[global] Arguments Z.div : simpl never.
#[global] Arguments Z.modulo : simpl never.
#[global] Arguments Z.pow : simpl never.
#[global] Arguments N.mul : simpl never.
#[global] Arguments N.add : simpl never.
#[global] Arguments N.sub : simpl never.
#[global] Arguments N.div : simpl never.
#[global] Arguments N.modulo : simpl never.
#[global] Arguments N.pow : simpl never.

(** A Rust [&str] / Python [str] as its sequence of Unicode scalar values.
    Simplification: lone surrogates (possible in Python, impossible in Rust
    [&str]) are not represented. *)
Definition str := list N.

(** A byte string. *)
Definition bytes := list N.

(** ASCII literals, only used to write constants such as field names. *)
Fixpoint lit (s : string) : str :=
  match s with
  | EmptyString => []
  | String c s' => N_of_ascii c :: lit s'
  end.
Arguments lit s%string_scope.

(** One ASCII character as a code point. *)
Definition ch (c : ascii) : N := N_of_ascii c.

Fixpoint list_eqb {A} (eqb : A -> A -> bool) (l1 l2 : list A) : bool :=
  match l1, l2 with
  | [], [] => true
  | x :: l1', y :: l2' => eqb x y && list_eqb eqb l1' l2'
  | _, _ => false
  end.

Definition str_eqb : str -> str -> bool := list_eqb N.eqb.

Lemma list_eqb_spec {A} (eqb : A -> A -> bool) :
  (forall x y, eqb x y = true <-> x = y) ->
  forall l1 l2, list_eqb eqb l1 l2 = true <-> l1 = l2.
Proof.
  intros Heq l1; induction l1 as [|x l1 IH]; intros [|y l2]; simpl; split; intros H;
    try reflexivity; try discriminate.
  - apply andb_true_iff in H as [H1 H2]. apply Heq in H1. apply IH in H2. congruence.
  - injection H as H1 H2. apply andb_true_iff; split; [apply Heq | apply IH]; assumption.
Qed.

Lemma str_eqb_eq s1 s2 : str_eqb s1 s2 = true <-> s1 = s2.
Proof. apply list_eqb_spec. intros; apply N.eqb_eq. Qed.

Lemma str_eqb_refl s : str_eqb s s = true.
Proof. apply str_eqb_eq; reflexivity. Qed.

Lemma str_eqb_neq s1 s2 : str_eqb s1 s2 = false <-> s1 <> s2.
Proof.
  split; intros H.
  - intros E. apply str_eqb_eq in E. congruence.
  - destruct (str_eqb s1 s2) eqn:E; [apply str_eqb_eq in E; contradiction | reflexivity].
Qed.

Lemma str_eqb_sym s1 s2 : str_eqb s1 s2 = str_eqb s2 s1.
Proof.
  destruct (str_eqb s1 s2) eqn:E.
  - apply str_eqb_eq in E. subst. symmetry. apply str_eqb_refl.
  - symmetry. apply str_eqb_neq. apply str_eqb_neq in E. congruence.
Qed.

Definition str_eq_dec (s1 s2 : str) : {s1 = s2} + {s1 <> s2}.
Proof. apply list_eq_dec. apply N.eq_dec. Defined.

Definition mem_str (s : str) (l : list str) : bool := existsb (str_eqb s) l.

Lemma mem_str_In s l : mem_str s l = true <-> In s l.
Proof.
  unfold mem_str. rewrite existsb_exists. split.
  - intros [x [Hx He]]. apply str_eqb_eq in He. subst. assumption.
  - intros H. exists s. split; [assumption | apply str_eqb_refl].
Qed.

Lemma mem_str_not_In s l : mem_str s l = false <-> ~ In s l.
Proof.
  split; intros H.
  - intros Hi. apply mem_str_In in Hi. congruence.
  - destruct (mem_str s l) eqn:E; [apply mem_str_In in E; contradiction | reflexivity].
Qed.

(** The first binding of a key in an association list. *)
Fixpoint assoc {B} (k : str) (l : list (str * B)) : option B :=
  match l with
  | [] => None
  | (k', v) :: l' => if str_eqb k k' then Some v else assoc k l'
  end.

Lemma assoc_In {B} k (l : list (str * B)) v : assoc k l = Some v -> In (k, v) l.
Proof.
  induction l as [|[k' v'] l IH]; simpl; [discriminate|].
  destruct (str_eqb k k') eqn:E; intros H.
  - apply str_eqb_eq in E. injection H as ->. subst. left; reflexivity.
  - right; auto.
Qed.

Lemma assoc_None {B} k (l : list (str * B)) : assoc k l = None <-> ~ In k (map fst l).
Proof.
  induction l as [|[k' v'] l IH]; simpl.
  - split; auto.
  - destruct (str_eqb k k') eqn:E.
    + apply str_eqb_eq in E. subst. split; [discriminate | intros H; exfalso; apply H; auto].
    + apply str_eqb_neq in E. rewrite IH. split.
      * intros H [H1|H1]; [congruence | contradiction].
      * intros H H1. apply H. right. assumption.
Qed.

Definition is_some {A} (o : option A) : bool := match o with Some _ => true | None => false end.
Definition is_nil {A} (l : list A) : bool := match l with [] => true | _ => false end.
Definition is_none {A} (o : option A) : bool := match o with Some _ => false | None => true end.

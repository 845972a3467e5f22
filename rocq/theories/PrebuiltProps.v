(** C84: reusing the validators of classes that are already complete does not change what
    a schema validates, as long as each class is used with its own schema. *)
From Coq Require Import List NArith Bool Lia.
From Verif Require Import Base Prebuilt PrebuiltSpec.
Import ListNotations.

Section SchemaInd.
Variable P : schema -> Prop.
Hypothesis Pnode : forall k l, Forall P l -> P (Node k l).
Hypothesis Pfunc : forall k f s, P s -> P (Func k f s).
Hypothesis Pclass : forall dc cls g c s, P s -> P (Class dc cls g c s).
Fixpoint schema_ind' (s : schema) : P s :=
  match s with
  | Node k l => Pnode k l ((fix go l : Forall P l := match l with [] => Forall_nil _ | s :: l => Forall_cons _ (schema_ind' s) (go l) end) l)
  | Func k f s => Pfunc k f s (schema_ind' s)
  | Class dc cls g c s => Pclass dc cls g c s (schema_ind' s)
  end.
End SchemaInd.

Lemma classes_node : forall P k l, classes P (Node k l) -> Forall (classes P) l.
Proof. intros P k l. cbn [classes]. induction l as [|s l IH]; intros H; constructor; [apply H|apply IH, H]. Qed.

Section Sound.
Variable own : N -> schema.
Hypothesis OK : own_ok own.

(** The stored validators behave as those of what the classes declare. *)
Definition sound (w : world) : Prop :=
  forall cls t, complete (w cls) = true -> stored (w cls) = Some t -> usable t = true ->
  forall cfg, behaviour t = as_written cfg (own cls).

Lemma build_sound : forall w, sound w -> forall s cfg, classes (is_own own) s -> behaviour (build w cfg s) = as_written cfg s.
Proof.
  intros w W s. induction s as [k l IH|k f s IH|dc cls g c s IH] using schema_ind'; intros cfg C.
  - cbn [build behaviour as_written]. f_equal. rewrite map_map. apply classes_node in C.
    induction l as [|s l IHl]; [reflexivity|]. inversion IH; subst. inversion C; subst. cbn [map]. f_equal; auto.
  - cbn [build behaviour as_written]. f_equal. apply IH. exact C.
  - destruct C as [O C]. cbn [build]. destruct (get_prebuilt w dc g cls) as [t|] eqn:G.
    + unfold get_prebuilt in G. destruct (dc && g) eqn:D; [discriminate|].
      destruct (complete (w cls)) eqn:Co; [|discriminate]. destruct (stored (w cls)) as [t'|] eqn:St; [|discriminate].
      destruct (usable t') eqn:U; [|discriminate]. injection G as <-. cbn [behaviour].
      cbn [is_own] in O. destruct O as [[-> ->]|O]; [discriminate|]. rewrite O. apply (W cls t' Co St U).
    + cbn [behaviour as_written]. f_equal. apply IH. exact C.
Qed.

Lemma declared_root : forall w cls s cfg, declares own cls s -> usable (build w cfg s) = true -> s = own cls.
Proof.
  intros w cls s cfg D U. destruct D as [|k f s K D]; [reflexivity|]. cbn [build usable] in U. destruct k; congruence.
Qed.

Lemma own_config : forall cls cfg cfg', as_written cfg (own cls) = as_written cfg' (own cls).
Proof. intros cls cfg cfg'. destruct (OK cls) as (dc & g & c & s & ->). reflexivity. Qed.

Lemma define_sound : forall w d, sound w -> declares own (d_cls d) (d_schema d) -> classes (is_own own) (d_schema d) -> sound (define w d).
Proof.
  intros w d W D C. unfold define.
  assert (W' : sound (set w (d_cls d) {| complete := false; stored := None |})).
  { intros cls t. unfold set. destruct (cls =? d_cls d)%N; cbn [complete stored]; [discriminate|apply W]. }
  set (w' := set w (d_cls d) {| complete := false; stored := None |}) in *.
  intros cls t Co St U cfg. unfold set in Co, St. destruct (N.eqb_spec cls (d_cls d)) as [->|NE].
  - cbn [stored] in St. injection St as <-. rewrite (build_sound _ W') by exact C.
    rewrite (declared_root _ _ _ _ D U). apply own_config.
  - apply W'; assumption.
Qed.

Lemma history_sound : forall l, consistent own l -> sound (history l).
Proof.
  intros l. unfold history. assert (G : forall w, sound w -> consistent own l -> sound (fold_left define l w)).
  { induction l as [|d l IH]; intros w W H; [exact W|]. inversion H as [|? ? [D C] H']; subst. cbn [fold_left].
    apply IH; [|exact H']. apply define_sound; assumption. }
  apply G. intros cls t Co. discriminate.
Qed.

(** After any definitions of classes, each made with its own schema (maybe with after and
    wrap functions around it), every schema that uses the classes so validates as if it was
    built from its text alone, under any config. *)
Theorem C84_as_written : forall l s cfg, consistent own l -> classes (is_own own) s -> behaviour (build (history l) cfg s) = as_written cfg s.
Proof. intros l s cfg L S'. apply build_sound; [apply history_sound; exact L|exact S']. Qed.

(** So it does not matter in which order the classes were defined, or whether they were. *)
Theorem C84_order : forall l l' s cfg, consistent own l -> consistent own l' -> classes (is_own own) s ->
  behaviour (build (history l) cfg s) = behaviour (build (history l') cfg s).
Proof. intros. rewrite !C84_as_written by assumption. reflexivity. Qed.
End Sound.
Print Assumptions C84_as_written.
Print Assumptions C84_order.

(** A class that is not complete, one without a stored validator, one whose validator has an
    after or wrap function outermost, and a parametrized generic dataclass, are built from
    the schema that is given, whatever else is stored. *)
Theorem C84_not_used : forall w dc cls g c s cfg,
  complete (w cls) = false \/ stored (w cls) = None
  \/ (exists k f c' t, k <> Before /\ stored (w cls) = Some (TFunc k f c' t)) \/ (dc = true /\ g = true) ->
  build w cfg (Class dc cls g c s) = TClass dc cls g c (build w c s).
Proof.
  intros w dc cls g c s cfg H. cbn [build]. unfold get_prebuilt.
  destruct H as [H|[H|[(k & f & c' & t & K & H)|[-> ->]]]]; [| | |reflexivity].
  - rewrite H. destruct (dc && g); reflexivity.
  - rewrite H. destruct (dc && g), (complete (w cls)); reflexivity.
  - rewrite H. destruct k; [congruence| |]; destruct (dc && g), (complete (w cls)); reflexivity.
Qed.
Print Assumptions C84_not_used.

(** A complete class's validator is used for every other schema of the class, and neither the
    text of that schema nor the config around it matters. *)
Theorem C84_used : forall w dc cls g c s cfg t, dc && g = false -> complete (w cls) = true -> stored (w cls) = Some t ->
  (forall k f c' t', t = TFunc k f c' t' -> k = Before) ->
  behaviour (build w cfg (Class dc cls g c s)) = behaviour t.
Proof.
  intros w dc cls g c s cfg t D Co St U. cbn [build]. unfold get_prebuilt. rewrite D, Co, St.
  destruct t as [| k f c' t' | |]; try reflexivity. rewrite (U k f c' t' eq_refl). reflexivity.
Qed.
Print Assumptions C84_used.

(** Two classes: the second has a field of the first, and an after function. *)
Definition c84_a : schema := Class false 1 false 7 (Node 3 [Node 1 []]).
Definition c84_b : schema := Class false 2 false 8 (Node 3 [c84_a; Node 2 []]).
Definition c84_own (cls : N) : schema := if (cls =? 1)%N then c84_a else if (cls =? 2)%N then c84_b else Class false cls false 0 (Node 0 []).
Definition c84_defs : list definition :=
  [{| d_cls := 1; d_cfg := 0; d_schema := c84_a |}; {| d_cls := 2; d_cfg := 0; d_schema := Func After 5 c84_b |}].
Example C84_ex : own_ok c84_own /\ consistent c84_own c84_defs /\ classes (is_own c84_own) (Node 4 [c84_a; Func After 5 c84_b])
  /\ build (history c84_defs) 9 (Node 4 [c84_a; Func After 5 c84_b])
     = TNode 4 9 [TPre (TClass false 1 false 7 (TNode 3 7 [TNode 1 7 []]));
                  TFunc After 5 9 (TClass false 2 false 8 (TNode 3 8 [TPre (TClass false 1 false 7 (TNode 3 7 [TNode 1 7 []])); TNode 2 8 []]))].
Proof.
  split; [|split; [|split]].
  - intros cls. unfold c84_own. destruct (N.eqb_spec cls 1) as [->|]; [|destruct (N.eqb_spec cls 2) as [->|]]; do 4 eexists; reflexivity.
  - repeat apply Forall_cons; [| |apply Forall_nil]; split.
    + exact (D_class c84_own 1).
    + cbn. tauto.
    + apply D_func; [discriminate|]. exact (D_class c84_own 2).
    + cbn. tauto.
  - cbn. tauto.
  - reflexivity.
Qed.

(** Refuted: that a class may have any function around its schema.  Only after and wrap
    functions are looked for: with a before function the class's validator is used inside
    of the same function, which is then called twice. *)
Theorem C84_before_refuted : exists own d cfg, own_ok own /\ d_schema d = Func Before 5 (own (d_cls d)) /\ classes (is_own own) (d_schema d)
  /\ behaviour (build (history [d]) cfg (d_schema d)) = TFunc Before 5 cfg (as_written cfg (d_schema d)).
Proof.
  exists c84_own, {| d_cls := 1; d_cfg := 9; d_schema := Func Before 5 c84_a |}, 9%nat.
  split; [apply C84_ex|]. split; [reflexivity|]. split; [cbn; tauto|]. reflexivity.
Qed.
Print Assumptions C84_before_refuted.

(** Refuted: that a schema is built from its text.  A class that is complete is not built
    again from another schema, and an earlier validator keeps what the class was. *)
Theorem C84_other_schema_refuted : exists d s cfg, behaviour (build (history [d]) cfg s) = as_written cfg (d_schema d) /\ as_written cfg s <> as_written cfg (d_schema d)
  /\ (exists dc g c s', s = Class dc (d_cls d) g c s').
Proof.
  exists {| d_cls := 1; d_cfg := 0; d_schema := c84_a |}, (Class false 1 false 7 (Node 3 [Node 2 []])), 0%nat.
  split; [reflexivity|]. split; [discriminate|]. do 4 eexists. reflexivity.
Qed.
Print Assumptions C84_other_schema_refuted.

Theorem C84_redefined_refuted : exists d1 d2 d1' s cfg, d_cls d1 = d_cls d1' /\ d_cls d1 <> d_cls d2
  /\ s = d_schema d2 /\ behaviour (build (history [d1; d2; d1']) cfg s) = behaviour (build (history [d1; d2]) cfg s)
  /\ behaviour (build (history [d1']) cfg s) <> behaviour (build (history [d1; d2; d1']) cfg s).
Proof.
  exists {| d_cls := 1; d_cfg := 0; d_schema := c84_a |}, {| d_cls := 2; d_cfg := 0; d_schema := c84_b |},
    {| d_cls := 1; d_cfg := 0; d_schema := Class false 1 false 7 (Node 3 [Node 2 []]) |}, c84_b, 0%nat.
  split; [reflexivity|]. split; [discriminate|]. split; [reflexivity|]. split; [reflexivity|]. discriminate.
Qed.
Print Assumptions C84_redefined_refuted.

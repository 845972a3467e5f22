(** C93: reusing the serializers of classes that are already complete does not change how a
    schema serializes, as long as each class is used with its own schema. *)
From Coq Require Import List NArith Bool Lia.
From Verif Require Import Base SerPrebuilt SerPrebuiltSpec.
Import ListNotations.

Section SchemaInd.
Variable P : schema -> Prop.
Hypothesis Pnode : forall k l, Forall P l -> P (Node k l).
Hypothesis Pfunc : forall s, P s -> P (Func s).
Hypothesis Pclass : forall dc cls g c s, P s -> P (Class dc cls g c s).
Hypothesis Pplain : forall f u ret s, P ret -> P s -> P (SerPlain f u ret s).
Hypothesis Pwrap : forall f u ret inner s, P ret -> (forall i, inner = Some i -> P i) -> P s -> P (SerWrap f u ret inner s).
Hypothesis Pother : forall k l s, Forall P l -> P (SerOther k l s).
Fixpoint schema_ind' (s : schema) : P s :=
  let go := fix go l : Forall P l := match l with [] => Forall_nil _ | s :: l => Forall_cons _ (schema_ind' s) (go l) end in
  match s with
  | Node k l => Pnode k l (go l)
  | Func s => Pfunc s (schema_ind' s)
  | Class dc cls g c s => Pclass dc cls g c s (schema_ind' s)
  | SerPlain f u ret s => Pplain f u ret s (schema_ind' ret) (schema_ind' s)
  | SerWrap f u ret inner s => Pwrap f u ret inner s (schema_ind' ret)
      (match inner as o return forall i, o = Some i -> P i with
       | Some j => fun i e => match e in _ = o return match o with Some i => P i | None => True end with eq_refl => schema_ind' j end
       | None => fun i e => match e in _ = o return match o with Some i => P i | None => True end with eq_refl => I end
       end) (schema_ind' s)
  | SerOther k l s => Pother k l s (go l)
  end.
End SchemaInd.

Lemma same_refl : forall call answer (a : sem call answer), same a a.
Proof. intros. split; [reflexivity|split; reflexivity]. Qed.

Section Sound.
Variable decl : N -> schema.
Variables call answer : Type.
Variable i : interp call answer.
Hypothesis R : respects i.

Notation M := (means i).

(** Names and retries do not depend on the config. *)
Lemma config_free : forall s c c', retry (M (as_written c s)) = retry (M (as_written c' s)) /\ name (M (as_written c s)) = name (M (as_written c' s)).
Proof.
  assert (L : forall l, Forall (fun s => forall c c', retry (M (as_written c s)) = retry (M (as_written c' s)) /\ name (M (as_written c s)) = name (M (as_written c' s))) l ->
    forall c c', map retry (map M (map (as_written c) l)) = map retry (map M (map (as_written c') l))
                 /\ map name (map M (map (as_written c) l)) = map name (map M (map (as_written c') l))).
  { intros l H. induction H as [|s l H _ IH]; intros c c'; [split; reflexivity|]. cbn [map].
    destruct (H c c') as [-> ->], (IH c c') as [-> ->]. split; reflexivity. }
  intros s. induction s using schema_ind'; intros c0 c1.
  - cbn [as_written means retry name]. destruct (L _ H c0 c1) as [-> ->]. split; reflexivity.
  - cbn [as_written]. apply IHs.
  - cbn [as_written means retry name]. split; reflexivity.
  - destruct (IHs1 c0 c1) as [E1 _], (IHs2 c0 c1) as [E2 _].
    cbn [as_written means retry name]. rewrite E1. split; [|reflexivity]. destruct u; [reflexivity| | |]; rewrite E2; reflexivity.
  - destruct (IHs1 c0 c1) as [E1 _], (IHs2 c0 c1) as [E2 E3].
    cbn [as_written means retry name]. rewrite E1. destruct inner as [j|].
    + destruct (H j eq_refl c0 c1) as [-> ->]. split; reflexivity.
    + rewrite E2, E3. split; reflexivity.
  - cbn [as_written means retry name]. destruct (L _ H c0 c1) as [-> ->]. split; reflexivity.
Qed.

(** How a call gets through the layers around a class schema. *)
Fixpoint reaches (s : schema) (q : call) : option (schema * call) :=
  match s with
  | Class _ _ _ _ _ => Some (s, q)
  | Func s => reaches s q
  | SerPlain _ u _ s => if should_use u (none i q) (json i q) then None else reaches s (unfiltered i q)
  | _ => None
  end.
(** The class schema whose retry, or whose name, shows. *)
Fixpoint core (s : schema) : option schema :=
  match s with
  | Class _ _ _ _ _ => Some s
  | Func s => core s
  | SerPlain _ u _ s => match u with Always => None | _ => core s end
  | _ => None
  end.
Fixpoint named (s : schema) : option schema :=
  match s with
  | Class _ _ _ _ _ => Some s
  | Func s => named s
  | _ => None
  end.

Lemma reaches_call : forall s q c q', reaches s q = Some (c, q') -> q' = q \/ q' = unfiltered i q.
Proof.
  intros s. induction s as [k1 l1 HN|s IH|dc1 cl1 g1 cc1 s1 HC|f u ret s _ IH|f1 u1 r1 in1 s1 HW1 HW2 HW3|k1 l1 s1 HO] using schema_ind'; intros q c q' H; cbn [reaches] in H; try discriminate.
  - eapply IH, H.
  - injection H as _ <-. left. reflexivity.
  - destruct (should_use u (none i q) (json i q)); [discriminate|]. destruct (IH _ _ _ H) as [->| ->]; right; [reflexivity|apply R].
Qed.

Lemma reaches_stable : forall s q c q', reaches s q = Some (c, q') -> reaches s q' = Some (c, q').
Proof.
  intros s. induction s as [k1 l1 HN|s IH|dc1 cl1 g1 cc1 s1 HC|f u ret s _ IH|f1 u1 r1 in1 s1 HW1 HW2 HW3|k1 l1 s1 HO] using schema_ind'; intros q c q' H; cbn [reaches] in *; try discriminate.
  - eapply IH, H.
  - injection H as <- <-. reflexivity.
  - destruct (should_use u (none i q) (json i q)) eqn:U; [discriminate|]. pose proof (IH _ _ _ H) as H'.
    assert (E : none i q' = none i q /\ json i q' = json i q /\ unfiltered i q' = q').
    { destruct (reaches_call _ _ _ _ H) as [->| ->]; [|rewrite (r_twice i R)]; rewrite (r_none i R), (r_json i R), (r_twice i R); split; [reflexivity|split; reflexivity|reflexivity|split; reflexivity]. }
    destruct E as (-> & -> & ->). rewrite U. exact H'.
Qed.

Lemma written_reached : forall s q c q' cfg, reaches s q = Some (c, q') -> ans (M (as_written cfg s)) q = ans (M (as_written cfg c)) q'.
Proof.
  intros s. induction s as [k1 l1 HN|s IH|dc1 cl1 g1 cc1 s1 HC|f u ret s _ IH|f1 u1 r1 in1 s1 HW1 HW2 HW3|k1 l1 s1 HO] using schema_ind'; intros q c q' cfg H; cbn [reaches] in H; try discriminate.
  - cbn [as_written]. apply IH, H.
  - injection H as <- <-. reflexivity.
  - destruct (should_use u (none i q) (json i q)) eqn:U; [discriminate|]. cbn [as_written means ans]. rewrite U.
    destruct u; [discriminate U| | |]; apply IH, H.
Qed.

Lemma core_retry : forall s c cfg, core s = Some c -> retry (M (as_written cfg c)) = true -> retry (M (as_written cfg s)) = true.
Proof.
  intros s. induction s as [k1 l1 HN|s IH|dc1 cl1 g1 cc1 s1 HC|f u ret s _ IH|f1 u1 r1 in1 s1 HW1 HW2 HW3|k1 l1 s1 HO] using schema_ind'; intros c0 cfg H; cbn [core] in H; try discriminate.
  - cbn [as_written]. apply IH, H.
  - injection H as <-. auto.
  - intros T. destruct u; [discriminate| | |]; cbn [as_written means retry]; rewrite (IH _ _ H T); reflexivity.
Qed.

Lemma written_named : forall s c cfg, named s = Some c -> name (M (as_written cfg s)) = name (M (as_written cfg c)).
Proof.
  intros s. induction s using schema_ind'; intros c0 cfg H0; cbn [named] in H0; try discriminate.
  - cbn [as_written]. apply IHs, H0.
  - injection H0 as <-. reflexivity.
Qed.

Section World.
Variable w : world.
Definition absent (cls : N) : Prop := forall dc g, get_prebuilt w dc g cls = None.
Definition stands (cls : N) (t : tree) : Prop :=
  declares cls (decl cls) /\ exists cfg, same (M t) (M (as_written cfg (decl cls))).
Definition sound : Prop := forall cls t, complete (w cls) = true -> stored (w cls) = Some t -> usable t = true -> stands cls t.

(** In the schema of a class: as it is written if the class has no serializer to take, and
    else up to where the class schema comes to be asked. *)
Definition within (cls : N) (s : schema) : Prop := forall cfg,
  (absent cls -> same (M (build w cfg s)) (M (as_written cfg s))) /\
  (forall t, get_prebuilt w false false cls = Some (TPre t) -> declares cls s ->
    (forall q, match reaches s q with
               | None => ans (M (build w cfg s)) q = ans (M (as_written cfg s)) q
               | Some (_, q') => ans (M (build w cfg s)) q = ans (M t) q' \/ ans (M (build w cfg s)) q = ans (M (as_written cfg s)) q
               end) /\
    match core s with
    | None => retry (M (build w cfg s)) = retry (M (as_written cfg s))
    | Some c => retry (M (build w cfg s)) = retry (M (as_written cfg s)) \/
        ((retry (M (as_written cfg c)) = true -> retry (M t) = true) -> retry (M (build w cfg s)) = retry (M (as_written cfg s)) || retry (M t))
    end /\
    match named s with
    | None => name (M (build w cfg s)) = name (M (as_written cfg s))
    | Some c => name (M (build w cfg s)) = name (M (as_written cfg s)) \/ name (M (build w cfg s)) = name (M t)
    end).

Hypothesis W : sound.

Lemma used_list : forall l, (fix all l := match l with [] => True | s :: l => used decl None s /\ all l end) l -> Forall (used decl None) l.
Proof. induction l as [|s l IH]; intros H; constructor; [apply H|apply IH, H]. Qed.

Definition goal (b : option N) (s : schema) : Prop :=
  match b with None => forall cfg, same (M (build w cfg s)) (M (as_written cfg s)) | Some cls => within cls s end.

Lemma lists : forall l, Forall (fun s => forall b, used decl b s -> goal b s) l -> Forall (used decl None) l ->
  forall cfg, Forall2 same (map M (map (build w cfg) l)) (map M (map (as_written cfg) l)).
Proof.
  intros l IH U cfg. induction l as [|s l IHl]; [constructor|]. inversion IH; subst. inversion U; subst. cbn [map]. constructor; [|auto].
  apply (H1 None); assumption.
Qed.
Lemma same_node : forall k cfg l l', Forall2 same (map M l) (map M l') -> same (M (TNode k cfg l)) (M (TNode k cfg l')).
Proof.
  intros k cfg l l' H. split; [|split].
  - cbn [means retry]. f_equal. induction H as [|x y xs ys (E & _) _ IH]; [reflexivity|]. cbn [map]. rewrite E, IH. reflexivity.
  - cbn [means name]. f_equal. induction H as [|x y xs ys (_ & E & _) _ IH]; [reflexivity|]. cbn [map]. rewrite E, IH. reflexivity.
  - intros q. cbn [means ans]. apply (r_node i R). exact H.
Qed.
Lemma same_class : forall dc cls g c t t', same (M t) (M t') -> same (M (TClass dc cls g c t)) (M (TClass dc cls g c t')).
Proof.
  intros dc cls g c t t' H. split; [|split].
  - cbn [means retry]. f_equal. apply H.
  - reflexivity.
  - intros q. cbn [means ans]. apply (r_class i R). exact H.
Qed.
Lemma prebuilt_any : forall dc g cls, get_prebuilt w dc g cls = None \/ get_prebuilt w dc g cls = get_prebuilt w false false cls.
Proof. intros [] [] cls; [left; reflexivity|right; reflexivity|right; reflexivity|right; reflexivity]. Qed.
Lemma prebuilt_form : forall cls, absent cls \/ exists t, get_prebuilt w false false cls = Some (TPre t) /\ stands cls t.
Proof.
  intros cls. destruct (get_prebuilt w false false cls) as [t|] eqn:G.
  - right. unfold get_prebuilt in G. cbn [andb] in G. destruct (complete (w cls)) eqn:Co; [|discriminate].
    destruct (stored (w cls)) as [t'|] eqn:St; [|discriminate]. destruct (usable t') eqn:Us; [|discriminate].
    injection G as <-. exists t'. split; [reflexivity|]. apply W; assumption.
  - left. intros dc g. destruct (prebuilt_any dc g cls) as [E|E]; [exact E|]. rewrite E. exact G.
Qed.

(** The schema of a class as a whole. *)
Lemma whole : forall cls, within cls (decl cls) -> goal None (decl cls).
Proof.
  intros cls H cfg. destruct (H cfg) as [HA HB]. destruct (prebuilt_form cls) as [A|(t & G & D & cfg0 & Er & En & Ea)]; [apply HA, A|].
  destruct (HB t G D) as (Ba & Br & Bn). destruct (config_free (decl cls) cfg0 cfg) as [Cr Cn]. split; [|split].
  - destruct (core (decl cls)) as [c|] eqn:K; [|exact Br]. destruct Br as [Br|Br]; [exact Br|].
    rewrite Br; rewrite Er, Cr; [apply orb_diag|]. apply (core_retry _ _ _ K).
  - destruct (named (decl cls)) as [c|]; [|exact Bn]. destruct Bn as [Bn|Bn]; [exact Bn|]. rewrite Bn, En. exact Cn.
  - intros q. specialize (Ba q). destruct (reaches (decl cls) q) as [[c q']|] eqn:K; [|exact Ba]. destruct Ba as [Ba|Ba]; [|exact Ba].
    rewrite Ba, Ea, (written_reached _ _ _ _ cfg K), (written_reached _ _ _ _ cfg0 (reaches_stable _ _ _ _ K)).
    clear - K. revert q K. generalize (decl cls). intros s.
    assert (F : forall q, reaches s q = Some (c, q') -> exists dc cls' g cc s', c = Class dc cls' g cc s').
    { induction s as [k1 l1 HN|s IH|dc1 cl1 g1 cc1 s1 HC|f u ret s _ IH|f1 u1 r1 in1 s1 HW1 HW2 HW3|k1 l1 s1 HO] using schema_ind'; intros q H; cbn [reaches] in H; try discriminate.
      - eapply IH, H.
      - injection H as <- _. do 5 eexists. reflexivity.
      - destruct (should_use u (none i q) (json i q)); [discriminate|]. eapply IH, H. }
    intros q K. destruct (F q K) as (dc & cls' & g & cc & s' & ->). reflexivity.
Qed.

Lemma same_plain : forall f u r r' b b', same (M r) (M r') -> (u = Always \/ same (M b) (M b')) ->
  same (M (TPlain f u r (match u with Always => None | _ => Some b end))) (M (TPlain f u r' (match u with Always => None | _ => Some b' end))).
Proof.
  intros f u r r' b b' Hr Hb. split; [|split].
  - destruct Hr as [Er _]. destruct u; cbn [means retry]; [rewrite Er; reflexivity| | |]; (destruct Hb as [Hb|[Eb _]]; [discriminate|]; rewrite Er, Eb; reflexivity).
  - reflexivity.
  - intros q. destruct u; cbn [means ans should_use]; [apply (r_plain i R); exact Hr| | |];
      (destruct Hb as [Hb|(_ & _ & Eb)]; [discriminate|]).
    + destruct (negb (none i q)); [apply (r_plain i R); exact Hr|apply Eb].
    + destruct (json i q); [apply (r_plain i R); exact Hr|apply Eb].
    + destruct (json i q && negb (none i q)); [apply (r_plain i R); exact Hr|apply Eb].
Qed.
Lemma same_wrap : forall f u r r' t t', same (M r) (M r') -> same (M t) (M t') -> same (M (TWrap f u r t)) (M (TWrap f u r' t')).
Proof.
  intros f u r r' t t' Hr Ht. split; [|split].
  - cbn [means retry]. destruct Hr as [-> _], Ht as [-> _]. reflexivity.
  - cbn [means name]. destruct Ht as (_ & -> & _). reflexivity.
  - intros q. cbn [means ans]. destruct (should_use u (none i q) (json i q)); [apply (r_wrap i R); assumption|apply Ht].
Qed.
Lemma declares_inv : forall cls s, declares cls s ->
  match s with
  | Func s => declares cls s
  | SerPlain _ u _ s => u = Always \/ declares cls s
  | SerWrap _ _ _ _ _ | Node _ _ => False
  | _ => True
  end.
Proof. intros cls s D. destruct D; auto. Qed.

Lemma build_sound : forall s b, used decl b s -> goal b s.
Proof.
  intros s. induction s as [k l IH|s IH|dc cls g c s IH|f u ret s IHr IHs|f u ret inner s IHr IHi IHs|k l s IH] using schema_ind';
    intros b (b' & Hb & C);
    match goal with |- goal b ?x => assert (G : goal b' x); [|destruct Hb as [<-|(-> & cl & -> & E)]; [exact G|rewrite E in *; apply whole, G]] end; clear Hb.
  - destruct C as [-> C]. intros cfg. cbn [build as_written]. apply same_node, lists; [exact IH|apply used_list, C].
  - specialize (IH b' C). destruct b' as [cls|]; cbn [goal] in *.
    + intros cfg. destruct (IH cfg) as [HA HB]. split; [exact HA|]. intros t Ht D. apply declares_inv in D. exact (HB t Ht D).
    + exact IH.
  - destruct C as [O C]. specialize (IH None C). cbn [goal] in IH. destruct b' as [cl|]; cbn [goal].
    + destruct O as [O|[O _]]; [|discriminate]. injection O as ->. intros cfg.
      assert (A : get_prebuilt w dc g cls = None -> same (M (build w cfg (Class dc cls g c s))) (M (as_written cfg (Class dc cls g c s)))).
      { intros N. cbn [build as_written]. rewrite N. apply same_class, IH. }
      split; [intros N; apply A, N|]. intros t Ht _. destruct (prebuilt_any dc g cls) as [N|N].
      * destruct (A N) as (Ar & An & Aa). cbn [reaches core named].
        split; [intros q; right; apply Aa|]. split; [left; exact Ar|left; exact An].
      * cbn [reaches core named build]. rewrite N, Ht. change (M (TPre t)) with (M t).
        split; [intros q; left; reflexivity|]. split; [|right; reflexivity].
        right. intros L. destruct (retry (M (as_written cfg (Class dc cls g c s)))) eqn:E; [|reflexivity]. rewrite (L eq_refl). reflexivity.
    + destruct O as [O|(_ & -> & ->)]; [discriminate|]. intros cfg. cbn [build as_written get_prebuilt andb]. apply same_class, IH.
  - destruct C as [Cr C]. specialize (IHr None Cr). cbn [goal] in IHr. destruct b' as [cls|]; cbn [goal].
    + assert (IHs' : u = Always \/ within cls s) by (destruct C as [C|C]; [left; exact C|right; exact (IHs (Some cls) C)]).
      intros cfg. split.
      * intros A. cbn [build as_written]. apply same_plain; [apply IHr|]. destruct IHs' as [H|H]; [left; exact H|right; apply (H cfg), A].
      * intros t Ht D. apply declares_inv in D. destruct IHs' as [->|H].
        { assert (S : same (M (build w cfg (SerPlain f Always ret s))) (M (as_written cfg (SerPlain f Always ret s)))).
          { cbn [build as_written]. apply (same_plain f Always _ _ (build w cfg s) (as_written cfg s)); [apply IHr|left; reflexivity]. }
          destruct S as (Sr & Sn & Sa). cbn [reaches should_use core named]. split; [exact Sa|split; [exact Sr|exact Sn]]. }
        destruct D as [->|D].
        { assert (S : same (M (build w cfg (SerPlain f Always ret s))) (M (as_written cfg (SerPlain f Always ret s)))).
          { cbn [build as_written]. apply (same_plain f Always _ _ (build w cfg s) (as_written cfg s)); [apply IHr|left; reflexivity]. }
          destruct S as (Sr & Sn & Sa). cbn [reaches should_use core named]. split; [exact Sa|split; [exact Sr|exact Sn]]. }
        destruct (H cfg) as [_ HB]. destruct (HB t Ht D) as (Ba & Br & _). destruct (IHr cfg) as (Rr & Rn & Ra). split; [|split; [|reflexivity]].
        { intros q. cbn [reaches build as_written means ans]. destruct (should_use u (none i q) (json i q)) eqn:U.
          - apply (r_plain i R). apply IHr.
          - destruct u; [discriminate U| | |]; specialize (Ba (unfiltered i q)); exact Ba. }
        { destruct u; cbn [core build as_written means retry].
          - rewrite Rr. reflexivity.
          - destruct (core s) as [c|]; [|rewrite Rr, Br; reflexivity]. destruct Br as [Br|Br]; [left; rewrite Rr, Br; reflexivity|].
            right. intros L. rewrite Rr, (Br L). rewrite <- !orb_assoc. f_equal. apply orb_comm.
          - destruct (core s) as [c|]; [|rewrite Rr, Br; reflexivity]. destruct Br as [Br|Br]; [left; rewrite Rr, Br; reflexivity|].
            right. intros L. rewrite Rr, (Br L). rewrite <- !orb_assoc. f_equal. apply orb_comm.
          - destruct (core s) as [c|]; [|rewrite Rr, Br; reflexivity]. destruct Br as [Br|Br]; [left; rewrite Rr, Br; reflexivity|].
            right. intros L. rewrite Rr, (Br L). rewrite <- !orb_assoc. f_equal. apply orb_comm. }
    + intros cfg. cbn [build as_written]. apply same_plain; [apply IHr|]. destruct C as [C|C]; [left; exact C|right; exact (IHs None C cfg)].
  - destruct C as [Cr C]. specialize (IHr None Cr). cbn [goal] in IHr. destruct b' as [cls|]; cbn [goal].
    + intros cfg. split; [|intros t Ht D; apply declares_inv in D; destruct D].
      intros A. cbn [build as_written]. apply same_wrap; [apply IHr|]. destruct inner as [j|]; [exact (IHi j eq_refl None C cfg)|].
      exact (proj1 (IHs (Some cls) C cfg) A).
    + intros cfg. cbn [build as_written]. apply same_wrap; [apply IHr|]. destruct inner as [j|]; [exact (IHi j eq_refl None C cfg)|exact (IHs None C cfg)].
  - assert (S : forall cfg, same (M (build w cfg (SerOther k l s))) (M (as_written cfg (SerOther k l s)))).
    { intros cfg. cbn [build as_written]. apply same_node, lists; [exact IH|apply used_list, C]. }
    destruct b' as [cls|]; cbn [goal]; [|exact S]. intros cfg. split; [intros _; apply S|]. intros t _ _.
    destruct (S cfg) as (Sr & Sn & Sa). cbn [reaches core named]. split; [exact Sa|split; [exact Sr|exact Sn]].
Qed.
End World.

Lemma wrapped_unusable : forall w cfg s, wrapped s -> usable (build w cfg s) = false.
Proof. intros w cfg s H. induction H; [reflexivity|]. cbn [build]. exact IHwrapped. Qed.

Lemma define_sound : forall w d, sound w -> d_schema d = decl (d_cls d) -> declares (d_cls d) (d_schema d) \/ wrapped (d_schema d) ->
  used decl None (d_schema d) -> sound (define w d).
Proof.
  intros w d W E D U. unfold define.
  assert (W' : sound (set w (d_cls d) {| complete := false; stored := None |})).
  { intros cls t. unfold set. destruct (cls =? d_cls d)%N; cbn [complete stored]; [discriminate|apply W]. }
  set (w' := set w (d_cls d) {| complete := false; stored := None |}) in *.
  intros cls t Co St Us. unfold set in Co, St. destruct (N.eqb_spec cls (d_cls d)) as [->|NE].
  - cbn [stored] in St. injection St as <-. destruct D as [D|D]; [|rewrite (wrapped_unusable _ _ _ D) in Us; discriminate].
    rewrite E in D. split; [exact D|]. exists (d_cfg d). rewrite <- E. exact (build_sound w' W' _ None U (d_cfg d)).
  - apply W'; assumption.
Qed.

Lemma history_sound : forall l, consistent decl l -> sound (history l).
Proof.
  intros l. unfold history. assert (G : forall w, sound w -> consistent decl l -> sound (fold_left define l w)).
  { induction l as [|d l IH]; intros w W H; [exact W|]. inversion H as [|? ? (E & D & U) H']; subst. cbn [fold_left].
    apply IH; [|exact H']. apply define_sound; assumption. }
  apply G. intros cls t Co. discriminate.
Qed.

(** After any definitions of classes, each made with its own schema (with validator functions,
    plain serializer functions and replacing serializations, or an outermost wrap serializer),
    every schema that uses the classes so serializes as if it was built from its text alone,
    under any config and whatever the other serializers and the functions do. *)
Theorem C93_as_written : forall l s cfg, consistent decl l -> used decl None s -> same (M (build (history l) cfg s)) (M (as_written cfg s)).
Proof. intros l s cfg L U. exact (build_sound _ (history_sound l L) s None U cfg). Qed.

(** So it does not matter in which order the classes were defined, or whether they were. *)
Theorem C93_order : forall l l' s cfg, consistent decl l -> consistent decl l' -> used decl None s ->
  same (M (build (history l) cfg s)) (M (build (history l') cfg s)).
Proof.
  intros l l' s cfg L L' U. destruct (C93_as_written l s cfg L U) as (A & B & C), (C93_as_written l' s cfg L' U) as (A' & B' & C').
  split; [congruence|split; [congruence|]]. intros q. rewrite C, C'. reflexivity.
Qed.
End Sound.
Print Assumptions C93_as_written.
Print Assumptions C93_order.

(** A class that is not complete, one without a stored serializer, one whose serializer is a
    wrap function, and a parametrized generic dataclass, are built from the schema that is
    given, whatever else is stored. *)
Theorem C93_not_used : forall w dc cls g c s cfg,
  complete (w cls) = false \/ stored (w cls) = None
  \/ (exists f u r t, stored (w cls) = Some (TWrap f u r t)) \/ (dc = true /\ g = true) ->
  build w cfg (Class dc cls g c s) = TClass dc cls g c (build w c s).
Proof.
  intros w dc cls g c s cfg H. cbn [build]. unfold get_prebuilt.
  destruct H as [H|[H|[(f & u & r & t & H)|[-> ->]]]]; [| | |reflexivity].
  - rewrite H. destruct (dc && g); reflexivity.
  - rewrite H. destruct (dc && g), (complete (w cls)); reflexivity.
  - rewrite H. destruct (dc && g), (complete (w cls)); reflexivity.
Qed.
Print Assumptions C93_not_used.

(** A complete class's serializer is used for every other schema of the class, a plain
    function and all, and neither the text of that schema nor the config around it matters. *)
Theorem C93_used : forall call answer (i : interp call answer) w dc cls g c s cfg t,
  dc && g = false -> complete (w cls) = true -> stored (w cls) = Some t -> (forall f u r t', t <> TWrap f u r t') ->
  means i (build w cfg (Class dc cls g c s)) = means i t.
Proof.
  intros call answer i w dc cls g c s cfg t D Co St U. cbn [build]. unfold get_prebuilt. rewrite D, Co, St.
  destruct t as [| | |f u r t'|]; try reflexivity. exfalso. exact (U f u r t' eq_refl).
Qed.
Print Assumptions C93_used.

(** Serializers that tell which classes and functions a call gets to: a call is whether the
    value is None, whether the mode is json, and whether there are filters. *)
Definition c93_call : Type := bool * bool * bool.
Inductive event := AtClass (cls : N) (cfg : nat) | AtPlain (f : nat) | AtWrap (f : nat) | AtNode (k : nat) (cfg : nat) (filtered : bool) | Panic.
Definition c93_trace : interp c93_call (list event) := {|
  none := fun q => fst (fst q); json := fun q => snd (fst q); unfiltered := fun q => (fst q, false);
  node_retry := fun _ l => existsb (fun b => b) l; node_name := fun k _ => k;
  node := fun k c l q => AtNode k c (snd q) :: concat (map (fun m => ans m q) l);
  class_retry := fun dc _ => negb dc; class_name := N.to_nat; class := fun _ cls _ c m q => AtClass cls c :: ans m q;
  plain_name := fun f => f; plain := fun f r q => AtPlain f :: ans r q;
  wrap_name := fun f n => f + n; wrap := fun f r m q => AtWrap f :: ans m q ++ ans r q;
  panic := fun _ => [Panic] |}.
Lemma c93_respects : respects c93_trace.
Proof.
  constructor; try reflexivity.
  - intros k c l l' q H. cbn. f_equal. induction H as [|x y xs ys (_ & _ & E) _ IH]; [reflexivity|]. cbn. rewrite E, IH. reflexivity.
  - intros dc cls g c m m' q (_ & _ & E). cbn. rewrite E. reflexivity.
  - intros f r r' q (_ & _ & E). cbn. rewrite E. reflexivity.
  - intros f r r' m m' q (_ & _ & E) (_ & _ & E'). cbn. rewrite E, E'. reflexivity.
Qed.

(** Three classes: one with a plain function for json, one with a field of the first and a
    validator function, and one with a wrap function. *)
Definition c93_any : schema := Node 0 [].
Definition c93_a : schema := SerPlain 5 Json c93_any (Class false 1 false 7 (Node 3 [Node 1 []])).
Definition c93_b : schema := Func (Class false 2 false 8 (Node 3 [c93_a])).
Definition c93_c : schema := SerWrap 6 Always c93_any None (Class true 3 false 9 (Node 4 [c93_b])).
Definition c93_decl (cls : N) : schema := if (cls =? 1)%N then c93_a else if (cls =? 2)%N then c93_b else c93_c.
Definition c93_defs : list definition :=
  [{| d_cls := 1; d_cfg := 0; d_schema := c93_a |}; {| d_cls := 2; d_cfg := 0; d_schema := c93_b |}; {| d_cls := 3; d_cfg := 0; d_schema := c93_c |}].
Lemma c93_used_a : used c93_decl None c93_a.
Proof.
  exists (Some 1%N). split; [right; split; [reflexivity|exists 1%N; split; reflexivity]|].
  split; [exists None; split; [left; reflexivity|split; [reflexivity|exact I]]|]. right.
  exists (Some 1%N). split; [left; reflexivity|]. split; [left; reflexivity|].
  exists None. split; [left; reflexivity|]. split; [reflexivity|]. split; [|exact I].
  exists None. split; [left; reflexivity|]. split; [reflexivity|exact I].
Qed.
Lemma c93_used_b : used c93_decl None c93_b.
Proof.
  exists (Some 2%N). split; [right; split; [reflexivity|exists 2%N; split; reflexivity]|].
  exists (Some 2%N). split; [left; reflexivity|]. split; [left; reflexivity|].
  exists None. split; [left; reflexivity|]. split; [reflexivity|]. split; [exact c93_used_a|exact I].
Qed.
Lemma c93_used_c : used c93_decl None c93_c.
Proof.
  exists (Some 3%N). split; [right; split; [reflexivity|exists 3%N; split; reflexivity]|].
  split; [exists None; split; [left; reflexivity|split; [reflexivity|exact I]]|].
  exists (Some 3%N). split; [left; reflexivity|]. split; [left; reflexivity|].
  exists None. split; [left; reflexivity|]. split; [reflexivity|]. split; [exact c93_used_b|exact I].
Qed.
Example C93_ex : respects c93_trace /\ consistent c93_decl c93_defs /\ used c93_decl None (Node 9 [c93_c; c93_a])
  /\ build (history c93_defs) 2 c93_a
     = TPlain 5 Json (TNode 0 2 []) (Some (TPre (TPlain 5 Json (TNode 0 0 []) (Some (TClass false 1 false 7 (TNode 3 7 [TNode 1 7 []]))))))
  /\ ans (means c93_trace (build (history c93_defs) 2 c93_a)) (false, true, true) = [AtPlain 5; AtNode 0 2 true]
  /\ ans (means c93_trace (build (history c93_defs) 2 c93_a)) (false, false, true) = [AtClass 1 7; AtNode 3 7 false; AtNode 1 7 false]
  /\ ans (means c93_trace (build (history c93_defs) 2 c93_c)) (false, false, true)
     = [AtWrap 6; AtClass 3 9; AtNode 4 9 true; AtClass 2 8; AtNode 3 8 true; AtClass 1 7; AtNode 3 7 false; AtNode 1 7 false; AtNode 0 2 true].
Proof.
  split; [exact c93_respects|]. split; [|split; [|split; [|split; [|split]]]].
  - apply Forall_cons; [|apply Forall_cons; [|apply Forall_cons; [|apply Forall_nil]]].
    + split; [reflexivity|]. split; [left; apply D_plain; apply D_class|exact c93_used_a].
    + split; [reflexivity|]. split; [left; apply D_func; apply D_class|exact c93_used_b].
    + split; [reflexivity|]. split; [right; constructor|exact c93_used_c].
  - exists None. split; [left; reflexivity|]. split; [reflexivity|]. split; [exact c93_used_c|]. split; [exact c93_used_a|exact I].
  - reflexivity.
  - reflexivity.
  - reflexivity.
  - reflexivity.
Qed.

(** Refuted: that a serializer function given where a class is used takes the place of the
    class's own.  It does in the schema, but where the function is not to be used, or calls
    its handler, the class's serializer is taken with the class's function in it.  While the
    class is not complete it is as written. *)
Definition c93_core : schema := Class false 1 false 7 (Node 3 [Node 1 []]).
Definition c93_d : definition := {| d_cls := 1; d_cfg := 0; d_schema := SerPlain 5 Always c93_any c93_core |}.
Theorem C93_override_refuted : exists s q, s = SerPlain 8 Json c93_any c93_core
  /\ ans (means c93_trace (as_written 0 s)) q = [AtClass 1 7; AtNode 3 7 false; AtNode 1 7 false]
  /\ ans (means c93_trace (build (history []) 0 s)) q = ans (means c93_trace (as_written 0 s)) q
  /\ ans (means c93_trace (build (history [c93_d]) 0 s)) q = [AtPlain 5; AtNode 0 0 false].
Proof.
  exists (SerPlain 8 Json c93_any c93_core), (false, false, true).
  split; [reflexivity|]. split; [reflexivity|]. split; reflexivity.
Qed.
Print Assumptions C93_override_refuted.
Theorem C93_handler_refuted : exists s q, s = SerWrap 8 Always c93_any None c93_core
  /\ ans (means c93_trace (as_written 0 s)) q = [AtWrap 8; AtClass 1 7; AtNode 3 7 true; AtNode 1 7 true; AtNode 0 0 true]
  /\ ans (means c93_trace (build (history []) 0 s)) q = ans (means c93_trace (as_written 0 s)) q
  /\ ans (means c93_trace (build (history [c93_d]) 0 s)) q = [AtWrap 8; AtPlain 5; AtNode 0 0 true; AtNode 0 0 true].
Proof.
  exists (SerWrap 8 Always c93_any None c93_core), (false, false, true).
  split; [reflexivity|]. split; [reflexivity|]. split; reflexivity.
Qed.
Print Assumptions C93_handler_refuted.

(** Refuted: that a class may have any serializers around its schema.  Only the outermost one
    is looked at: a wrap function below a plain function that is not used is called twice. *)
Theorem C93_wrap_below_refuted : exists d q, d_schema d = SerPlain 5 Json c93_any (Func (SerWrap 6 Always c93_any None c93_core))
  /\ used (fun _ => d_schema d) None (d_schema d)
  /\ ans (means c93_trace (as_written 0 (d_schema d))) q = [AtWrap 6; AtClass 1 7; AtNode 3 7 false; AtNode 1 7 false; AtNode 0 0 false]
  /\ ans (means c93_trace (build (history [d]) 0 (d_schema d))) q
     = [AtWrap 6; AtWrap 6; AtClass 1 7; AtNode 3 7 false; AtNode 1 7 false; AtNode 0 0 false; AtNode 0 0 false].
Proof.
  exists {| d_cls := 1; d_cfg := 0; d_schema := SerPlain 5 Json c93_any (Func (SerWrap 6 Always c93_any None c93_core)) |}, (false, false, true).
  split; [reflexivity|]. split; [|split; reflexivity].
  exists (Some 1%N). split; [right; split; [reflexivity|exists 1%N; split; reflexivity]|].
  split; [exists None; split; [left; reflexivity|split; [reflexivity|exact I]]|]. right.
  exists (Some 1%N). split; [left; reflexivity|].
  exists (Some 1%N). split; [left; reflexivity|].
  split; [exists None; split; [left; reflexivity|split; [reflexivity|exact I]]|].
  exists (Some 1%N). split; [left; reflexivity|]. split; [left; reflexivity|].
  exists None. split; [left; reflexivity|]. split; [reflexivity|]. split; [|exact I].
  exists None. split; [left; reflexivity|]. split; [reflexivity|exact I].
Qed.
Print Assumptions C93_wrap_below_refuted.

(** Refuted: that a schema is built from its text.  A class that is complete is not built
    again from another schema. *)
Theorem C93_other_schema_refuted : exists s q, (exists c s', s = Class false 1 false c s' /\ c <> 7%nat)
  /\ ans (means c93_trace (build (history c93_defs) 0 s)) q <> ans (means c93_trace (as_written 0 s)) q
  /\ forall c s', ans (means c93_trace (build (history c93_defs) 0 (Class false 1 false c s'))) q = ans (means c93_trace (build (history c93_defs) 0 s)) q.
Proof.
  exists (Class false 1 false 4 (Node 3 [Node 2 []])), (false, false, false).
  split; [do 2 eexists; split; [reflexivity|discriminate]|]. split; [discriminate|]. reflexivity.
Qed.
Print Assumptions C93_other_schema_refuted.

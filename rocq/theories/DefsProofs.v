From Coq Require Import List NArith Bool Lia.
From Verif Require Import Base Defs DefsSpec.
Import ListNotations.

Fixpoint schema_ind' (P : schema -> Prop)
  (Hn : forall l ss, Forall P ss -> P (SNode l ss))
  (Hr : forall r, P (SRef r))
  (Hd : forall ds i, Forall (fun d => P (snd d)) ds -> P i -> P (SDefs ds i)) (s : schema) : P s :=
  match s with
  | SNode l ss => Hn l ss ((fix go ss := match ss return Forall P ss with
                                         | [] => Forall_nil _
                                         | x :: r => Forall_cons _ (schema_ind' P Hn Hr Hd x) (go r)
                                         end) ss)
  | SRef r => Hr r
  | SDefs ds i => Hd ds i ((fix go ds := match ds return Forall (fun d => P (snd d)) ds with
                                         | [] => Forall_nil _
                                         | x :: r => Forall_cons _ (schema_ind' P Hn Hr Hd (snd x)) (go r)
                                         end) ds) (schema_ind' P Hn Hr Hd i)
  end.

Definition names (b : builder) : list str := map fst b.
Definition content (b : builder) (r : str) : option vnode :=
  match assoc r b with Some c => c | None => None end.

Inductive repr (ns : list str) : schema -> vnode -> Prop :=
| R_node l ss vs : Forall2 (repr ns) ss vs -> repr ns (SNode l ss) (VNode l vs)
| R_ref r i : nth_error ns i = Some r -> repr ns (SRef r) (VRef i)
| R_defs ds s v : repr ns s v -> repr ns (SDefs ds s) v.

Lemma repr_ext ns ext : forall s v, repr ns s v -> repr (ns ++ ext) s v.
Proof.
  induction s as [l ss IH|r|ds i IHd IH] using schema_ind'; intros v H; inversion H; subst.
  - constructor. clear H. match goal with F : Forall2 _ _ _ |- _ => revert IH; induction F as [|s v ss vs Hsv Hr IHr] end; intros IH; [constructor|].
    inversion IH; subst. constructor; auto.
  - constructor. rewrite nth_error_app1; auto. apply nth_error_Some. congruence.
  - constructor. auto.
Qed.

Definition step (D : list (str * schema)) (R : list str) (b b' : builder) : Prop :=
  (exists ext, names b' = names b ++ ext) /\ NoDup (names b') /\
  (forall r, In r (names b') <-> In r (names b) \/ In r R \/ In r (map fst D)) /\
  NoDup (map fst D) /\ (forall r, In r (map fst D) -> content b r = None) /\
  (forall r v, content b r = Some v -> content b' r = Some v) /\
  (forall r v, content b' r = Some v -> content b r = Some v \/ exists s, In (r, s) D /\ repr (names b') s v) /\
  (forall r, In r (map fst D) -> content b' r <> None).

Definition dup (r : str) (D : list (str * schema)) (b : builder) : Prop :=
  In r (map fst D) /\ (content b r <> None \/ 2 <= count_occ str_eq_dec (map fst D) r).

Lemma NoDup_app_iff {A} (l1 l2 : list A) :
  NoDup (l1 ++ l2) <-> NoDup l1 /\ NoDup l2 /\ forall x, In x l1 -> ~ In x l2.
Proof.
  induction l1 as [|x l1 IH]; simpl.
  - split; [intros H; repeat split; auto; constructor | tauto].
  - rewrite !NoDup_cons_iff, IH, in_app_iff. split.
    + intros [H1 [H2 [H3 H4]]]. repeat split; auto. intros y [->|Hy]; auto.
    + intros [[H1 H2] [H3 H4]]. repeat split; auto. intros [H|H]; [auto|]. apply (H4 x); auto.
Qed.

Lemma step_trans D1 R1 D2 R2 b b1 b2 :
  step D1 R1 b b1 -> step D2 R2 b1 b2 -> step (D1 ++ D2) (R1 ++ R2) b b2.
Proof.
  intros (A1 & A2 & A3 & A4 & A5 & A6 & A7 & A8) (B1 & B2 & B3 & B4 & B5 & B6 & B7 & B8).
  unfold step. rewrite map_app.
  destruct A1 as [e1 A1], B1 as [e2 B1].
  repeat split.
  - exists (e1 ++ e2). rewrite B1, A1, app_assoc. reflexivity.
  - assumption.
  - intros H. rewrite B3, A3 in H. rewrite !in_app_iff. tauto.
  - intros H. rewrite B3, A3. rewrite !in_app_iff in H. tauto.
  - apply NoDup_app_iff. repeat split; auto. intros r H1 H2. apply (A8 r H1). auto.
  - intros r H. apply in_app_iff in H as [H|H]; auto.
    destruct (content b r) eqn:E; [|reflexivity]. apply A6 in E. rewrite (B5 r H) in E. discriminate.
  - auto.
  - intros r v H. destruct (B7 r v H) as [H1|[s [H1 H2]]].
    + destruct (A7 r v H1) as [H2|[s [H2 H3]]]; [auto|]. right. exists s. split; [apply in_app_iff; auto|].
      rewrite B1. apply repr_ext. assumption.
    + right. exists s. split; [apply in_app_iff; auto | assumption].
  - intros r H. apply in_app_iff in H as [H|H]; auto.
    destruct (content b1 r) as [v|] eqn:E; [|exfalso; eapply A8; eauto].
    rewrite (B6 r v E). discriminate.
Qed.

Lemma step_refl b : NoDup (names b) -> step [] [] b b.
Proof.
  intros H. unfold step. simpl. repeat split; auto; try tauto.
  - exists []. rewrite app_nil_r. reflexivity.
  - constructor.
Qed.

Lemma dup_l r D1 D2 b : dup r D1 b -> dup r (D1 ++ D2) b.
Proof.
  unfold dup. rewrite map_app, in_app_iff, count_occ_app. intros [H1 [H2|H2]]; split; auto. right. lia.
Qed.

Lemma dup_r r D1 R1 D2 b b1 : step D1 R1 b b1 -> dup r D2 b1 -> dup r (D1 ++ D2) b.
Proof.
  intros (A1 & A2 & A3 & A4 & A5 & A6 & A7 & A8) [H1 H2]. unfold dup.
  rewrite map_app, in_app_iff, count_occ_app. split; [auto|]. destruct H2 as [H2|H2]; [|right; lia].
  destruct (content b1 r) as [v|] eqn:E; [|contradiction].
  destruct (A7 r v E) as [E1|[s [E1 _]]]; [left; congruence|]. right.
  assert (In r (map fst D1)) by (apply in_map_iff; exists (r, s); auto).
  rewrite (count_occ_In str_eq_dec) in H, H1. lia.
Qed.

Lemma index_of_spec r b :
  match index_of r b with
  | Some i => nth_error (names b) i = Some r
  | None => ~ In r (names b)
  end.
Proof.
  induction b as [|[k c] b IH]; simpl; [tauto|].
  destruct (str_eqb r k) eqn:E.
  - apply str_eqb_eq in E. subst. reflexivity.
  - apply str_eqb_neq in E. destruct (index_of r b); simpl; [assumption|].
    intros [H|H]; [congruence|contradiction].
Qed.

Lemma assoc_app {B} r (l1 l2 : list (str * B)) :
  assoc r (l1 ++ l2) = match assoc r l1 with Some x => Some x | None => assoc r l2 end.
Proof. induction l1 as [|[k c] l1 IH]; simpl; [reflexivity|]. destruct (str_eqb r k); auto. Qed.

Lemma content_app b r c x :
  content (b ++ [(r, c)]) x =
  if mem_str x (names b) then content b x else if str_eqb x r then c else None.
Proof.
  unfold content. rewrite assoc_app. destruct (mem_str x (names b)) eqn:E.
  - apply mem_str_In in E. destruct (assoc x b) eqn:E1; [reflexivity|]. apply assoc_None in E1. contradiction.
  - apply mem_str_not_In in E. apply assoc_None in E. rewrite E. simpl. destruct (str_eqb x r); reflexivity.
Qed.

Lemma names_app b1 b2 : names (b1 ++ b2) = names b1 ++ names b2.
Proof. apply map_app. Qed.

Lemma NoDup_snoc {A} (l : list A) x : NoDup l -> ~ In x l -> NoDup (l ++ [x]).
Proof.
  intros H1 H2. apply NoDup_app_iff. repeat split; auto.
  - constructor; auto. constructor.
  - intros y Hy [->|[]]. contradiction.
Qed.

Lemma get_definition_step r b i b' :
  NoDup (names b) -> get_definition r b = (i, b') -> step [] [r] b b' /\ nth_error (names b') i = Some r.
Proof.
  unfold get_definition. intros Hn. pose proof (index_of_spec r b) as Hi.
  destruct (index_of r b) as [j|]; intros H; injection H as <- <-.
  - split; [|assumption]. unfold step. simpl. repeat split; auto.
    + exists []. rewrite app_nil_r. reflexivity.
    + intros [H|[[<-|[]]|[]]]; [assumption|]. eapply nth_error_In; eauto.
    + constructor.
    + tauto.
  - rewrite names_app. simpl. assert (Hl : length (names b) = length b) by apply map_length.
    split; [|rewrite nth_error_app2; rewrite Hl; [rewrite PeanoNat.Nat.sub_diag; reflexivity | lia]].
    assert (Hc : forall x, content (b ++ [(r, None)]) x = content b x).
    { intros x. rewrite content_app. destruct (mem_str x (names b)) eqn:E; [reflexivity|].
      apply mem_str_not_In in E. unfold content. apply assoc_None in E. rewrite E. destruct (str_eqb x r); reflexivity. }
    unfold step. rewrite names_app. simpl. repeat split.
    + exists [r]. reflexivity.
    + apply NoDup_snoc; auto.
    + rewrite in_app_iff. simpl. tauto.
    + rewrite in_app_iff. simpl. tauto.
    + constructor.
    + intros x [].
    + intros r0 v. rewrite Hc. auto.
    + intros r0 v. rewrite Hc. auto.
    + intros x [].
Qed.

Lemma set_slot_spec r v b :
  match set_slot r v b with
  | Some b' => names b' = names b /\ assoc r b = Some None /\
               forall x, content b' x = if str_eqb x r then Some v else content b x
  | None => assoc r b = None \/ content b r <> None
  end.
Proof.
  induction b as [|[k c] b IH]; simpl; [left; reflexivity|].
  destruct (str_eqb r k) eqn:E.
  - apply str_eqb_eq in E. subst k. destruct c as [w|].
    + right. unfold content. simpl. rewrite str_eqb_refl. discriminate.
    + split; [reflexivity|]. split; [reflexivity|]. intros x. unfold content. simpl.
      destruct (str_eqb x r); reflexivity.
  - destruct (set_slot r v b) as [b'|]; simpl.
    + destruct IH as (H1 & H2 & H3). split; [simpl; congruence|]. split; [assumption|].
      intros x. unfold content in *. simpl. destruct (str_eqb x k) eqn:E1.
      * apply str_eqb_eq in E1. subst x. rewrite str_eqb_sym in E. rewrite E. reflexivity.
      * apply H3.
    + destruct IH as [H|H]; [left; assumption|right]. unfold content in *. simpl. rewrite E. assumption.
Qed.

Lemma add_definition_step r s v b :
  NoDup (names b) -> repr (names b) s v ->
  match add_definition r v b with
  | Ok b' => step [(r, s)] [] b b'
  | Err e => e = DuplicateRef r /\ content b r <> None
  end.
Proof.
  intros Hn Hr. unfold add_definition. pose proof (index_of_spec r b) as Hi.
  destruct (index_of r b) as [i|].
  - pose proof (set_slot_spec r v b) as Hs. destruct (set_slot r v b) as [b'|].
    + destruct Hs as (H1 & H2 & H3). unfold step. rewrite H1. simpl.
      assert (Hin : In r (names b)) by (eapply nth_error_In; eauto).
      assert (Hc : content b r = None) by (unfold content; rewrite H2; reflexivity).
      repeat split; auto.
      * exists []. rewrite app_nil_r. reflexivity.
      * intros [H|[[]|[<-|[]]]]; assumption.
      * constructor; [tauto|constructor].
      * intros x [<-|[]]. assumption.
      * intros x w Hw. rewrite H3. destruct (str_eqb x r) eqn:E; [|assumption].
        apply str_eqb_eq in E. subst. congruence.
      * intros x w. rewrite H3. destruct (str_eqb x r) eqn:E; [|auto].
        apply str_eqb_eq in E. subst. intros Hw. injection Hw as <-. right. exists s. auto.
      * intros x [<-|[]]. rewrite H3, str_eqb_refl. discriminate.
    + split; [reflexivity|]. destruct Hs as [Hs|Hs]; [|assumption].
      apply assoc_None in Hs. exfalso. apply Hs. eapply nth_error_In; eauto.
  - assert (Hm : mem_str r (names b) = false) by (apply mem_str_not_In; assumption).
    assert (Hc0 : content b r = None).
    { unfold content. apply assoc_None in Hi. rewrite Hi. reflexivity. }
    unfold step. rewrite names_app. simpl. repeat split.
    + exists [r]. reflexivity.
    + apply NoDup_snoc; auto.
    + rewrite in_app_iff. simpl. tauto.
    + rewrite in_app_iff. simpl. tauto.
    + constructor; [tauto|constructor].
    + intros x [<-|[]]. assumption.
    + intros x w Hw. rewrite content_app. destruct (mem_str x (names b)) eqn:E; [assumption|].
      apply mem_str_not_In in E. apply assoc_None in E. unfold content in Hw. rewrite E in Hw. discriminate.
    + intros x w. rewrite content_app. destruct (mem_str x (names b)) eqn:E; [auto|].
      destruct (str_eqb x r) eqn:E1; [|discriminate]. apply str_eqb_eq in E1. subst x. intros Hw. injection Hw as <-.
      right. exists s. split; [auto|]. apply repr_ext. assumption.
    + intros x [<-|[]]. rewrite content_app, Hm, str_eqb_refl. discriminate.
Qed.

Definition build_ok (s : schema) : Prop := forall b, NoDup (names b) ->
  match build s b with
  | Ok (v, b') => step (declared s) (referenced s) b b' /\ repr (names b') s v
  | Err e => exists r, e = DuplicateRef r /\ dup r (declared s) b
  end.

Lemma step_NoDup D R b b' : step D R b b' -> NoDup (names b').
Proof. unfold step. tauto. Qed.

Lemma repr_step D R b b' s v : step D R b b' -> repr (names b) s v -> repr (names b') s v.
Proof. intros ([e He] & _) H. rewrite He. apply repr_ext. assumption. Qed.

Lemma dup_one r s b : content b r <> None -> dup r [(r, s)] b.
Proof. intros H. split; simpl; auto. Qed.

Lemma build_correct s : build_ok s.
Proof.
  induction s as [l ss IH|r|ds i IHd IH] using schema_ind'; intros b Hb.
  - simpl.
    set (go := fix go (ss : list schema) (b : builder) : result (list vnode * builder) :=
               match ss with
               | [] => Ok ([], b)
               | s :: ss' =>
                   match build s b with
                   | Err e => Err e
                   | Ok (v, b1) =>
                       match go ss' b1 with
                       | Err e => Err e
                       | Ok (vs, b2) => Ok (v :: vs, b2)
                       end
                   end
               end).
    assert (H : forall b, NoDup (names b) ->
      match go ss b with
      | Ok (vs, b') => step (flat_map declared ss) (flat_map referenced ss) b b' /\ Forall2 (repr (names b')) ss vs
      | Err e => exists r, e = DuplicateRef r /\ dup r (flat_map declared ss) b
      end).
    { clear b Hb. induction IH as [|s ss Hs IHss IHgo]; intros b Hb; simpl.
      - split; [apply step_refl; assumption | constructor].
      - pose proof (Hs b Hb) as H1. destruct (build s b) as [[v b1]|e].
        + destruct H1 as [H1 H2]. pose proof (IHgo b1 (step_NoDup _ _ _ _ H1)) as H3.
          destruct (go ss b1) as [[vs b2]|e].
          * destruct H3 as [H3 H4]. split; [eapply step_trans; eauto|]. constructor; [|assumption].
            eapply repr_step; eauto.
          * destruct H3 as [r [H3 H4]]. exists r. split; [auto|]. eapply dup_r; eauto.
        + destruct H1 as [r [H1 H2]]. exists r. split; [auto|]. apply dup_l. assumption. }
    specialize (H b Hb). destruct (go ss b) as [[vs b']|e]; [|assumption].
    destruct H as [H1 H2]. split; [assumption|]. constructor. assumption.
  - simpl. destruct (get_definition r b) as [i b'] eqn:E.
    destruct (get_definition_step _ _ _ _ Hb E) as [H1 H2]. split; [assumption|]. constructor. assumption.
  - cbn [build declared referenced].
    set (go := fix go (ds : list (str * schema)) (b : builder) : result builder :=
               match ds with
               | [] => Ok b
               | (r, s) :: ds' =>
                   match build s b with
                   | Err e => Err e
                   | Ok (v, b1) =>
                       match add_definition r v b1 with
                       | Err e => Err e
                       | Ok b2 => go ds' b2
                       end
                   end
               end).
    set (fd := fun '(r, d) => declared d ++ [(r, d)]).
    set (fr := fun '(_, d) => referenced d).
    assert (H : forall b, NoDup (names b) ->
      match go ds b with
      | Ok b' => step (flat_map fd ds) (flat_map fr ds) b b'
      | Err e => exists r, e = DuplicateRef r /\ dup r (flat_map fd ds) b
      end).
    { clear b Hb. induction IHd as [|[r s] ds' Hs IHss IHgo]; intros b Hb; simpl in *.
      - apply step_refl; assumption.
      - pose proof (Hs b Hb) as H1. destruct (build s b) as [[v b1]|e].
        + destruct H1 as [H1 H2]. pose proof (add_definition_step r s v b1 (step_NoDup _ _ _ _ H1) H2) as H3.
          destruct (add_definition r v b1) as [b2|e].
          * pose proof (step_trans _ _ _ _ _ _ _ H1 H3) as H4. rewrite app_nil_r in H4.
            pose proof (IHgo b2 (step_NoDup _ _ _ _ H4)) as H5. destruct (go ds' b2) as [b3|e].
            -- eapply step_trans; eauto.
            -- destruct H5 as [x [H5 H6]]. exists x. split; [auto|]. eapply dup_r; eauto.
          * destruct H3 as [-> H3]. exists r. split; [reflexivity|].
            apply dup_l. eapply dup_r; eauto. apply dup_one. assumption.
        + destruct H1 as [x [H1 H2]]. exists x. split; [auto|]. apply dup_l, dup_l. assumption. }
    specialize (H b Hb). destruct (go ds b) as [b1|e].
    + pose proof (IH b1 (step_NoDup _ _ _ _ H)) as H1. destruct (build i b1) as [[v b2]|e].
      * destruct H1 as [H1 H2]. split; [eapply step_trans; eauto|]. constructor. assumption.
      * destruct H1 as [x [H1 H2]]. exists x. split; [auto|]. eapply dup_r; eauto.
    + destruct H as [x [H1 H2]]. exists x. split; [auto|]. apply dup_l. assumption.
Qed.

Lemma finish_spec b : NoDup (names b) ->
  match finish b with
  | Some r => In r (names b) /\ content b r = None
  | None => forall r, In r (names b) -> content b r <> None
  end.
Proof.
  induction b as [|[k c] b IH]; simpl; [tauto|]. intros Hn. apply NoDup_cons_iff in Hn as [H1 H2].
  assert (Hc : forall x, content ((k, c) :: b) x = if str_eqb x k then c else content b x).
  { intros x. unfold content. simpl. destruct (str_eqb x k); reflexivity. }
  destruct c as [v|].
  - specialize (IH H2). destruct (finish b) as [r|].
    + destruct IH as [H3 H4]. split; [auto|]. rewrite Hc. destruct (str_eqb r k) eqn:E; [|assumption].
      apply str_eqb_eq in E. subst. contradiction.
    + intros r [<-|H]; rewrite Hc; [rewrite str_eqb_refl; discriminate|].
      destruct (str_eqb r k); [discriminate|auto].
  - split; [auto|]. rewrite Hc, str_eqb_refl. reflexivity.
Qed.

Lemma assoc_NoDup {B} r (v : B) l : NoDup (map fst l) -> In (r, v) l -> assoc r l = Some v.
Proof.
  induction l as [|[k w] l IH]; simpl; [tauto|]. intros Hn [H|H]; apply NoDup_cons_iff in Hn as [H1 H2].
  - injection H as -> ->. rewrite str_eqb_refl. reflexivity.
  - destruct (str_eqb r k) eqn:E; [|auto]. apply str_eqb_eq in E. subst. exfalso. apply H1.
    apply in_map_iff. exists (k, v). auto.
Qed.

Lemma behaviour_correct b env :
  (forall i r, nth_error (names b) i = Some r -> exists s v, env r = Some s /\ read b i = Some v /\ repr (names b) s v) ->
  forall n s v, repr (names b) s v -> behaviour n b v = meaning n env s.
Proof.
  intros Henv. induction n as [|n IHn]; intros s v H; [reflexivity|].
  induction s as [l ss _|r|ds i _ IHi] using schema_ind'; inversion H; subst; cbn [behaviour meaning].
  - f_equal. clear H. match goal with F : Forall2 _ _ _ |- _ => induction F as [|s v ss vs Hsv Hr IHr] end; [reflexivity|]. simpl. rewrite IHr. f_equal. apply IHn. assumption.
  - match goal with E : nth_error _ _ = Some _ |- _ => destruct (Henv _ _ E) as (s & w & H3 & H4 & H5) end.
    rewrite H3, H4. apply IHn. assumption.
  - apply IHi. assumption.
Qed.

Lemma read_content b i r : NoDup (names b) -> nth_error (names b) i = Some r -> read b i = content b r.
Proof.
  intros Hn H. unfold read, content. unfold names in *. rewrite nth_error_map in H.
  destruct (nth_error b i) as [[k c]|] eqn:E; [|discriminate]. injection H as ->.
  rewrite (assoc_NoDup r c); auto. eapply nth_error_In; eauto.
Qed.

Lemma build_schema_succeeds s :
  (exists v b, build_schema s = Ok (v, b)) <->
  NoDup (map fst (declared s)) /\ incl (referenced s) (map fst (declared s)).
Proof.
  unfold build_schema. pose proof (build_correct s [] (NoDup_nil _)) as H.
  destruct (build s []) as [[v b]|e].
  - destruct H as [(H1 & H2 & H3 & H4 & H5 & H6 & H7 & H8) H9].
    pose proof (finish_spec b H2) as Hf. destruct (finish b) as [r|].
    + split; [intros (? & ? & ?); discriminate|]. intros [_ Hi]. exfalso.
      destruct Hf as [Hf1 Hf2]. apply H3 in Hf1 as [[]|[Hf1|Hf1]].
      * apply (H8 r); auto.
      * apply (H8 r); auto.
    + split; [|eauto]. intros _. split; [assumption|]. intros r Hr.
      assert (Hin : In r (names b)) by (apply H3; auto). specialize (Hf r Hin).
      destruct (content b r) as [w|] eqn:E; [|contradiction].
      destruct (H7 r w E) as [H|[s' [H _]]]; [discriminate|]. apply in_map_iff. exists (r, s'). auto.
  - destruct H as [r [-> [Hr [Hb|Hb]]]]; [contradiction Hb; reflexivity|].
    split; [intros (? & ? & ?); discriminate|]. intros [H1 _]. exfalso.
    rewrite (NoDup_count_occ str_eq_dec) in H1. specialize (H1 r). lia.
Qed.

Lemma build_schema_error s e : build_schema s = Err e ->
  match e with
  | DuplicateRef r => 2 <= count_occ str_eq_dec (map fst (declared s)) r
  | NeverFilled r => In r (referenced s) /\ ~ In r (map fst (declared s))
  end.
Proof.
  unfold build_schema. pose proof (build_correct s [] (NoDup_nil _)) as H.
  destruct (build s []) as [[v b]|e'].
  - destruct H as [(H1 & H2 & H3 & H4 & H5 & H6 & H7 & H8) H9].
    pose proof (finish_spec b H2) as Hf. destruct (finish b) as [r|]; [|discriminate].
    intros E. injection E as <-. destruct Hf as [Hf1 Hf2].
    assert (Hd : ~ In r (map fst (declared s))) by (intros Hr; apply (H8 r); auto).
    split; [|assumption]. apply H3 in Hf1 as [[]|[Hf1|Hf1]]; [assumption|contradiction].
  - destruct H as [r [-> [Hr Hb]]]. intros E. injection E as <-.
    destruct Hb as [Hb|Hb]; [contradiction Hb; reflexivity|assumption].
Qed.

Lemma build_schema_meaning s v b : build_schema s = Ok (v, b) ->
  forall n, behaviour n b v = meaning n (fun r => assoc r (declared s)) s.
Proof.
  unfold build_schema. pose proof (build_correct s [] (NoDup_nil _)) as H.
  destruct (build s []) as [[v' b']|e]; [|discriminate].
  destruct H as [(H1 & H2 & H3 & H4 & H5 & H6 & H7 & H8) H9].
  pose proof (finish_spec b' H2) as Hf. destruct (finish b') as [r|]; [discriminate|].
  intros E. injection E as <- <-. intros n. apply behaviour_correct; [|assumption].
  intros i r Hi. assert (Hin : In r (names b')) by (eapply nth_error_In; eauto).
  specialize (Hf r Hin). destruct (content b' r) as [w|] eqn:Ec; [|contradiction].
  destruct (H7 r w Ec) as [H|[s' [Hs' Hr']]]; [discriminate|].
  exists s', w. split; [apply assoc_NoDup; assumption|]. split; [|assumption].
  rewrite (read_content _ _ _ H2 Hi). assumption.
Qed.

From Coq Require Import List NArith ZArith Bool Lia.
From Verif Require Import Base Decimal IntParse IntParseSpec.
Import ListNotations.
Open Scope N_scope.
Ltac Zify.zify_post_hook ::= Z.to_euclidean_division_equations.

(** ** Characters *)
Lemma nonspace_digit c : is_digit c = true -> is_space c = false.
Proof.
  rewrite is_digit_spec. intros H. unfold is_space.
  repeat rewrite orb_false_iff. repeat rewrite andb_false_iff.
  repeat rewrite N.leb_gt. repeat rewrite N.eqb_neq. lia.
Qed.
Lemma digit_not_us c : is_digit c = true -> (c =? 95) = false.
Proof. rewrite is_digit_spec. intros H. apply N.eqb_neq. lia. Qed.

(** ** trim *)
Lemma trim_start_spec s :
  exists w, s = w ++ trim_start s /\ all_space w /\
  (forall c r, trim_start s = c :: r -> is_space c = false).
Proof.
  induction s as [|c s IH]; simpl.
  - exists []. repeat split; try constructor. discriminate.
  - destruct (is_space c) eqn:E.
    + destruct IH as [w [H1 [H2 H3]]]. exists (c :: w). rewrite H1 at 1. repeat split; auto.
      constructor; auto.
    + exists []. repeat split; [constructor|]. intros c' r' H. injection H as <- _. assumption.
Qed.

Lemma trim_start_app w s c r :
  all_space w -> s = c :: r -> is_space c = false -> trim_start (w ++ s) = s.
Proof.
  intros Hw -> Hc. induction Hw as [|x w Hx _ IH]; simpl.
  - rewrite Hc. reflexivity.
  - rewrite Hx. assumption.
Qed.

Lemma all_space_rev w : all_space w -> all_space (rev w).
Proof. intros H. apply Forall_rev. exact H. Qed.

Lemma trim_spec s : exists w1 w2, s = w1 ++ trim s ++ w2 /\ all_space w1 /\ all_space w2.
Proof.
  destruct (trim_start_spec s) as [w1 [H1 [H2 _]]].
  destruct (trim_start_spec (rev (trim_start s))) as [w2 [H3 [H4 _]]].
  exists w1, (rev w2). unfold trim, trim_end. repeat split; auto.
  - rewrite H1 at 1. f_equal. rewrite <- rev_app_distr. rewrite <- H3. rewrite rev_involutive. reflexivity.
  - apply all_space_rev. assumption.
Qed.

Lemma trim_exact w1 t w2 c r d r' :
  all_space w1 -> all_space w2 -> t = c :: r -> is_space c = false ->
  t = r' ++ [d] -> is_space d = false -> trim (w1 ++ t ++ w2) = t.
Proof.
  intros Hw1 Hw2 Ht Hc Ht' Hd. unfold trim, trim_end.
  rewrite (trim_start_app w1 (t ++ w2) c (r ++ w2)); auto; [|subst; reflexivity].
  rewrite rev_app_distr. rewrite (trim_start_app (rev w2) (rev t) d (rev r')); auto.
  - apply rev_involutive.
  - apply all_space_rev; assumption.
  - rewrite Ht'. rewrite rev_app_distr. reflexivity.
Qed.

(** ** underscores *)
Definition good_us (w : str) : Prop :=
  starts_with 95 w = false /\ ends_with 95 w = false /\ has_double_us w = false.

Definition fin (w : str) : str := match strip_underscores w with Some x => x | None => w end.

Lemma contains_false c w : contains c w = false -> ~ In c w.
Proof.
  unfold contains. intros H Hi. assert (existsb (N.eqb c) w = true).
  { apply existsb_exists. exists c. split; [assumption | apply N.eqb_refl]. }
  congruence.
Qed.

Lemma digits_of_id w : ~ In 95 w -> digits_of w = w.
Proof.
  unfold digits_of. induction w as [|c w IH]; simpl; intros H; [reflexivity|].
  destruct (N.eqb_spec c 95) as [->|Hne]; simpl; [exfalso; auto|]. f_equal. apply IH. tauto.
Qed.

Lemma no_us_good w : ~ In 95 w -> good_us w.
Proof.
  intros H. repeat split.
  - destruct w as [|c w]; [reflexivity|]. simpl. apply N.eqb_neq. intros ->. apply H. left; reflexivity.
  - unfold ends_with. destruct (rev w) as [|c r] eqn:E; [reflexivity|]. simpl. apply N.eqb_neq. intros ->.
    apply H. apply in_rev. rewrite E. left; reflexivity.
  - induction w as [|c w IH]; [reflexivity|]. simpl. destruct w as [|d w]; [reflexivity|].
    rewrite IH by (intros Hi; apply H; right; exact Hi).
    destruct (N.eqb_spec c c_us) as [->|]; [exfalso; apply H; left; reflexivity | reflexivity].
Qed.

Lemma fin_good w : good_us w -> fin w = digits_of w.
Proof.
  intros [H1 [H2 H3]]. unfold fin, strip_underscores. change c_us with 95. rewrite H1, H2, H3.
  destruct (contains 95 w) eqn:E; simpl; [reflexivity|].
  symmetry. apply digits_of_id. apply contains_false. assumption.
Qed.

Lemma fin_cases w : good_us w \/ (fin w = w /\ In 95 w).
Proof.
  unfold fin, strip_underscores. change c_us with 95.
  destruct (contains 95 w) eqn:Ec.
  - destruct (starts_with 95 w) eqn:E1, (ends_with 95 w) eqn:E2, (has_double_us w) eqn:E3; simpl;
      try (left; repeat split; assumption); right; (split; [reflexivity|]);
      unfold contains in Ec; apply existsb_exists in Ec; destruct Ec as [x [Hx He]];
      apply N.eqb_eq in He; subst; assumption.
  - left. apply no_us_good. apply contains_false. assumption.
Qed.

Lemma ends_with_cons c d r : r <> [] -> ends_with c (d :: r) = ends_with c r.
Proof.
  intros H. unfold ends_with. simpl. destruct (rev r) as [|x l] eqn:E; [|reflexivity].
  exfalso. apply H. apply (f_equal (@rev N)) in E. rewrite rev_involutive in E. exact E.
Qed.

Lemma us_digits_nonempty w : us_digits w -> w <> [].
Proof. intros H; inversion H; discriminate. Qed.

Lemma us_digits_head w : us_digits w -> exists c r, w = c :: r /\ is_digit c = true.
Proof. intros H; inversion H; eauto. Qed.

Lemma us_digits_last w : us_digits w -> exists r d, w = r ++ [d] /\ is_digit d = true.
Proof.
  induction 1 as [d Hd|d r Hd _ [r' [e [-> He]]]|d r Hd _ [r' [e [-> He]]]].
  - exists [], d. auto.
  - exists (d :: r'), e. auto.
  - exists (d :: 95 :: r'), e. auto.
Qed.

Lemma us_digits_good w : us_digits w -> good_us w /\ Forall (fun c => is_digit c = true) (digits_of w).
Proof.
  induction 1 as [d Hd|d r Hd Hr [[H1 [H2 H3]] H4]|d r Hd Hr [[H1 [H2 H3]] H4]].
  - pose proof (digit_not_us d Hd) as Hu. split.
    + repeat split; unfold ends_with; simpl; auto.
    + unfold digits_of; simpl. rewrite Hu. simpl. constructor; [assumption | constructor].
  - pose proof (digit_not_us d Hd) as Hu. split.
    + repeat split.
      * simpl. assumption.
      * rewrite ends_with_cons; [assumption | apply us_digits_nonempty; assumption].
      * simpl. destruct r as [|e r]; [reflexivity|]. change c_us with 95. rewrite Hu. exact H3.
    + unfold digits_of; simpl. rewrite Hu. simpl. constructor; assumption.
  - pose proof (digit_not_us d Hd) as Hu. split.
    + repeat split.
      * simpl. assumption.
      * rewrite ends_with_cons by discriminate.
        rewrite ends_with_cons; [assumption | apply us_digits_nonempty; assumption].
      * simpl. change c_us with 95. rewrite Hu. simpl.
        destruct r as [|e r]; [reflexivity|]. simpl in H1. rewrite H1. exact H3.
    + unfold digits_of; simpl. rewrite Hu. simpl. constructor; assumption.
Qed.

Lemma good_us_digits n : forall w, (length w <= n)%nat -> w <> [] -> good_us w ->
  Forall (fun c => is_digit c = true) (digits_of w) -> us_digits w.
Proof.
  induction n as [|n IH]; intros w Hlen Hne [H1 [H2 H3]] H4.
  - destruct w; [contradiction | simpl in Hlen; lia].
  - destruct w as [|d r]; [contradiction|]. simpl in H1.
    unfold digits_of in H4; simpl in H4. rewrite H1 in H4; simpl in H4.
    inversion H4 as [|? ? Hd Hr]; subst. destruct r as [|e r].
    + apply us_one; assumption.
    + rewrite ends_with_cons in H2 by discriminate.
      change (has_double_us (d :: e :: r)) with (((d =? c_us) && (e =? c_us)) || has_double_us (e :: r)) in H3.
      apply orb_false_iff in H3 as [_ H3].
      destruct (N.eqb_spec e 95) as [->|He].
      * destruct r as [|f r]; [discriminate H2|].
        rewrite ends_with_cons in H2 by discriminate.
        change (has_double_us (95 :: f :: r)) with (((95 =? c_us) && (f =? c_us)) || has_double_us (f :: r)) in H3.
        apply orb_false_iff in H3 as [H3a H3b]. simpl in H3a.
        apply us_sep; [assumption|]. apply IH; try assumption.
        -- simpl in *; lia.
        -- discriminate.
        -- repeat split; assumption.
      * apply us_next; [assumption|]. apply IH; try assumption.
        -- simpl in *; lia.
        -- discriminate.
        -- repeat split; try assumption. simpl. apply N.eqb_neq. assumption.
Qed.

(** ** jiter *)
Lemma take_digits_spec s :
  let '(d, t) := take_digits s in
  s = d ++ t /\ Forall (fun c => is_digit c = true) d /\
  match t with [] => True | c :: _ => is_digit c = false end.
Proof.
  induction s as [|c s IH]; simpl; [auto|].
  destruct (is_digit c) eqn:E; simpl.
  - destruct (take_digits s) as [d t]. destruct IH as [-> [H1 H2]]. auto.
  - auto.
Qed.

Lemma take_digits_all s : Forall (fun c => is_digit c = true) s -> take_digits s = (s, []).
Proof. induction 1 as [|c s Hc _ IH]; simpl; [reflexivity|]. rewrite Hc, IH. reflexivity. Qed.

Section M.
Variable max : N.

Lemma jiter_uint_ok s z :
  jiter_uint max s = JOk z <->
  (s = [48] /\ z = 0%Z) \/
  ((exists c r, s = c :: r /\ is_digit19 c = true) /\ Forall (fun c => is_digit c = true) s /\
   N.of_nat (length s) <= max /\ z = Z.of_N (dec_value s)).
Proof.
  unfold jiter_uint. destruct s as [|c r].
  - split; [discriminate|]. intros [[H _]|[[c [r [H _]]] _]]; discriminate.
  - change c_0 with 48. destruct (N.eqb_spec c 48) as [->|Hc].
    + destruct r as [|d r].
      * split.
        -- intros H; injection H as <-. auto.
        -- intros [[_ ->]|[[c' [r' [H H']]] _]]; [reflexivity|]. injection H as <- _. discriminate.
      * split; [discriminate|].
        intros [[H _]|[[c' [r' [H H']]] _]]; [discriminate|]. injection H as <- _. discriminate.
    + destruct (is_digit19 c) eqn:E.
      * pose proof (take_digits_spec (c :: r)) as Ht.
        destruct (take_digits (c :: r)) as [d t] eqn:Etd. destruct Ht as [H1 [H2 H3]].
        destruct (N.ltb_spec max (N.of_nat (length d))) as [Hl|Hl].
        -- split; [discriminate|]. intros [[H _]|[_ [Ha [Hm _]]]]; [injection H as -> _; discriminate|].
           rewrite (take_digits_all _ Ha) in Etd. injection Etd as <- <-. lia.
        -- destruct t as [|t0 t].
           ++ rewrite app_nil_r in H1. subst d. split.
              ** intros H; injection H as <-. right. repeat split; eauto.
              ** intros [[H _]|[_ [_ [_ ->]]]]; [injection H as -> _; discriminate | reflexivity].
           ++ split; [discriminate|]. intros [[H _]|[_ [Ha _]]]; [injection H as -> _; discriminate|].
              rewrite (take_digits_all _ Ha) in Etd. discriminate.
      * split; [discriminate|]. intros [[H _]|[[c' [r' [H H']]] _]].
        -- injection H as -> _. contradiction.
        -- injection H as <- _. congruence.
Qed.

Lemma jiter_uint_range s :
  jiter_uint max s = JOutOfRange ->
  max < N.of_nat (length (fst (take_digits s))) /\ exists c r, s = c :: r /\ is_digit19 c = true.
Proof.
  unfold jiter_uint. destruct s as [|c r]; [discriminate|].
  change c_0 with 48. destruct (N.eqb_spec c 48) as [->|Hc].
  - destruct r; discriminate.
  - destruct (is_digit19 c) eqn:E; [|discriminate].
    destruct (take_digits (c :: r)) as [d t].
    destruct (N.ltb_spec max (N.of_nat (length d))) as [Hl|Hl].
    + intros _. split; [exact Hl | eauto].
    + destruct t; discriminate.
Qed.

Lemma jiter_uint_digits s z : jiter_uint max s = JOk z -> s <> [] /\ Forall (fun c => is_digit c = true) s.
Proof.
  intros H. apply jiter_uint_ok in H as [[-> _]|[[c [r [-> _]]] [H _]]].
  - split; [discriminate|]. repeat constructor.
  - split; [discriminate | assumption].
Qed.

Lemma jiter_int_chars s z : jiter_int max s = JOk z ->
  Forall (fun c => is_digit c = true \/ c = 45) s.
Proof.
  unfold jiter_int. destruct s as [|c r]; [discriminate|]. change c_minus with 45.
  destruct (N.eqb_spec c 45) as [->|Hc].
  - destruct (jiter_uint max r) as [z'| |] eqn:E; try discriminate. intros _.
    apply jiter_uint_digits in E as [_ E]. constructor; [auto|].
    eapply Forall_impl; [|exact E]. auto.
  - intros E. apply jiter_uint_digits in E as [_ E]. eapply Forall_impl; [|exact E]. auto.
Qed.

Lemma jiter_int_no_us s z : jiter_int max s = JOk z -> ~ In 95 s /\ ~ In 46 s.
Proof.
  intros H. apply jiter_int_chars in H. split; intros Hi; rewrite Forall_forall in H;
    destruct (H _ Hi) as [E|E]; discriminate.
Qed.

(** Parsing after underscore removal. *)
Lemma fin_parse (neg : bool) w z :
  jiter_int max (if neg then 45 :: fin w else fin w) = JOk z <->
  good_us w /\ jiter_int max (if neg then 45 :: digits_of w else digits_of w) = JOk z.
Proof.
  split.
  - intros H. destruct (fin_cases w) as [Hg|[Hf Hi]].
    + split; [assumption|]. rewrite (fin_good w Hg) in H. assumption.
    + exfalso. rewrite Hf in H. apply jiter_int_no_us in H as [H _]. apply H.
      destruct neg; [right|]; assumption.
  - intros [Hg H]. rewrite (fin_good w Hg). assumption.
Qed.

Lemma digits_of_cons c w : c <> 95 -> digits_of (c :: w) = c :: digits_of w.
Proof. intros H. unfold digits_of. simpl. apply N.eqb_neq in H. rewrite H. reflexivity. Qed.

(** A number whose cleaned text starts with 1-9. *)
Lemma significant_parse w c r :
  w = c :: r -> is_digit19 c = true -> forall z,
  (good_us w /\ jiter_uint max (digits_of w) = JOk z) <-> (significant max w /\ z = value_of w).
Proof.
  intros Hw Hc z. assert (Hc' : c <> 95) by (intros ->; discriminate).
  assert (Hdw : digits_of w = c :: digits_of r) by (subst; apply digits_of_cons; assumption).
  split.
  - intros [Hg H]. apply jiter_uint_ok in H. rewrite Hdw in H at 1.
    destruct H as [[E _]|[_ [Ha [Hl ->]]]].
    + injection E as -> _. discriminate.
    + split; [|reflexivity]. repeat split.
      * apply (good_us_digits (length w)); auto. rewrite Hw; discriminate.
      * exists c, r. auto.
      * assumption.
  - intros [[H1 [H2 H3]] ->]. apply us_digits_good in H1 as [Hg Ha]. split; [assumption|].
    apply jiter_uint_ok. right. repeat split; try assumption.
    exists c, (digits_of r). auto.
Qed.

(** ** strip_leading_zeros *)
Lemma slz_loop_spec s : forall prev w,
  slz_loop prev s = Some w ->
  exists zs, Forall (fun c => c = 48 \/ c = 95) zs /\
   ((s = zs /\ w = [last (prev :: zs) 0]) \/
    (exists c r, s = zs ++ w /\ w = c :: r /\ (is_digit19 c = true \/ c = 45)) \/
    (exists r, s = zs ++ 46 :: r /\ w = last (prev :: zs) 0 :: 46 :: r)).
Proof.
  induction s as [|c s IH]; intros prev w H; simpl in H.
  - injection H as <-. exists []. split; [constructor|]. left. auto.
  - change c_0 with 48 in H. change c_us with 95 in H. change c_minus with 45 in H. change c_dot with 46 in H.
    destruct ((c =? 48) || (c =? 95)) eqn:E1.
    + destruct (IH c w H) as [zs [Hz Hcases]]. exists (c :: zs). split.
      * constructor; [|assumption]. apply orb_true_iff in E1 as [E|E]; apply N.eqb_eq in E; auto.
      * change (last (prev :: c :: zs) 0) with (last (c :: zs) 0).
        destruct Hcases as [[-> ->]|[[c' [r [-> [Hw Hc]]]]|[r [-> ->]]]].
        -- left; auto.
        -- right; left. exists c', r. auto.
        -- right; right. exists r. auto.
    + destruct (is_digit19 c || (c =? 45)) eqn:E2.
      * injection H as <-. exists []. split; [constructor|]. right; left. exists c, s.
        repeat split. apply orb_true_iff in E2 as [E|E]; [auto | apply N.eqb_eq in E; auto].
      * destruct (N.eqb_spec c 46) as [->|]; [|discriminate]. injection H as <-.
        exists []. split; [constructor|]. right; right. exists s. auto.
Qed.

Lemma slz_loop_skip zs : Forall (fun c => c = 48 \/ c = 95) zs ->
  forall prev s, slz_loop prev (zs ++ s) = slz_loop (last (prev :: zs) 0) s.
Proof.
  induction 1 as [|c zs Hc _ IH]; intros prev s; [reflexivity|].
  change (last (prev :: c :: zs) 0) with (last (c :: zs) 0).
  simpl app. cbn [slz_loop]. change c_0 with 48; change c_us with 95.
  destruct Hc as [->| ->]; simpl; apply IH.
Qed.

Lemma zero_prefix_last zp : zero_prefix zp -> last zp 0 = 48 \/ last zp 0 = 95.
Proof.
  intros [r [-> H]]. assert (G : forall d, (d = 48 \/ d = 95) -> last (d :: r) 0 = 48 \/ last (d :: r) 0 = 95).
  { induction H as [|c r Hc _ IH]; intros d Hd; [exact Hd|].
    change (last (d :: c :: r) 0) with (last (c :: r) 0). apply IH. exact Hc. }
  apply G. auto.
Qed.

Lemma slz_spec s w :
  strip_leading_zeros s = Some w ->
  (exists c r, s = c :: r /\ w = s /\ (is_digit19 c = true \/ c = 45)) \/
  (exists zp, zero_prefix zp /\
    ((s = zp /\ w = [last zp 0]) \/
     (exists c r, s = zp ++ w /\ w = c :: r /\ (is_digit19 c = true \/ c = 45)) \/
     (exists r, s = zp ++ 46 :: r /\ w = last zp 0 :: 46 :: r))).
Proof.
  unfold strip_leading_zeros. destruct s as [|c r]; [discriminate|].
  change c_0 with 48. change c_minus with 45. destruct (N.eqb_spec c 48) as [->|Hc].
  - intros H. right. destruct (slz_loop_spec r 48 w H) as [zs [Hz Hcases]].
    exists (48 :: zs). split; [exists zs; auto|].
    destruct Hcases as [[-> ->]|[[c' [r' [-> [Hw Hc]]]]|[r' [-> ->]]]].
    + left; auto.
    + right; left. exists c', r'. auto.
    + right; right. exists r'. auto.
  - destruct (is_digit19 c || (c =? 45)) eqn:E; [|discriminate]. intros H; injection H as <-.
    left. exists c, r. repeat split. apply orb_true_iff in E as [E|E]; [auto | apply N.eqb_eq in E; auto].
Qed.

Lemma slz_zero_sig zp c r : zero_prefix zp -> is_digit19 c = true \/ c = 45 ->
  strip_leading_zeros (zp ++ c :: r) = Some (c :: r).
Proof.
  intros [zs [-> Hz]] Hc. simpl. rewrite (slz_loop_skip zs Hz). simpl.
  assert (E : (c =? c_0) || (c =? c_us) = false).
  { change c_0 with 48; change c_us with 95. destruct Hc as [Hc| ->]; [|reflexivity].
    apply is_digit19_spec in Hc. apply orb_false_iff; split; apply N.eqb_neq; lia. }
  rewrite E. assert (E2 : is_digit19 c || (c =? c_minus) = true).
  { destruct Hc as [->| ->]; [reflexivity|]. apply orb_true_r. }
  rewrite E2. reflexivity.
Qed.

Lemma slz_zero_dot zp r : zero_prefix zp ->
  strip_leading_zeros (zp ++ 46 :: r) = Some (last zp 0 :: 46 :: r).
Proof. intros [zs [-> Hz]]. simpl app. simpl. rewrite (slz_loop_skip zs Hz). reflexivity. Qed.

Lemma slz_zero_end zp : zero_prefix zp -> strip_leading_zeros zp = Some [last zp 0].
Proof.
  intros [zs [-> Hz]]. cbn [strip_leading_zeros]. change (48 =? c_0) with true. cbv iota.
  rewrite <- (app_nil_r zs) at 1. rewrite (slz_loop_skip zs Hz). reflexivity.
Qed.

Lemma slz_sig c r : is_digit19 c = true -> strip_leading_zeros (c :: r) = Some (c :: r).
Proof.
  intros Hc. simpl. change c_0 with 48. destruct (N.eqb_spec c 48) as [->|]; [discriminate|].
  rewrite Hc. reflexivity.
Qed.

(** ** the ".000" suffix *)
Lemma split_dot_spec s :
  match split_dot s with
  | Some (a, b) => s = a ++ 46 :: b /\ ~ In 46 a
  | None => ~ In 46 s
  end.
Proof.
  induction s as [|c s IH]; simpl; [auto|]. change c_dot with 46.
  destruct (N.eqb_spec c 46) as [->|Hc]; [auto|].
  destruct (split_dot s) as [[a b]|].
  - destruct IH as [-> H]. split; [reflexivity|]. intros [E|E]; auto.
  - intros [E|E]; auto.
Qed.

Lemma all_zero_repeat b : forallb (fun c => c =? c_0) b = true -> b = repeat 48 (length b).
Proof.
  change c_0 with 48. induction b as [|c b IH]; simpl; [reflexivity|].
  intros H. apply andb_true_iff in H as [H1 H2]. apply N.eqb_eq in H1. subst. f_equal. auto.
Qed.

Lemma cut_spec s : ~ In 46 (cut_zero_fraction s) ->
  exists fr, s = cut_zero_fraction s ++ fr /\ zero_fraction fr.
Proof.
  unfold cut_zero_fraction. pose proof (split_dot_spec s) as H. destruct (split_dot s) as [[a b]|].
  - destruct H as [Hs Ha]. destruct b as [|b0 b]; simpl.
    + intros Hn. exfalso. apply Hn. rewrite Hs. apply in_or_app. right. left. reflexivity.
    + destruct ((b0 =? c_0) && forallb (fun c => c =? c_0) b) eqn:E.
      * intros _. exists (46 :: b0 :: b). split; [assumption|]. right. exists (length b).
        f_equal. exact (all_zero_repeat (b0 :: b) E).
      * intros Hn. exfalso. apply Hn. rewrite Hs. apply in_or_app. right. left. reflexivity.
  - intros _. exists []. split; [rewrite app_nil_r; reflexivity | left; reflexivity].
Qed.

Lemma split_dot_app a b : ~ In 46 a -> split_dot (a ++ 46 :: b) = Some (a, b).
Proof.
  induction a as [|c a IH]; simpl; intros H; [reflexivity|]. change c_dot with 46.
  destruct (N.eqb_spec c 46) as [->|Hc]; [exfalso; auto|]. rewrite IH by auto. reflexivity.
Qed.
Lemma split_dot_none a : ~ In 46 a -> split_dot a = None.
Proof.
  intros H. pose proof (split_dot_spec a) as G. destruct (split_dot a) as [[x y]|]; [|reflexivity].
  destruct G as [-> _]. exfalso. apply H. apply in_or_app. right. left. reflexivity.
Qed.
Lemma forallb_repeat n : forallb (fun c => c =? c_0) (repeat 48 n) = true.
Proof. induction n; simpl; auto. Qed.

Lemma cut_exact a fr : ~ In 46 a -> zero_fraction fr -> cut_zero_fraction (a ++ fr) = a.
Proof.
  intros Ha [->|[n ->]]; unfold cut_zero_fraction.
  - rewrite app_nil_r. rewrite (split_dot_none a Ha). reflexivity.
  - rewrite (split_dot_app a _ Ha). cbn [repeat]. change (48 :: repeat 48 n) with (repeat 48 (S n)).
    rewrite forallb_repeat. simpl. reflexivity.
Qed.

(** ** clean_int_str, restated *)
Lemma clean_unfold s0 sgb u :
  (* [sgb]: (sign text, is_negative, body) *)
  trim s0 = fst sgb ++ u ->
  (fst sgb = [] /\ snd sgb = false /\ starts_with 43 u = false /\ starts_with 45 u = false \/
   fst sgb = [43] /\ snd sgb = false /\ starts_with 45 u = false \/
   fst sgb = [45] /\ snd sgb = true /\ starts_with 45 u = false /\ starts_with 43 u = false) ->
  clean_int_str s0 =
    match strip_leading_zeros u with
    | None => None
    | Some v =>
        let w := cut_zero_fraction v in
        match strip_underscores w with
        | Some x => Some (if snd sgb then 45 :: x else x)
        | None => if Nat.eqb (length s0) (length w) then None else Some (if snd sgb then 45 :: w else w)
        end
    end.
Proof.
  destruct sgb as [sg neg]; simpl. intros Ht Hc. unfold clean_int_str. rewrite Ht.
  change c_plus with 43; change c_minus with 45.
  destruct Hc as [[-> [-> [H1 H2]]]|[[-> [-> H1]]|[-> [-> [H1 H2]]]]]; simpl app.
  - assert (E1 : strip_prefix 43 u = None) by (destruct u; simpl in *; [reflexivity | rewrite H1; reflexivity]).
    assert (E2 : strip_prefix 45 u = None) by (destruct u; simpl in *; [reflexivity | rewrite H2; reflexivity]).
    rewrite E1, E2. reflexivity.
  - cbn [strip_prefix]. change (43 =? 43) with true. cbv iota. rewrite H1.
    assert (E2 : strip_prefix 45 u = None) by (destruct u; simpl in *; [reflexivity | rewrite H1; reflexivity]).
    rewrite E2. reflexivity.
  - cbn [strip_prefix]. change (45 =? 43) with false. cbv beta iota zeta.
    cbn [strip_prefix]. change (45 =? 45) with true. cbv iota. rewrite H1, H2.
    reflexivity.
Qed.

(** Which sign prefix [clean_int_str] recognises. *)
Lemma clean_signs s0 x :
  clean_int_str s0 = Some x ->
  exists sg neg u, trim s0 = sg ++ u /\
  (sg = [] /\ neg = false /\ starts_with 43 u = false /\ starts_with 45 u = false \/
   sg = [43] /\ neg = false /\ starts_with 45 u = false \/
   sg = [45] /\ neg = true /\ starts_with 45 u = false /\ starts_with 43 u = false).
Proof.
  unfold clean_int_str. change c_plus with 43; change c_minus with 45.
  destruct (trim s0) as [|c t] eqn:Et; [discriminate|]. cbn [strip_prefix].
  destruct (N.eqb_spec c 43) as [->|Hc].
  - destruct (starts_with 45 t) eqn:E; [discriminate|]. intros _. exists [43], false, t. split; [reflexivity|].
    right; left. auto.
  - cbn [strip_prefix]. destruct (N.eqb_spec c 45) as [->|Hc2].
    + destruct (starts_with 45 t || starts_with 43 t) eqn:E; [discriminate|]. intros _.
      apply orb_false_iff in E as [E1 E2]. exists [45], true, t. split; [reflexivity|]. right; right. auto.
    + intros _. exists [], false, (c :: t). split; [reflexivity|]. left. repeat split; apply N.eqb_neq; assumption.
Qed.

(** ** Soundness *)
Lemma last_in_single zp : zero_prefix zp -> good_us [last zp 0] -> last zp 0 = 48.
Proof.
  intros Hz [H _]. destruct (zero_prefix_last zp Hz) as [E|E]; [assumption|]. rewrite E in H. discriminate.
Qed.

Lemma jiter_accepted s z : jiter_int max s = JOk z -> accepted max s z.
Proof.
  intros H.
  assert (Hu : forall s z, jiter_uint max s = JOk z -> numeral max s z).
  { clear. intros s z H. apply jiter_uint_ok in H as [[-> ->]|[[c [r [Hs Hc]]] [Ha [Hl ->]]]].
    - apply (num_zero max [48] []); [exists []; auto | reflexivity | left; reflexivity].
    - assert (Hni : ~ In 95 s).
      { intros Hi. rewrite Forall_forall in Ha. specialize (Ha _ Hi). discriminate. }
      assert (E : digits_of s = s) by (apply digits_of_id; assumption).
      replace s with ([] ++ s ++ []) at 1 by (rewrite app_nil_r; reflexivity).
      replace (Z.of_N (dec_value s)) with (value_of s) by (unfold value_of; rewrite E; reflexivity).
      apply num_sig; [auto | | left; reflexivity].
      repeat split.
      + apply (good_us_digits (length s)); auto; [subst; discriminate | apply no_us_good; assumption | rewrite E; assumption].
      + exists c, r; auto.
      + rewrite E; assumption. }
  unfold jiter_int in H. destruct s as [|c r]; [discriminate|]. change c_minus with 45 in H.
  destruct (N.eqb_spec c 45) as [->|Hc].
  - destruct (jiter_uint max r) as [z'| |] eqn:E; try discriminate. injection H as <-.
    replace (45 :: r) with ([] ++ [45] ++ r ++ []) by (simpl; rewrite app_nil_r; reflexivity).
    replace (- z')%Z with (-1 * z')%Z by lia.
    apply acc_std; [constructor | constructor | apply Hu; assumption | constructor].
  - replace (c :: r) with ([] ++ [] ++ (c :: r) ++ []) by (simpl; rewrite app_nil_r; reflexivity).
    replace z with (1 * z)%Z by lia.
    apply acc_std; [constructor | constructor | apply Hu; assumption | constructor].
Qed.

Lemma starts_head c u w r : starts_with c u = false -> u = w :: r -> w <> c.
Proof. intros H -> ->. simpl in H. rewrite N.eqb_refl in H. discriminate. Qed.

Lemma clean_accepted s x z :
  clean_int_str s = Some x -> jiter_int max x = JOk z -> accepted max s z.
Proof.
  intros Hcl Hj. destruct (clean_signs s x Hcl) as [sg [neg [u [Ht Hsg]]]].
  rewrite (clean_unfold s (sg, neg) u Ht Hsg) in Hcl. simpl in Hcl.
  destruct (trim_spec s) as [w1 [w2 [Hs [Hw1 Hw2]]]]. rewrite Ht in Hs.
  destruct (strip_leading_zeros u) as [v|] eqn:Ev; [|discriminate].
  set (w := cut_zero_fraction v) in *.
  assert (Hx : jiter_int max (if neg then 45 :: fin w else fin w) = JOk z).
  { unfold fin. destruct (strip_underscores w) as [y|].
    - injection Hcl as <-. exact Hj.
    - destruct (Nat.eqb (length s) (length w)); [discriminate|]. injection Hcl as <-. exact Hj. }
  clear Hcl Hj. apply fin_parse in Hx as [Hg Hj].
  assert (Hnd : ~ In 46 w).
  { apply jiter_int_no_us in Hj as [_ Hj]. intros Hi. apply Hj.
    assert (In 46 (digits_of w)) by (apply filter_In; split; [assumption | reflexivity]).
    destruct neg; [right|]; assumption. }
  destruct (cut_spec v Hnd) as [fr [Hv Hfr]]. fold w in Hv.
  assert (Hu45 : starts_with 45 u = false) by tauto.
  (* the sign as a factor *)
  assert (Hsign : exists k, sign sg k /\ (forall zz, jiter_uint max (digits_of w) = JOk zz -> digits_of w <> [] ->
             (forall c r, digits_of w = c :: r -> c <> 45) -> z = (k * zz)%Z)).
  { destruct Hsg as [[-> [-> _]]|[[-> [-> _]]|[-> [-> _]]]].
    - exists 1%Z. split; [constructor|]. intros zz E Hne Hh. unfold jiter_int in Hj.
      destruct (digits_of w) as [|c r] eqn:Ed; [contradiction|]. change c_minus with 45 in Hj.
      specialize (Hh c r eq_refl). apply N.eqb_neq in Hh. rewrite Hh in Hj. rewrite E in Hj.
      injection Hj as <-. lia.
    - exists 1%Z. split; [constructor|]. intros zz E Hne Hh. unfold jiter_int in Hj.
      destruct (digits_of w) as [|c r] eqn:Ed; [contradiction|]. change c_minus with 45 in Hj.
      specialize (Hh c r eq_refl). apply N.eqb_neq in Hh. rewrite Hh in Hj. rewrite E in Hj.
      injection Hj as <-. lia.
    - exists (-1)%Z. split; [constructor|]. intros zz E _ _. unfold jiter_int in Hj.
      change (45 =? c_minus) with true in Hj. cbv iota in Hj. rewrite E in Hj. injection Hj as <-. lia. }
  destruct Hsign as [k [Hsk Hz]].
  assert (Hju : forall c r, w = c :: r -> c <> 45 -> c <> 95 -> exists zz, jiter_uint max (digits_of w) = JOk zz /\ z = (k * zz)%Z).
  { intros c r Hw Hc Hc'. assert (Ed : digits_of w = c :: digits_of r) by (rewrite Hw; apply digits_of_cons; assumption).
    assert (Hex : exists zz, jiter_uint max (digits_of w) = JOk zz).
    { destruct neg.
      - unfold jiter_int in Hj. change (45 =? c_minus) with true in Hj. cbv iota in Hj.
        destruct (jiter_uint max (digits_of w)) as [zz| |]; try discriminate. eauto.
      - unfold jiter_int in Hj. rewrite Ed in Hj. change c_minus with 45 in Hj.
        apply N.eqb_neq in Hc. rewrite Hc in Hj. rewrite Ed. eauto. }
    destruct Hex as [zz E]. exists zz. split; [assumption|]. apply Hz; auto.
    - rewrite Ed; discriminate.
    - intros c' r' E'. rewrite Ed in E'. injection E' as <- _. assumption. }
  assert (Hsigw : forall zp c r, zp = [] \/ zero_prefix zp -> u = zp ++ v -> w = c :: r -> is_digit19 c = true -> accepted max s z).
  { intros zp c r Hzp Hu Hw Hc.
    assert (c <> 45 /\ c <> 95) as [Hc1 Hc2] by (split; intros ->; discriminate).
    destruct (Hju c r Hw Hc1 Hc2) as [zz [E ->]].
    destruct (proj1 (significant_parse w c r Hw Hc zz) (conj Hg E)) as [Hsig ->].
    rewrite Hs, Hu, Hv. rewrite <- app_assoc. 
    apply (acc_std max w1 sg k (zp ++ w ++ fr) (value_of w) w2); auto.
    apply num_sig; assumption. }
  destruct (slz_spec u v Ev) as [[c [r [Hu [Hvu Hc]]]]|[zp [Hzp Hcases]]].
  - (* body starts with 1-9 *)
    destruct Hc as [Hc| ->]; [|exfalso; eapply starts_head; eauto].
    destruct w as [|c' r'] eqn:Hw.
    + exfalso. destruct neg; [|discriminate Hj]. unfold jiter_int in Hj. simpl in Hj. discriminate.
    + apply (Hsigw [] c' r'); auto.
      rewrite Hvu, Hu in Hv. injection Hv as -> _. assumption.
  - destruct Hcases as [[Hu Hvl]|[[c [r [Hu [Hvc Hc]]]]|[r [Hu Hvl]]]].
    + (* all zeros *)
      assert (Hwl : w = [last zp 0]).
      { unfold w. rewrite Hvl. destruct (zero_prefix_last zp Hzp) as [-> | ->]; reflexivity. }
      assert (Hl : last zp 0 = 48) by (apply last_in_single; [assumption | rewrite <- Hwl; assumption]).
      destruct (Hju 48 []) as [zz [E ->]]; [rewrite Hwl, Hl; reflexivity | discriminate | discriminate |].
      rewrite Hwl, Hl in E. injection E as <-.
      rewrite Hs, Hu. replace (w1 ++ (sg ++ zp) ++ w2) with (w1 ++ sg ++ (zp ++ []) ++ w2)
        by (rewrite app_nil_r, <- !app_assoc; reflexivity).
      apply acc_std; auto. apply num_zero; auto. left; reflexivity.
    + destruct Hc as [Hc| ->].
      * (* zeros then 1-9 *)
        destruct w as [|c' r'] eqn:Hw.
        { exfalso. destruct neg; [|discriminate Hj]. unfold jiter_int in Hj. simpl in Hj. discriminate. }
        apply (Hsigw zp c' r'); auto.
        rewrite Hvc in Hv. injection Hv as -> _. assumption.
      * (* zeros then a minus sign *)
        destruct w as [|c' w'] eqn:Hw.
        { exfalso. destruct neg; [|discriminate Hj]. unfold jiter_int in Hj. simpl in Hj. discriminate. }
        rewrite Hvc in Hv. injection Hv as <- Hv.
        rewrite digits_of_cons in Hj by discriminate.
        destruct neg.
        { exfalso. unfold jiter_int in Hj. change (45 =? c_minus) with true in Hj. cbv iota in Hj.
          unfold jiter_uint in Hj. simpl in Hj. discriminate. }
        unfold jiter_int in Hj. change (45 =? c_minus) with true in Hj. cbv iota in Hj.
        destruct (jiter_uint max (digits_of w')) as [zz| |] eqn:Ez; try discriminate. injection Hj as <-.
        assert (Hsg' : sg = [] \/ sg = [43]) by (destruct Hsg as [[-> _]|[[-> _]|[_ [H _]]]]; auto; discriminate).
        destruct Hg as [Hg1 [Hg2 Hg3]].
        (* optional underscore right after the minus *)
        assert (Hdec : exists uu ds, w' = uu ++ ds /\ (uu = [] \/ uu = [95]) /\ (significant max ds \/ ds = [48]) /\ zz = value_of ds).
        { assert (Hcore : forall ds, ds <> [] -> starts_with 95 ds = false -> ends_with 95 ds = false -> has_double_us ds = false ->
                     jiter_uint max (digits_of ds) = JOk zz -> (significant max ds \/ ds = [48]) /\ zz = value_of ds).
          { clear. intros ds Hne H1 H2 H3 E. destruct ds as [|c r]; [contradiction|].
            assert (Hc95 : c <> 95) by (intros ->; discriminate).
            pose proof (jiter_uint_digits _ _ E) as [_ Had].
            rewrite digits_of_cons in Had by assumption. inversion Had as [|? ? Hcd Hrd]; subst.
            destruct (is_digit19 c) eqn:Ec.
            - destruct (proj1 (significant_parse (c :: r) c r eq_refl Ec zz)) as [A B]; [repeat split; assumption|]. auto.
            - assert (c = 48).
              { apply is_digit_spec in Hcd. destruct (N.eq_dec c 48); [assumption|].
                assert (is_digit19 c = true) by (apply is_digit19_spec; lia). congruence. }
              subst c. apply jiter_uint_ok in E as [[E ->]|[[c' [r' [E1 E2]]] _]].
              + rewrite digits_of_cons in E by discriminate. injection E as E.
                destruct r as [|d r].
                * split; [auto|]. reflexivity.
                * exfalso. unfold digits_of in E. simpl in E. destruct (N.eqb_spec d 95) as [->|]; simpl in E; [|discriminate].
                  destruct r as [|e r]; [discriminate H2|]. simpl in E. destruct (N.eqb_spec e 95) as [->|]; [|discriminate].
                  discriminate H3.
              + rewrite digits_of_cons in E1 by discriminate. injection E1 as <- _. discriminate. }
          destruct w' as [|c0 w''].
          { discriminate Ez. }
          destruct (N.eqb_spec c0 95) as [->|Hc0].
          - destruct w'' as [|c1 w3]; [discriminate Ez|].
            exists [95], (c1 :: w3). split; [reflexivity|]. split; [auto|].
            apply Hcore; try discriminate.
            + change (has_double_us (45 :: 95 :: c1 :: w3)) with ((((45 =? 95) && (95 =? 95)) || (((95 =? 95) && (c1 =? 95)) || has_double_us (c1 :: w3)))) in Hg3.
              simpl in Hg3. apply orb_false_iff in Hg3 as [Hg3 _]. simpl. exact Hg3.
            + rewrite !ends_with_cons in Hg2 by discriminate. exact Hg2.
            + change (has_double_us (45 :: 95 :: c1 :: w3)) with ((((45 =? 95) && (95 =? 95)) || (((95 =? 95) && (c1 =? 95)) || has_double_us (c1 :: w3)))) in Hg3.
              simpl in Hg3. apply orb_false_iff in Hg3 as [_ Hg3]. exact Hg3.
            + exact Ez.
          - exists [], (c0 :: w''). split; [reflexivity|]. split; [auto|].
            apply Hcore; try discriminate.
            + simpl. apply N.eqb_neq. assumption.
            + rewrite ends_with_cons in Hg2 by discriminate. exact Hg2.
            + change (has_double_us (45 :: c0 :: w'')) with (((45 =? 95) && (c0 =? 95)) || has_double_us (c0 :: w'')) in Hg3.
              simpl in Hg3. exact Hg3.
            + exact Ez. }
        destruct Hdec as [uu [ds [-> [Huu [Hds ->]]]]].
        rewrite Hs, Hu, Hvc, Hv.
        replace (w1 ++ (sg ++ zp ++ 45 :: (uu ++ ds) ++ fr) ++ w2)
          with (w1 ++ sg ++ zp ++ [45] ++ uu ++ ds ++ fr ++ w2)
          by (simpl; rewrite <- !app_assoc; simpl; rewrite <- !app_assoc; reflexivity).
        apply acc_odd; auto.
    + (* zeros, dot *)
      destruct w as [|c' w'] eqn:Hw.
      { exfalso. destruct neg; [|discriminate Hj]. unfold jiter_int in Hj. simpl in Hj. discriminate. }
      rewrite Hvl in Hv. injection Hv as Hv1 Hv2.
      assert (w' = []) as ->.
      { destruct w' as [|d w']; [reflexivity|]. injection Hv2 as <- _. exfalso. apply Hnd. right; left; reflexivity. }
      simpl in Hv2. assert (Hl : last zp 0 = 48) by (apply last_in_single; [assumption | rewrite Hv1; assumption]).
      rewrite Hl in Hv1. subst c'.
      destruct (Hju 48 [] eq_refl) as [zz [E ->]]; [discriminate | discriminate |]. injection E as <-.
      rewrite Hs, Hu. rewrite Hv2.
      replace (w1 ++ (sg ++ zp ++ fr) ++ w2) with (w1 ++ sg ++ (zp ++ fr) ++ w2) by (rewrite <- !app_assoc; reflexivity).
      apply acc_std; auto. apply num_zero; auto.
Qed.

Theorem str_as_int_sound s z : str_as_int max s = IntOk z -> accepted max s z.
Proof.
  unfold str_as_int. destruct (jiter_int max s) as [z'| |] eqn:E.
  - intros H; injection H as <-. apply jiter_accepted. assumption.
  - discriminate.
  - destruct (clean_int_str s) as [x|] eqn:Ec; [|discriminate].
    destruct (jiter_int max x) as [z'| |] eqn:Ex; try discriminate.
    intros H; injection H as <-. eapply clean_accepted; eauto.
Qed.

(** ** The value of an accepted text is determined by its characters *)
Definition before_dot (s : str) : str := match split_dot s with Some (a, _) => a | None => s end.
Definition val (s : str) : Z :=
  ((if contains 45 s then -1 else 1) * Z.of_N (dec_value (filter is_digit (before_dot s))))%Z.

Lemma filter_none (f : N -> bool) l : Forall (fun c => f c = false) l -> filter f l = [].
Proof. induction 1 as [|c l Hc _ IH]; simpl; [reflexivity|]. rewrite Hc. exact IH. Qed.
Lemma filter_all (f : N -> bool) l : Forall (fun c => f c = true) l -> filter f l = l.
Proof. induction 1 as [|c l Hc _ IH]; simpl; [reflexivity|]. rewrite Hc, IH. reflexivity. Qed.

Lemma space_not c : is_space c = true -> is_digit c = false /\ c <> 45 /\ c <> 46 /\ c <> 43 /\ c <> 95.
Proof.
  intros H. repeat split.
  - destruct (is_digit c) eqn:E; [|reflexivity]. apply nonspace_digit in E. congruence.
  - intros ->; discriminate.
  - intros ->; discriminate.
  - intros ->; discriminate.
  - intros ->; discriminate.
Qed.

Lemma all_space_digits w : all_space w -> filter is_digit w = [].
Proof. intros H. apply filter_none. eapply Forall_impl; [|exact H]. intros c Hc. apply space_not. assumption. Qed.
Lemma all_space_notin w c : all_space w -> is_space c = false -> ~ In c w.
Proof. intros H Hc Hi. unfold all_space in H. rewrite Forall_forall in H. apply H in Hi. congruence. Qed.

Lemma us_digits_chars w : us_digits w -> Forall (fun c => is_digit c = true \/ c = 95) w.
Proof. induction 1; repeat (apply Forall_cons); auto. Qed.
Lemma us_digits_filter w : us_digits w -> filter is_digit w = digits_of w.
Proof.
  induction 1 as [d Hd|d r Hd _ IH|d r Hd _ IH]; unfold digits_of in *; simpl;
    rewrite Hd, (digit_not_us d Hd); simpl; rewrite ?IH; reflexivity.
Qed.
Lemma zp_filter zp : Forall (fun c => c = 48 \/ c = 95) zp -> exists n, filter is_digit zp = repeat 48 n.
Proof.
  induction 1 as [|c zp Hc _ [n IH]]; [exists O; reflexivity|].
  destruct Hc as [->| ->]; simpl; rewrite IH; [exists (S n) | exists n]; reflexivity.
Qed.
Lemma zero_prefix_chars zp : zero_prefix zp -> Forall (fun c => c = 48 \/ c = 95) zp.
Proof. intros [r [-> H]]. constructor; auto. Qed.
Lemma dec_value_zeros n s : dec_value (repeat 48 n ++ s) = dec_value s.
Proof. induction n as [|n IH]; [reflexivity|]. exact IH. Qed.
Lemma dec_value_zeros' n : dec_value (repeat 48 n) = 0.
Proof. rewrite <- (app_nil_r (repeat 48 n)). rewrite dec_value_zeros. reflexivity. Qed.

Lemma before_dot_digits a fr w2 :
  ~ In 46 a -> zero_fraction fr -> all_space w2 ->
  filter is_digit (before_dot (a ++ fr ++ w2)) = filter is_digit a.
Proof.
  intros Ha [->|[n ->]] Hw; unfold before_dot.
  - simpl. rewrite split_dot_none.
    + rewrite filter_app, (all_space_digits w2 Hw). apply app_nil_r.
    + intros Hi. apply in_app_or in Hi as [Hi|Hi]; [auto|]. apply (all_space_notin w2 46) in Hi; auto.
  - simpl. rewrite split_dot_app by assumption. reflexivity.
Qed.

Lemma contains_iff c s : contains c s = true <-> In c s.
Proof.
  unfold contains. rewrite existsb_exists. split.
  - intros [x [H E]]. apply N.eqb_eq in E. subst; assumption.
  - intros H. exists c. split; [assumption | apply N.eqb_refl].
Qed.
Lemma contains_not c s : ~ In c s -> contains c s = false.
Proof. intros H. destruct (contains c s) eqn:E; [|reflexivity]. apply contains_iff in E. contradiction. Qed.

Lemma zero_fraction_notin fr c : zero_fraction fr -> c <> 46 -> c <> 48 -> ~ In c fr.
Proof.
  intros [->|[n ->]] H1 H2; [auto|]. intros [E|E]; [auto|].
  apply repeat_spec in E. auto.
Qed.

Lemma Forall_notin (P : N -> Prop) s c : Forall P s -> ~ P c -> ~ In c s.
Proof. intros H Hc Hi. rewrite Forall_forall in H. auto. Qed.

Lemma numeral_val body z :
  numeral max body z ->
  exists a fr, body = a ++ fr /\ zero_fraction fr /\ Forall (fun c => is_digit c = true \/ c = 95) a /\
    z = Z.of_N (dec_value (filter is_digit a)).
Proof.
  intros [zp ds fr Hzp [Hus _] Hfr|zp fr Hzp Hl Hfr].
  - exists (zp ++ ds), fr. split; [rewrite app_assoc; reflexivity|]. split; [assumption|].
    assert (Hzc : Forall (fun c => c = 48 \/ c = 95) zp) by (destruct Hzp as [->|Hzp]; [constructor | apply zero_prefix_chars; assumption]).
    split.
    + apply Forall_app. split; [|apply us_digits_chars; assumption].
      eapply Forall_impl; [|exact Hzc]. intros c [->| ->]; auto.
    + rewrite filter_app, (us_digits_filter ds Hus). destruct (zp_filter zp Hzc) as [n ->].
      rewrite dec_value_zeros. reflexivity.
  - exists zp, fr. split; [reflexivity|]. split; [assumption|]. pose proof (zero_prefix_chars zp Hzp) as Hzc. split.
    + eapply Forall_impl; [|exact Hzc]. intros c [->| ->]; auto.
    + destruct (zp_filter zp Hzc) as [n ->]. rewrite dec_value_zeros'. reflexivity.
Qed.

Lemma accepted_val s z : accepted max s z -> z = val s.
Proof.
  intros [w1 sg k body zz w2 Hw1 Hsg Hb Hw2|w1 sg zp u ds fr w2 Hw1 Hsg Hzp Hu Hds Hfr Hw2].
  - destruct (numeral_val body zz Hb) as [a [fr [-> [Hfr [Ha ->]]]]].
    assert (Hn46 : ~ In 46 (w1 ++ sg ++ a)).
    { intros Hi. apply in_app_or in Hi as [Hi|Hi]; [exact (all_space_notin w1 46 Hw1 eq_refl Hi)|].
      apply in_app_or in Hi as [Hi|Hi].
      - destruct Hsg; simpl in Hi; [contradiction | destruct Hi as [E|[]]; discriminate | destruct Hi as [E|[]]; discriminate].
      - revert Hi. eapply Forall_notin; [exact Ha|]. intros [E|E]; discriminate. }
    unfold val. replace (w1 ++ sg ++ (a ++ fr) ++ w2) with ((w1 ++ sg ++ a) ++ fr ++ w2) by (rewrite <- !app_assoc; reflexivity).
    rewrite (before_dot_digits _ fr w2 Hn46 Hfr Hw2).
    rewrite !filter_app, (all_space_digits w1 Hw1).
    assert (Hsf : filter is_digit sg = []) by (destruct Hsg; reflexivity). rewrite Hsf. simpl app.
    f_equal.
    assert (Hn45 : ~ In 45 w1 /\ ~ In 45 a /\ ~ In 45 fr /\ ~ In 45 w2).
    { repeat split.
      - exact (all_space_notin w1 45 Hw1 eq_refl).
      - eapply Forall_notin; [exact Ha|]. intros [E|E]; discriminate.
      - apply zero_fraction_notin; [assumption | discriminate | discriminate].
      - exact (all_space_notin w2 45 Hw2 eq_refl). }
    destruct Hn45 as [N1 [N2 [N3 N4]]].
    destruct Hsg.
    + rewrite contains_not; [reflexivity|]. rewrite !in_app_iff. simpl. tauto.
    + rewrite contains_not; [reflexivity|]. rewrite !in_app_iff. simpl. intuition discriminate.
    + assert (E : contains 45 ((w1 ++ [45] ++ a) ++ fr ++ w2) = true) by (apply contains_iff; rewrite !in_app_iff; simpl; auto 10).
      rewrite E. reflexivity.
  - assert (Hdsc : us_digits ds) by (destruct Hds as [[H _]| ->]; [assumption | constructor; reflexivity]).
    assert (Hn46 : ~ In 46 (w1 ++ sg ++ zp ++ [45] ++ u ++ ds)).
    { rewrite !in_app_iff. intros [Hi|[Hi|[Hi|[Hi|[Hi|Hi]]]]].
      - exact (all_space_notin w1 46 Hw1 eq_refl Hi).
      - destruct Hsg as [->| ->]; simpl in Hi; intuition discriminate.
      - revert Hi. eapply Forall_notin; [apply zero_prefix_chars; eassumption|]. intros [E|E]; discriminate.
      - simpl in Hi; intuition discriminate.
      - destruct Hu as [->| ->]; simpl in Hi; intuition discriminate.
      - revert Hi. eapply Forall_notin; [apply us_digits_chars; eassumption|]. intros [E|E]; discriminate. }
    unfold val.
    replace (w1 ++ sg ++ zp ++ [45] ++ u ++ ds ++ fr ++ w2) with ((w1 ++ sg ++ zp ++ [45] ++ u ++ ds) ++ fr ++ w2)
      by (rewrite <- !app_assoc; reflexivity).
    rewrite (before_dot_digits _ fr w2 Hn46 Hfr Hw2).
    rewrite !filter_app, (all_space_digits w1 Hw1).
    assert (Hsf : filter is_digit sg = []) by (destruct Hsg as [->| ->]; reflexivity).
    assert (Huf : filter is_digit u = []) by (destruct Hu as [->| ->]; reflexivity).
    rewrite Hsf, Huf, (us_digits_filter ds Hdsc). destruct (zp_filter zp (zero_prefix_chars zp Hzp)) as [n ->].
    simpl app. rewrite dec_value_zeros.
    assert (E : contains 45 ((w1 ++ sg ++ zp ++ 45 :: u ++ ds) ++ fr ++ w2) = true)
      by (apply contains_iff; rewrite !in_app_iff; simpl; auto 10).
    rewrite E. unfold value_of. lia.
Qed.

(** ** Completeness *)
Lemma take_digits_app a b :
  (length (fst (take_digits (a ++ b))) <= length (filter is_digit a) + length (fst (take_digits b)))%nat.
Proof.
  induction a as [|c a IH]; simpl; [lia|]. destruct (is_digit c) eqn:E; simpl; [|lia].
  destruct (take_digits (a ++ b)) as [d t]. simpl in *. lia.
Qed.

Lemma take_digits_tail fr w2 : zero_fraction fr -> all_space w2 -> fst (take_digits (fr ++ w2)) = [].
Proof.
  intros [->|[n ->]] Hw; [|reflexivity]. simpl. destruct Hw as [|c w2 Hc _]; [reflexivity|].
  simpl. destruct (space_not c Hc) as [-> _]. reflexivity.
Qed.

Lemma accepted_in_range s z : accepted max s z -> jiter_int max s <> JOutOfRange.
Proof.
  intros Ha Hr.
  assert (Hhead : forall body z w2, numeral max body z -> all_space w2 -> jiter_uint max (body ++ w2) <> JOutOfRange).
  { clear. intros body z w2 [zp ds fr' Hzp [Hus [_ Hl]] Hfr|zp fr' Hzp _ Hfr] Hw Hr;
      apply jiter_uint_range in Hr as [Hr [c [r [E Hc]]]].
    - destruct Hzp as [->|[zr [-> _]]].
      + simpl in *. rewrite <- app_assoc in Hr.
        pose proof (take_digits_app ds (fr' ++ w2)) as Hta. rewrite (take_digits_tail fr' w2 Hfr Hw) in Hta.
        rewrite (us_digits_filter ds Hus) in Hta. simpl in Hta. lia.
      + simpl in E. injection E as <- _. discriminate.
    - destruct Hzp as [zr [-> _]]. simpl in E. injection E as <- _. discriminate. }
  unfold jiter_int in Hr. change c_minus with 45 in Hr.
  destruct Ha as [w1 sg k body zz w2 Hw1 Hsg Hb Hw2|w1 sg zp u ds fr w2 Hw1 Hsg Hzp Hu Hds Hfr Hw2].
  - destruct Hw1 as [|c w1 Hc Hw1]; cbn [app] in Hr.
    + assert (Hnm : forall c r, body = c :: r -> c <> 45).
      { clear - Hb. intros c r E. destruct (numeral_val body zz Hb) as [a [fr [-> [Hfr [Ha _]]]]].
        destruct a as [|a0 a].
        - simpl in E. destruct Hfr as [->|[n ->]]; [discriminate|]. injection E as <- _. discriminate.
        - simpl in E. injection E as <- _. inversion Ha as [|? ? [H|H] _]; subst; [intros ->|]; discriminate. }
      destruct Hsg; cbn [app] in Hr.
      * destruct body as [|c body].
        { cbn [app] in Hr. clear - Hw2 Hr Hb. inversion Hb as [zp ds fr H1 [H2 _] H3 E|zp fr [r [-> H]] H2 H3 E].
          apply us_digits_head in H2 as [c [r [-> _]]]. destruct zp; discriminate. }
        cbn [app] in Hr. pose proof (Hnm c body eq_refl) as Hc45. apply N.eqb_neq in Hc45. rewrite Hc45 in Hr.
        exact (Hhead (c :: body) zz w2 Hb Hw2 Hr).
      * discriminate Hr.
      * destruct (jiter_uint max (body ++ w2)) eqn:E; try discriminate.
        exact (Hhead body zz w2 Hb Hw2 E).
    + destruct (space_not c Hc) as [Hd [H45 _]]. apply N.eqb_neq in H45. rewrite H45 in Hr.
      apply jiter_uint_range in Hr as [_ [c' [r' [E Hc']]]]. injection E as <- _.
      apply is_digit19_digit in Hc'. congruence.
  - destruct Hw1 as [|c w1 Hc Hw1]; cbn [app] in Hr.
    + destruct Hzp as [zr [-> _]]. destruct Hsg as [->| ->]; cbn [app] in Hr.
      * apply jiter_uint_range in Hr as [_ [c' [r' [E Hc']]]]. injection E as <- _. discriminate.
      * apply jiter_uint_range in Hr as [_ [c' [r' [E Hc']]]]. injection E as <- _. discriminate.
    + destruct (space_not c Hc) as [Hd [H45 _]]. apply N.eqb_neq in H45. rewrite H45 in Hr.
      apply jiter_uint_range in Hr as [_ [c' [r' [E Hc']]]]. injection E as <- _.
      apply is_digit19_digit in Hc'. congruence.
Qed.

(** Running the cleaning when every step is known. *)
Lemma clean_run s0 pre sg neg u v w post z :
  trim s0 = sg ++ u ->
  (sg = [] /\ neg = false /\ starts_with 43 u = false /\ starts_with 45 u = false \/
   sg = [43] /\ neg = false /\ starts_with 45 u = false \/
   sg = [45] /\ neg = true /\ starts_with 45 u = false /\ starts_with 43 u = false) ->
  strip_leading_zeros u = Some v -> cut_zero_fraction v = w ->
  good_us w -> jiter_int max (if neg then 45 :: digits_of w else digits_of w) = JOk z ->
  s0 = pre ++ w ++ post -> (neg = true -> pre <> []) ->
  jiter_int max s0 = JInvalid ->
  str_as_int max s0 = IntOk z.
Proof.
  intros Ht Hsg Hv Hw Hg Hj Hs0 Hpre Hinv. unfold str_as_int. rewrite Hinv.
  rewrite (clean_unfold s0 (sg, neg) u Ht Hsg). rewrite Hv. cbv zeta. rewrite Hw. cbn [snd].
  pose proof (proj2 (fin_parse neg w z) (conj Hg Hj)) as Hf. unfold fin in Hf.
  destruct (strip_underscores w) as [x|].
  - unfold str in *. rewrite Hf. reflexivity.
  - destruct (Nat.eqb_spec (length s0) (length w)) as [El|El]; [|unfold str in *; rewrite Hf; reflexivity].
    exfalso. rewrite Hs0 in El. rewrite !app_length in El.
    assert (pre = []) as -> by (destruct pre; [reflexivity | simpl in El; lia]).
    assert (post = []) as -> by (destruct post; [reflexivity | simpl in El; lia]).
    destruct neg; [apply Hpre; reflexivity|].
    rewrite app_nil_r in Hs0. simpl in Hs0. subst s0. rewrite Hf in Hinv. discriminate.
Qed.

Lemma nonspace_last_fr a fr d r : a = r ++ [d] -> is_space d = false -> zero_fraction fr ->
  exists r' d', a ++ fr = r' ++ [d'] /\ is_space d' = false.
Proof.
  intros -> Hd [->|[n ->]].
  - exists r, d. rewrite app_nil_r. auto.
  - exists ((r ++ [d]) ++ 46 :: repeat 48 n), 48. split; [|reflexivity].
    rewrite <- (app_assoc (r ++ [d])). f_equal. simpl. f_equal.
    change (48 :: repeat 48 n) with (repeat 48 (S n)). rewrite <- (repeat_cons n 48). reflexivity.
Qed.

Lemma sign_cases sg k : sign sg k ->
  exists neg, (sg = [] /\ neg = false /\ k = 1%Z) \/ (sg = [43] /\ neg = false /\ k = 1%Z) \/ (sg = [45] /\ neg = true /\ k = (-1)%Z).
Proof. intros []; [exists false | exists false | exists true]; auto. Qed.

Lemma trim_body w1 sg body w2 k c r r' d :
  all_space w1 -> all_space w2 -> sign sg k -> body = c :: r -> is_space c = false ->
  body = r' ++ [d] -> is_space d = false -> trim (w1 ++ sg ++ body ++ w2) = sg ++ body.
Proof.
  intros Hw1 Hw2 Hsg Hb Hc Hb' Hd.
  rewrite (app_assoc sg). destruct Hsg.
  - eapply trim_exact; eauto.
  - eapply (trim_exact _ _ _ 43 body (d) (43 :: r')); auto. rewrite Hb'. reflexivity.
  - eapply (trim_exact _ _ _ 45 body (d) (45 :: r')); auto. rewrite Hb'. reflexivity.
Qed.

Lemma signed_parse (neg : bool) w c r z :
  digits_of w = c :: r -> c <> 45 -> jiter_uint max (digits_of w) = JOk z ->
  jiter_int max (if neg then 45 :: digits_of w else digits_of w) = JOk (if neg then - z else z)%Z.
Proof.
  intros Ed Hc Hj. destruct neg; unfold jiter_int.
  - change (45 =? c_minus) with true. cbv iota. rewrite Hj. reflexivity.
  - rewrite Ed. change c_minus with 45. apply N.eqb_neq in Hc. rewrite Hc. rewrite <- Ed. exact Hj.
Qed.

Theorem str_as_int_complete s z : accepted max s z -> str_as_int max s = IntOk z.
Proof.
  intros Ha. pose proof (accepted_in_range s z Ha) as Hnr.
  destruct (jiter_int max s) as [z'| |] eqn:Ej.
  - unfold str_as_int. rewrite Ej. f_equal.
    pose proof (accepted_val s z Ha) as E1. pose proof (accepted_val s z' (jiter_accepted s z' Ej)) as E2. congruence.
  - contradiction.
  - clear Hnr.
    assert (Hstd : forall w1 sg k body w2 c r v w zz post,
      s = w1 ++ sg ++ body ++ w2 -> all_space w1 -> all_space w2 -> sign sg k ->
      body = c :: r -> is_digit c = true ->
      (exists r' d, body = r' ++ [d] /\ is_space d = false) ->
      strip_leading_zeros body = Some v -> cut_zero_fraction v = w -> good_us w ->
      (exists c' r', digits_of w = c' :: r' /\ c' <> 45) ->
      jiter_uint max (digits_of w) = JOk zz -> (exists p, body = p ++ w ++ post) ->
      str_as_int max s = IntOk (k * zz)).
    { clear Ha. intros w1 sg k body w2 c r v w zz post Hs Hw1 Hw2 Hsg Hb Hc [r' [d [Hb' Hd]]] Hv Hw Hg [c' [rr [Ed Hc']]] Hj [p Hp].
      assert (Ht : trim s = sg ++ body).
      { rewrite Hs. eapply trim_body; eauto. apply nonspace_digit; assumption. }
      assert (Hst : starts_with 43 body = false /\ starts_with 45 body = false).
      { rewrite Hb. simpl. apply is_digit_spec in Hc. split; apply N.eqb_neq; lia. }
      destruct (sign_cases sg k Hsg) as [neg Hcases].
      eapply (clean_run s (w1 ++ sg ++ p) sg neg body v w (post ++ w2)); eauto.
      - destruct Hcases as [[-> [-> _]]|[[-> [-> _]]|[-> [-> _]]]]; tauto.
      - replace (k * zz)%Z with (if neg then - zz else zz)%Z
          by (destruct Hcases as [[_ [-> ->]]|[[_ [-> ->]]|[_ [-> ->]]]]; lia).
        eapply signed_parse; eauto.
      - rewrite Hs, Hp. rewrite <- !app_assoc. reflexivity.
      - intros ->. destruct Hcases as [[_ [E _]]|[[_ [E _]]|[-> _]]]; try discriminate.
        intros E. apply app_eq_nil in E as [_ E]. discriminate. }
    destruct Ha as [w1 sg k body zz w2 Hw1 Hsg Hb Hw2|w1 sg zp u ds fr w2 Hw1 Hsg Hzp Hu Hds Hfr Hw2].
    + destruct Hb as [zp ds fr Hzp Hsig Hfr|zp fr Hzp Hl Hfr].
      * destruct Hsig as [Hus [[c [r [Hds Hc]]] Hlen]].
        destruct (us_digits_last ds Hus) as [r' [d [Hr' Hd]]].
        destruct (nonspace_last_fr ds fr d r' Hr' (nonspace_digit d Hd) Hfr) as [r2 [d2 [E2 Hd2]]].
        assert (Hn46 : ~ In 46 ds) by (eapply Forall_notin; [apply us_digits_chars; eassumption|]; intros [E|E]; discriminate).
        assert (Hc95 : c <> 95) by (intros ->; discriminate).
        assert (Hc45 : c <> 45) by (intros ->; discriminate).
        destruct (proj2 (significant_parse ds c r Hds Hc (value_of ds)) (conj (conj Hus (conj (ex_intro _ c (ex_intro _ r (conj Hds Hc))) Hlen)) eq_refl)) as [Hg Hj].
        assert (Hslz : strip_leading_zeros (zp ++ ds ++ fr) = Some (ds ++ fr)).
        { rewrite Hds. simpl. destruct Hzp as [->|Hzp]; [apply slz_sig; assumption | apply slz_zero_sig; auto]. }
        assert (Hbody : exists c0 r0, zp ++ ds ++ fr = c0 :: r0 /\ is_digit c0 = true).
        { destruct Hzp as [->|[zr [-> _]]]; simpl.
          - rewrite Hds. simpl. exists c, (r ++ fr). split; [reflexivity | apply is_digit19_digit; assumption].
          - exists 48, (zr ++ ds ++ fr). auto. }
        destruct Hbody as [c0 [r0 [Hb0 Hc0]]].
        apply (Hstd w1 sg k (zp ++ ds ++ fr) w2 c0 r0 (ds ++ fr) ds (value_of ds) fr); auto.
        -- exists (zp ++ r2), d2. rewrite E2. split; [rewrite app_assoc; reflexivity | assumption].
        -- apply cut_exact; assumption.
        -- exists c, (digits_of r). split; [rewrite Hds; apply digits_of_cons; assumption | assumption].
        -- exists zp. reflexivity.
      * assert (Hzc := zero_prefix_chars zp Hzp).
        assert (Hzl : zp = removelast zp ++ [48]).
        { rewrite <- Hl at 1. apply app_removelast_last. destruct Hzp as [zr [-> _]]. discriminate. }
        destruct (nonspace_last_fr zp fr 48 (removelast zp) Hzl eq_refl Hfr) as [r2 [d2 [E2 Hd2]]].
        assert (Hb0 : exists r0, zp ++ fr = 48 :: r0) by (destruct Hzp as [zr [-> _]]; simpl; eauto).
        destruct Hb0 as [r0 Hb0].
        destruct Hfr as [->|[n ->]].
        -- apply (Hstd w1 sg k (zp ++ []) w2 48 r0 [48] [48] 0%Z []); auto.
           ++ eauto.
           ++ rewrite app_nil_r, (slz_zero_end zp Hzp), Hl. reflexivity.
           ++ apply no_us_good. simpl; intuition discriminate.
           ++ exists 48, []. split; [reflexivity | discriminate].
           ++ exists (removelast zp). rewrite Hzl at 1. rewrite !app_nil_r. reflexivity.
        -- apply (Hstd w1 sg k (zp ++ 46 :: repeat 48 (S n)) w2 48 r0 (48 :: 46 :: repeat 48 (S n)) [48] 0%Z (46 :: repeat 48 (S n))); auto.
           ++ eauto.
           ++ rewrite (slz_zero_dot zp _ Hzp), Hl. reflexivity.
           ++ apply (cut_exact [48]); [simpl; intuition discriminate | right; eauto].
           ++ apply no_us_good. simpl; intuition discriminate.
           ++ exists 48, []. split; [reflexivity | discriminate].
           ++ exists (removelast zp). rewrite Hzl at 1. rewrite <- app_assoc. reflexivity.
    + assert (Hdsc : us_digits ds) by (destruct Hds as [[H _]| ->]; [assumption | constructor; reflexivity]).
      destruct (us_digits_last ds Hdsc) as [r' [d [Hr' Hd]]].
      destruct (nonspace_last_fr ds fr d r' Hr' (nonspace_digit d Hd) Hfr) as [r2 [d2 [E2 Hd2]]].
      pose proof (us_digits_good ds Hdsc) as [[G1 [G2 G3]] Hall].
      assert (Hdsne := us_digits_nonempty ds Hdsc).
      set (w := 45 :: u ++ ds).
      assert (Hg : good_us w).
      { unfold w. destruct Hu as [->| ->]; simpl app; repeat split.
        - rewrite ends_with_cons; assumption.
        - destruct ds; [contradiction|]. exact G3.
        - rewrite !ends_with_cons; try assumption; discriminate.
        - destruct ds as [|d0 ds]; [contradiction|].
          change (has_double_us (45 :: 95 :: d0 :: ds)) with (((45 =? 95) && (95 =? 95)) || (((95 =? 95) && (d0 =? 95)) || has_double_us (d0 :: ds))).
          rewrite G3. simpl in G1. rewrite G1. reflexivity. }
      assert (Edw : digits_of w = 45 :: digits_of ds).
      { unfold w. rewrite digits_of_cons by discriminate. f_equal. destruct Hu as [->| ->]; reflexivity. }
      assert (Hj : jiter_uint max (digits_of ds) = JOk (value_of ds)).
      { destruct Hds as [[H1 [[c [r [H2 H2']]] H3]]| ->]; [|reflexivity].
        apply (proj2 (significant_parse ds c r H2 H2' (value_of ds))). split; [|reflexivity].
        repeat split; eauto. }
      set (body := zp ++ w ++ fr).
      set (s := w1 ++ sg ++ zp ++ [45] ++ u ++ ds ++ fr ++ w2) in *.
      assert (Hs : s = w1 ++ sg ++ body ++ w2).
      { unfold s, body, w. simpl. rewrite <- !app_assoc. simpl. rewrite <- !app_assoc. reflexivity. }
      assert (Hsg' : sign sg 1) by (destruct Hsg as [->| ->]; constructor).
      assert (Hn46 : ~ In 46 w).
      { unfold w. intros [E|E]; [discriminate|]. apply in_app_or in E as [E|E].
        - destruct Hu as [->| ->]; simpl in E; intuition discriminate.
        - revert E. eapply Forall_notin; [apply us_digits_chars; eassumption|]. intros [E|E]; discriminate. }
      assert (Hb48 : exists r0, body = 48 :: r0) by (destruct Hzp as [zr [-> _]]; unfold body; simpl; eauto).
      destruct Hb48 as [r0 Hb48].
      apply (clean_run s (w1 ++ sg ++ zp) sg false body (w ++ fr) w (fr ++ w2)); auto.
      * rewrite Hs. apply (trim_body w1 sg body w2 1 48 r0 (zp ++ 45 :: u ++ r2) d2); auto.
        unfold body, w. simpl. rewrite <- !app_assoc. simpl. rewrite <- app_assoc. f_equal. f_equal. f_equal. exact E2.
      * destruct Hsg as [->| ->]; [left | right; left]; rewrite Hb48; auto.
      * unfold body, w. simpl. apply slz_zero_sig; auto.
      * apply cut_exact; assumption.
      * rewrite Edw. unfold jiter_int. change (45 =? c_minus) with true. cbv iota. rewrite Hj. reflexivity.
      * rewrite Hs. unfold body. rewrite <- !app_assoc. reflexivity.
      * discriminate.
Qed.

Theorem str_as_int_iff s z : str_as_int max s = IntOk z <-> accepted max s z.
Proof. split; [apply str_as_int_sound | apply str_as_int_complete]. Qed.

(** ** Python's own integer syntax *)
Lemma us_digits_split ds : us_digits ds ->
  (exists zp ds', ds = zp ++ ds' /\ (zp = [] \/ zero_prefix zp) /\ us_digits ds' /\
     exists c r, ds' = c :: r /\ is_digit19 c = true) \/
  (zero_prefix ds /\ last ds 0 = 48).
Proof.
  assert (H48 : forall d, is_digit d = true -> is_digit19 d = true \/ d = 48).
  { intros d H. apply is_digit_spec in H. destruct (N.eq_dec d 48); [auto|]. left. apply is_digit19_spec. lia. }
  induction 1 as [d Hd|d r Hd Hr IH|d r Hd Hr IH].
  - destruct (H48 d Hd) as [E| ->].
    + left. exists [], [d]. repeat split; auto; [constructor; assumption | eauto].
    + right. split; [exists []; auto | reflexivity].
  - destruct (H48 d Hd) as [E| ->].
    + left. exists [], (d :: r). repeat split; auto; [apply us_next; assumption | eauto].
    + destruct IH as [[zp [ds' [-> [Hz [Hu Hx]]]]]|[[zr [-> Hz]] Hl]].
      * left. exists (48 :: zp), ds'. repeat split; auto. right.
        destruct Hz as [->|[zr [-> Hz]]]; [exists []; auto | exists (48 :: zr); auto].
      * right. split; [exists (48 :: zr); auto | exact Hl].
  - destruct (H48 d Hd) as [E| ->].
    + left. exists [], (d :: 95 :: r). repeat split; auto; [apply us_sep; assumption | eauto].
    + destruct IH as [[zp [ds' [-> [Hz [Hu Hx]]]]]|[[zr [-> Hz]] Hl]].
      * left. exists (48 :: 95 :: zp), ds'. repeat split; auto. right.
        destruct Hz as [->|[zr [-> Hz]]]; [exists [95] | exists (95 :: 48 :: zr)]; auto.
      * right. split; [exists (95 :: 48 :: zr); auto | exact Hl].
Qed.

Lemma digits_of_app a b : digits_of (a ++ b) = digits_of a ++ digits_of b.
Proof. apply filter_app. Qed.

Lemma value_zero_prefix zp ds : zp = [] \/ zero_prefix zp -> value_of (zp ++ ds) = value_of ds.
Proof.
  intros Hz. unfold value_of. rewrite digits_of_app.
  assert (E : exists n, digits_of zp = repeat 48 n).
  { destruct Hz as [->|Hz]; [exists O; reflexivity|]. apply zero_prefix_chars in Hz.
    clear -Hz. induction Hz as [|c zp Hc _ [n IH]]; [exists O; reflexivity|].
    unfold digits_of in *. destruct Hc as [->| ->]; simpl; rewrite IH; [exists (S n) | exists n]; reflexivity. }
  destruct E as [n ->]. rewrite dec_value_zeros. reflexivity.
Qed.

Theorem python_int_accepted s z ds w1 sg k fr w2 :
  s = w1 ++ sg ++ ds ++ fr ++ w2 -> z = (k * value_of ds)%Z ->
  all_space w1 -> sign sg k -> us_digits ds -> zero_fraction fr -> all_space w2 ->
  (* at most [max] digits once leading zeros are dropped *)
  (forall zp ds', ds = zp ++ ds' -> zp = [] \/ zero_prefix zp -> (exists c r, ds' = c :: r /\ is_digit19 c = true) ->
     N.of_nat (length (digits_of ds')) <= max) ->
  str_as_int max s = IntOk z.
Proof.
  intros -> -> Hw1 Hsg Hds Hfr Hw2 Hlen. apply str_as_int_complete.
  destruct (us_digits_split ds Hds) as [[zp [ds' [-> [Hz [Hu Hx]]]]]|[Hz Hl]].
  - rewrite (value_zero_prefix zp ds' Hz).
    replace (w1 ++ sg ++ (zp ++ ds') ++ fr ++ w2) with (w1 ++ sg ++ (zp ++ ds' ++ fr) ++ w2)
      by (rewrite <- !app_assoc; reflexivity).
    apply acc_std; auto. apply num_sig; auto. repeat split; auto. apply (Hlen zp ds'); auto.
  - replace (value_of ds) with 0%Z.
    + replace (w1 ++ sg ++ ds ++ fr ++ w2) with (w1 ++ sg ++ (ds ++ fr) ++ w2)
        by (rewrite <- !app_assoc; reflexivity).
      apply acc_std; auto. apply num_zero; auto.
    + rewrite <- (app_nil_r ds). rewrite value_zero_prefix by auto. reflexivity.
Qed.
End M.

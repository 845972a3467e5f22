(** The grammar of JsonTextSpec.v is unambiguous. *)
From Coq Require Import List NArith ZArith Bool Lia.
From Verif Require Import Base Utf8 Float64 Decimal Values JsonTextSpec.
Import ListNotations.
Open Scope N_scope.

Definition stops (p : N -> bool) (s : str) : Prop := match s with [] => True | c :: _ => p c = false end.

Lemma span_eq p w1 : forall w2 a b, Forall (fun c => p c = true) w1 -> Forall (fun c => p c = true) w2 ->
  stops p a -> stops p b -> w1 ++ a = w2 ++ b -> w1 = w2 /\ a = b.
Proof.
  induction w1 as [|x w1 IH]; intros [|y w2] a b H1 H2 Ha Hb E; cbn [app] in E.
  - auto.
  - subst a. cbn in Ha. inversion H2. congruence.
  - subst b. cbn in Hb. inversion H1. congruence.
  - injection E as <- E. inversion H1; subst. inversion H2; subst.
    destruct (IH w2 a b) as [<- <-]; auto.
Qed.

(** ** Strings *)

Lemma hex_digit_fun c n m : hex_digit c n -> hex_digit c m -> n = m.
Proof. unfold hex_digit. lia. Qed.
Lemma hex4_fun a b c d n m : hex4 a b c d n -> hex4 a b c d m -> n = m.
Proof.
  intros (w & x & y & z & H1 & H2 & H3 & H4 & ->) (w' & x' & y' & z' & H1' & H2' & H3' & H4' & ->).
  rewrite (hex_digit_fun _ _ _ H1 H1'), (hex_digit_fun _ _ _ H2 H2'), (hex_digit_fun _ _ _ H3 H3'), (hex_digit_fun _ _ _ H4 H4').
  reflexivity.
Qed.

Lemma scalar_not_high n hi : n = hi -> scalar n = true -> 55296 <= hi < 56320 -> False.
Proof. intros -> H1 H2. apply scalar_spec in H1. lia. Qed.

Lemma chars_unique t1 s1 : chars t1 s1 -> forall t2 s2 r1 r2, chars t2 s2 ->
  t1 ++ 34 :: r1 = t2 ++ 34 :: r2 -> t1 = t2 /\ s1 = s2 /\ r1 = r2.
Proof.
  induction 1; intros t2 s2 r1 r2 HX E; inversion HX; subst; cbn [app] in E; injection E; clear E; intros;
    subst; try congruence;
    try match goal with
        | HA : hex4 ?a ?b ?c ?d ?n, HB : hex4 ?a ?b ?c ?d ?m |- _ =>
            pose proof (hex4_fun _ _ _ _ _ _ HA HB); subst
        end;
    try (exfalso; match goal with
                  | HS : scalar ?n = true, HR : 55296 <= ?n < 56320 |- _ => exact (scalar_not_high n n eq_refl HS HR)
                  end);
    try match goal with
        | HA : hex4 ?a ?b ?c ?d ?n, HB : hex4 ?a ?b ?c ?d ?m |- _ =>
            assert (n = m) by (exact (hex4_fun _ _ _ _ _ _ HA HB)); subst
        end;
    try (match goal with
         | IH : (forall t2 s2 r1 r2, chars t2 s2 -> ?t ++ _ = _ -> _), HC : chars ?t' ?s', HE : ?t ++ 34 :: ?r1 = ?t' ++ 34 :: ?r2 |- _ =>
             destruct (IH _ _ _ _ HC HE) as (-> & -> & ->)
         end; auto).
  - auto.
  - repeat match goal with
           | HA : hex4 ?a ?b ?c ?d ?n, HB : hex4 ?a ?b ?c ?d ?m |- _ =>
               assert_fails (constr_eq n m); pose proof (hex4_fun _ _ _ _ _ _ HA HB); subst
           end. auto.
Qed.

Lemma string_unique t1 s1 t2 s2 r1 r2 : string_text t1 s1 -> string_text t2 s2 -> t1 ++ r1 = t2 ++ r2 ->
  t1 = t2 /\ s1 = s2 /\ r1 = r2.
Proof.
  intros (c1 & -> & H1) (c2 & -> & H2) E. cbn [app] in E. injection E as E. rewrite <- !app_assoc in E. cbn [app] in E.
  destruct (chars_unique _ _ H1 _ _ _ _ H2 E) as (-> & -> & ->). auto.
Qed.

(** ** Numbers *)

Definition numchar (c : N) : bool := is_digit c || (c =? 43) || (c =? 45) || (c =? 46) || (c =? 69) || (c =? 101).
Definition fractional (c : N) : bool := (c =? 46) || (c =? 69) || (c =? 101).

Lemma digit_numchar c : is_digit c = true -> numchar c = true.
Proof. intros H. unfold numchar. rewrite H. reflexivity. Qed.
Lemma digits_numchar s : digits s -> Forall (fun c => numchar c = true) s.
Proof. apply Forall_impl. exact digit_numchar. Qed.
Lemma int_part_digits s : int_part s -> digits s.
Proof.
  intros [-> | (c & r & -> & Hc & Hr)]; [repeat constructor|]. constructor; [apply is_digit19_digit, Hc|exact Hr].
Qed.
Lemma int_part_head s : int_part s -> exists c r, s = c :: r /\ is_digit c = true.
Proof.
  intros [-> | (c & r & -> & Hc & Hr)]; [exists 48, []; auto|]. exists c, r. split; [reflexivity|apply is_digit19_digit, Hc].
Qed.
Lemma digit_not_fractional c : is_digit c = true -> fractional c = false.
Proof.
  rewrite is_digit_spec. intros H. unfold fractional.
  destruct (N.eqb_spec c 46); [lia|]. destruct (N.eqb_spec c 69); [lia|]. destruct (N.eqb_spec c 101); [lia|]. reflexivity.
Qed.

Lemma int_text_numchar s z : int_text s z -> Forall (fun c => numchar c = true) s.
Proof.
  intros [t H|t H]; [apply digits_numchar, int_part_digits, H|].
  constructor; [reflexivity|apply digits_numchar, int_part_digits, H].
Qed.
Lemma int_text_fun s z1 z2 : int_text s z1 -> int_text s z2 -> z1 = z2.
Proof.
  intros [t H|t H] H2.
  - inversion H2 as [u Hu E1 E2|u Hu E1 E2]; subst; [reflexivity|].
    destruct (int_part_head _ H) as (c & r & E & Hc). injection E as <- <-. discriminate.
  - inversion H2 as [u Hu E1 E2|u Hu E1 E2]; subst; [|reflexivity].
    destruct (int_part_head _ Hu) as (c & r & E & Hc). injection E as <- <-. discriminate.
Qed.
Lemma int_text_plain s z : int_text s z -> Forall (fun c => fractional c = false) s.
Proof.
  intros [t H|t H]; apply int_part_digits in H.
  - revert H. apply Forall_impl. exact digit_not_fractional.
  - constructor; [reflexivity|]. revert H. apply Forall_impl. exact digit_not_fractional.
Qed.
Lemma float_text_numchar s : float_text s -> Forall (fun c => numchar c = true) s.
Proof.
  intros (sg & i & fr & ex & -> & Hs & Hi & Hf & He & _). rewrite !Forall_app. repeat split.
  - destruct Hs as [-> | ->]; repeat constructor.
  - apply digits_numchar, int_part_digits, Hi.
  - destruct Hf as [-> | (ds & -> & _ & Hd)]; [constructor|]. constructor; [reflexivity|apply digits_numchar, Hd].
  - destruct He as [-> | (e & sign & ds & -> & Hx & Hg & _ & Hd)]; [constructor|].
    constructor; [destruct Hx as [-> | ->]; reflexivity|]. rewrite Forall_app. split; [|apply digits_numchar, Hd].
    destruct Hg as [-> | [-> | ->]]; repeat constructor.
Qed.
Lemma float_text_fractional s : float_text s -> Exists (fun c => fractional c = true) s.
Proof.
  intros (sg & i & fr & ex & -> & _ & _ & Hf & He & Hne). rewrite !Exists_app.
  destruct Hf as [-> | (ds & -> & _ & _)]; [|right; right; left; constructor; reflexivity].
  destruct He as [-> | (e & sign & ds & -> & Hx & _)]; [destruct Hne; congruence|].
  right. right. right. constructor. destruct Hx as [-> | ->]; reflexivity.
Qed.
Lemma int_not_float s z : int_text s z -> float_text s -> False.
Proof.
  intros H1 H2. apply int_text_plain in H1. apply float_text_fractional in H2.
  rewrite Forall_forall in H1. apply Exists_exists in H2 as (c & Hin & Hc). rewrite (H1 c Hin) in Hc. discriminate.
Qed.
Lemma float_text_head s : float_text s -> exists c r, s = c :: r /\ (is_digit c = true \/ c = 45).
Proof.
  intros (sg & i & fr & ex & -> & Hs & Hi & _). destruct Hs as [-> | ->].
  - destruct (int_part_head _ Hi) as (c & r & -> & Hc). cbn [app]. eauto.
  - cbn [app]. eauto.
Qed.

(** ** Values *)

(** Which kind of value starts with this character. *)
Definition kind_of (c : N) : nat :=
  if c =? 110 then 0 else if c =? 116 then 1 else if c =? 102 then 2 else if c =? 34 then 3 else if c =? 91 then 4
  else if c =? 123 then 5 else if (c =? 45) || is_digit c then 6 else 7%nat.
Definition kind (j : json) : nat :=
  match j with
  | JNull => 0 | JBool true => 1 | JBool false => 2 | JStr _ => 3 | JArr _ => 4 | JObj _ => 5 | JInt _ | JFloat _ => 6
  end%nat.

Lemma kind_digit c : is_digit c = true -> kind_of c = 6%nat.
Proof.
  intros H. unfold kind_of. rewrite H. apply is_digit_spec in H.
  repeat match goal with |- context [c =? ?k] => destruct (N.eqb_spec c k); [lia|] end. reflexivity.
Qed.

Section Unique.
Variable reads : str -> f64.
Notation value := (value reads).
Notation elements := (elements reads).
Notation members := (members reads).

Lemma value_kind j t : value j t -> exists c r, t = c :: r /\ kind_of c = kind j.
Proof.
  intros H. destruct H.
  - do 2 eexists; split; reflexivity.
  - do 2 eexists; split; reflexivity.
  - do 2 eexists; split; reflexivity.
  - destruct H as [s H|s H]; [|do 2 eexists; split; reflexivity].
    destruct (int_part_head _ H) as (c & r & -> & Hc). exists c, r. split; [reflexivity|apply kind_digit, Hc].
  - destruct (float_text_head _ H) as (c & r & -> & [Hc| ->]); exists c, r || exists 45, r; split; try reflexivity.
    apply kind_digit, Hc.
  - destruct H as (c & -> & _). do 2 eexists; split; reflexivity.
  - do 2 eexists; split; reflexivity.
  - do 2 eexists; split; reflexivity.
  - do 2 eexists; split; reflexivity.
  - do 2 eexists; split; reflexivity.
Qed.

Lemma kind_not_ws c : is_ws c = true -> kind_of c = 7%nat.
Proof.
  unfold is_ws. rewrite !orb_true_iff, !N.eqb_eq. intros [[[-> | ->] | ->] | ->]; reflexivity.
Qed.
Lemma value_stops_ws j t r : value j t -> stops is_ws (t ++ r).
Proof.
  intros H. destruct (value_kind _ _ H) as (c & u & -> & Hk). cbn. destruct (is_ws c) eqn:E; [|reflexivity].
  rewrite (kind_not_ws c E) in Hk. destruct j as [|[]| | | | |]; discriminate.
Qed.
Lemma value_head j t r c u : value j t -> t ++ r = c :: u -> kind_of c = 7%nat -> False.
Proof.
  intros H E Hc. destruct (value_kind _ _ H) as (c' & u' & -> & Hk). injection E as <- _.
  rewrite Hc in Hk. destruct j as [|[]| | | | |]; discriminate.
Qed.
Lemma string_stops_ws t s r : string_text t s -> stops is_ws (t ++ r).
Proof. intros (c & -> & _). reflexivity. Qed.

Definition ends (r : str) : Prop := stops numchar r.
Lemma ws_ends w r : ws w -> ends r -> ends (w ++ r).
Proof.
  intros Hw Hr. destruct Hw as [|c w Hc Hw]; [exact Hr|]. cbn. unfold is_ws in Hc.
  rewrite !orb_true_iff, !N.eqb_eq in Hc. destruct Hc as [[[-> | ->] | ->] | ->]; reflexivity.
Qed.

Scheme value_mind := Minimality for JsonTextSpec.value Sort Prop
  with elements_mind := Minimality for JsonTextSpec.elements Sort Prop
  with members_mind := Minimality for JsonTextSpec.members Sort Prop.
Combined Scheme grammar_ind from value_mind, elements_mind, members_mind.

Definition Pv (j1 : json) (t1 : str) : Prop := forall j2 t2 r1 r2, value j2 t2 -> t1 ++ r1 = t2 ++ r2 ->
  ends r1 -> ends r2 -> j1 = j2 /\ t1 = t2 /\ r1 = r2.
Definition Pe (l1 : list json) (t1 : str) : Prop := forall l2 t2 r1 r2, elements l2 t2 -> t1 ++ 93 :: r1 = t2 ++ 93 :: r2 ->
  l1 = l2 /\ t1 = t2 /\ r1 = r2.
Definition Pm (l1 : list (str * json)) (t1 : str) : Prop := forall l2 t2 r1 r2, members l2 t2 -> t1 ++ 125 :: r1 = t2 ++ 125 :: r2 ->
  l1 = l2 /\ t1 = t2 /\ r1 = r2.

(** Both texts start with the same kind of value. *)
Lemma same_kind j1 t1 j2 t2 r1 r2 : value j1 t1 -> value j2 t2 -> t1 ++ r1 = t2 ++ r2 -> kind j1 = kind j2.
Proof.
  intros H1 H2 E. destruct (value_kind _ _ H1) as (c1 & u1 & -> & K1). destruct (value_kind _ _ H2) as (c2 & u2 & -> & K2).
  injection E as -> _. congruence.
Qed.

Lemma number_unique s1 s2 r1 r2 : Forall (fun c => numchar c = true) s1 -> Forall (fun c => numchar c = true) s2 ->
  s1 ++ r1 = s2 ++ r2 -> ends r1 -> ends r2 -> s1 = s2 /\ r1 = r2.
Proof. intros. eapply span_eq; eauto. Qed.

(** An array or object with white space only is not one with items. *)
Lemma empty_not_elements w l t r1 r2 : ws w -> elements l t -> w ++ 93 :: r1 = t ++ 93 :: r2 -> False.
Proof.
  intros Hw H E. destruct H as [j w1 u w2 H1 H2 H3|j w1 u w2 l r H1 H2 H3 H4]; rewrite <- !app_assoc in E.
  - destruct (span_eq is_ws w w1 (93 :: r1) (u ++ w2 ++ 93 :: r2)) as [_ E2]; try assumption; [reflexivity|eapply value_stops_ws, H2|].
    symmetry in E2. eapply value_head; [exact H2|exact E2|reflexivity].
  - destruct (span_eq is_ws w w1 (93 :: r1) (u ++ w2 ++ [44] ++ r ++ 93 :: r2)) as [_ E2]; try assumption; [reflexivity|eapply value_stops_ws, H2|].
    symmetry in E2. eapply value_head; [exact H2|exact E2|reflexivity].
Qed.
Lemma empty_not_members w l t r1 r2 : ws w -> members l t -> w ++ 125 :: r1 = t ++ 125 :: r2 -> False.
Proof.
  intros Hw H E. destruct H; rewrite <- !app_assoc in E;
    match goal with HS : string_text ?kt _, E : _ = ?w1 ++ ?kt ++ ?rest |- _ =>
         destruct (span_eq is_ws w w1 (125 :: r1) (kt ++ rest)) as [_ E2]; try assumption;
         [reflexivity|eapply string_stops_ws, HS|destruct HS as (c & -> & _); discriminate]
       end.
Qed.

Lemma grammar_unique : (forall j t, value j t -> Pv j t) /\ (forall l t, elements l t -> Pe l t) /\ (forall l t, members l t -> Pm l t).
Proof.
  apply grammar_ind.
  - intros j2 t2 r1 r2 H2 E N1 N2.
    pose proof (same_kind _ _ _ _ _ _ (v_null reads) H2 E) as K. destruct j2 as [|[]| | | | |]; try discriminate.
    inversion H2; subst. apply app_inv_head in E. auto.
  - intros j2 t2 r1 r2 H2 E N1 N2.
    pose proof (same_kind _ _ _ _ _ _ (v_true reads) H2 E) as K. destruct j2 as [|[]| | | | |]; try discriminate.
    inversion H2; subst. apply app_inv_head in E. auto.
  - intros j2 t2 r1 r2 H2 E N1 N2.
    pose proof (same_kind _ _ _ _ _ _ (v_false reads) H2 E) as K. destruct j2 as [|[]| | | | |]; try discriminate.
    inversion H2; subst. apply app_inv_head in E. auto.
  - intros s z Hs j2 t2 r1 r2 H2 E N1 N2.
    pose proof (same_kind _ _ _ _ _ _ (v_int reads _ _ Hs) H2 E) as K. destruct j2 as [|[]| | | | |]; try discriminate; inversion H2; subst.
    + destruct (number_unique s t2 r1 r2) as [-> ->]; eauto using int_text_numchar.
      split; [f_equal; eapply int_text_fun; eassumption|auto].
    + destruct (number_unique s t2 r1 r2) as [-> ->]; eauto using int_text_numchar, float_text_numchar.
      exfalso. eapply int_not_float; eassumption.
  - intros s Hs j2 t2 r1 r2 H2 E N1 N2.
    pose proof (same_kind _ _ _ _ _ _ (v_float reads _ Hs) H2 E) as K. destruct j2 as [|[]| | | | |]; try discriminate; inversion H2; subst.
    + destruct (number_unique s t2 r1 r2) as [-> ->]; eauto using int_text_numchar, float_text_numchar.
      exfalso. eapply int_not_float; eassumption.
    + destruct (number_unique s t2 r1 r2) as [-> ->]; eauto using float_text_numchar.
  - intros t s Hs j2 t2 r1 r2 H2 E N1 N2.
    pose proof (same_kind _ _ _ _ _ _ (v_str reads _ _ Hs) H2 E) as K. destruct j2 as [|[]| | | | |]; try discriminate; inversion H2; subst.
    match goal with HS : string_text t2 _ |- _ => destruct (string_unique _ _ _ _ _ _ Hs HS E) as (-> & -> & ->) end. auto.
  - intros w Hw j2 t2 r1 r2 H2 E N1 N2.
    pose proof (same_kind _ _ _ _ _ _ (v_arr_empty reads _ Hw) H2 E) as K. destruct j2 as [|[]| | | | |]; try discriminate; inversion H2; subst;
      cbn [app] in E; injection E as E; rewrite <- !app_assoc in E; cbn [app] in E.
    + match goal with HW : ws ?w' |- _ => destruct (span_eq is_ws w w' (93 :: r1) (93 :: r2)) as [-> E2] end; try assumption; try reflexivity.
      injection E2 as ->. auto.
    + exfalso. eapply empty_not_elements; eassumption.
  - intros l t Ht IH j2 t2 r1 r2 H2 E N1 N2.
    pose proof (same_kind _ _ _ _ _ _ (v_arr reads _ _ Ht) H2 E) as K. destruct j2 as [|[]| | | | |]; try discriminate; inversion H2; subst;
      cbn [app] in E; injection E as E; rewrite <- !app_assoc in E; cbn [app] in E.
    + exfalso. symmetry in E. eapply empty_not_elements; eassumption.
    + match goal with HE : JsonTextSpec.elements _ _ ?t' |- _ => destruct (IH _ _ _ _ HE E) as (-> & -> & ->) end. auto.
  - intros w Hw j2 t2 r1 r2 H2 E N1 N2.
    pose proof (same_kind _ _ _ _ _ _ (v_obj_empty reads _ Hw) H2 E) as K. destruct j2 as [|[]| | | | |]; try discriminate; inversion H2; subst;
      cbn [app] in E; injection E as E; rewrite <- !app_assoc in E; cbn [app] in E.
    + match goal with HW : ws ?w' |- _ => destruct (span_eq is_ws w w' (125 :: r1) (125 :: r2)) as [-> E2] end; try assumption; try reflexivity.
      injection E2 as ->. auto.
    + exfalso. eapply empty_not_members; eassumption.
  - intros l t Ht IH j2 t2 r1 r2 H2 E N1 N2.
    pose proof (same_kind _ _ _ _ _ _ (v_obj reads _ _ Ht) H2 E) as K. destruct j2 as [|[]| | | | |]; try discriminate; inversion H2; subst;
      cbn [app] in E; injection E as E; rewrite <- !app_assoc in E; cbn [app] in E.
    + exfalso. symmetry in E. eapply empty_not_members; eassumption.
    + match goal with HE : JsonTextSpec.members _ _ ?t' |- _ => destruct (IH _ _ _ _ HE E) as (-> & -> & ->) end. auto.
  - intros j w1 t w2 Hw1 Hv IH Hw2 l2 t2 r1 r2 H2 E. rewrite <- !app_assoc in E.
    destruct H2 as [j' w1' u w2' Hw1' Hu Hw2'|j' w1' u w2' l r Hw1' Hu Hw2' Hr]; rewrite <- !app_assoc in E; cbn [app] in E;
      destruct (span_eq is_ws _ _ _ _ Hw1 Hw1' (value_stops_ws _ _ _ Hv) (value_stops_ws _ _ _ Hu) E) as [-> E1];
      destruct (IH _ _ _ _ Hu E1) as (-> & -> & E2); try (apply ws_ends; [assumption|reflexivity]);
      apply (span_eq is_ws) in E2; try assumption; try reflexivity; destruct E2 as [-> E3]; try discriminate.
    injection E3 as ->. auto.
  - intros j w1 t w2 l r Hw1 Hv IH Hw2 Hl IHl l2 t2 r1 r2 H2 E. rewrite <- !app_assoc in E. cbn [app] in E.
    destruct H2 as [j' w1' u w2' Hw1' Hu Hw2'|j' w1' u w2' l' r' Hw1' Hu Hw2' Hr]; rewrite <- !app_assoc in E; cbn [app] in E;
      destruct (span_eq is_ws _ _ _ _ Hw1 Hw1' (value_stops_ws _ _ _ Hv) (value_stops_ws _ _ _ Hu) E) as [-> E1];
      destruct (IH _ _ _ _ Hu E1) as (-> & -> & E2); try (apply ws_ends; [assumption|reflexivity]);
      apply (span_eq is_ws) in E2; try assumption; try reflexivity; destruct E2 as [-> E3]; try discriminate.
    injection E3 as E3. destruct (IHl _ _ _ _ Hr E3) as (-> & -> & ->). auto.
  - intros k kt j w1 w2 w3 t w4 Hw1 Hk Hw2 Hw3 Hv IH Hw4 l2 t2 r1 r2 H2 E. rewrite <- !app_assoc in E. cbn [app] in E.
    destruct H2 as [k' kt' j' w1' w2' w3' u w4' Hw1' Hk' Hw2' Hw3' Hu Hw4'|k' kt' j' w1' w2' w3' u w4' l' r' Hw1' Hk' Hw2' Hw3' Hu Hw4' Hr'];
      rewrite <- !app_assoc in E; cbn [app] in E;
      destruct (span_eq is_ws _ _ _ _ Hw1 Hw1' (string_stops_ws _ _ _ Hk) (string_stops_ws _ _ _ Hk') E) as [-> E1];
      destruct (string_unique _ _ _ _ _ _ Hk Hk' E1) as (-> & -> & E2);
      apply (span_eq is_ws) in E2; try assumption; try reflexivity; destruct E2 as [-> E3]; injection E3 as E3;
      destruct (span_eq is_ws _ _ _ _ Hw3 Hw3' (value_stops_ws _ _ _ Hv) (value_stops_ws _ _ _ Hu) E3) as [-> E4];
      destruct (IH _ _ _ _ Hu E4) as (-> & -> & E5); try (apply ws_ends; [assumption|reflexivity]);
      apply (span_eq is_ws) in E5; try assumption; try reflexivity; destruct E5 as [-> E6]; try discriminate.
    injection E6 as ->. auto.
  - intros k kt j w1 w2 w3 t w4 l r Hw1 Hk Hw2 Hw3 Hv IH Hw4 Hl IHl l2 t2 r1 r2 H2 E. rewrite <- !app_assoc in E. cbn [app] in E.
    destruct H2 as [k' kt' j' w1' w2' w3' u w4' Hw1' Hk' Hw2' Hw3' Hu Hw4'|k' kt' j' w1' w2' w3' u w4' l' r' Hw1' Hk' Hw2' Hw3' Hu Hw4' Hr'];
      rewrite <- !app_assoc in E; cbn [app] in E;
      destruct (span_eq is_ws _ _ _ _ Hw1 Hw1' (string_stops_ws _ _ _ Hk) (string_stops_ws _ _ _ Hk') E) as [-> E1];
      destruct (string_unique _ _ _ _ _ _ Hk Hk' E1) as (-> & -> & E2);
      apply (span_eq is_ws) in E2; try assumption; try reflexivity; destruct E2 as [-> E3]; injection E3 as E3;
      destruct (span_eq is_ws _ _ _ _ Hw3 Hw3' (value_stops_ws _ _ _ Hv) (value_stops_ws _ _ _ Hu) E3) as [-> E4];
      destruct (IH _ _ _ _ Hu E4) as (-> & -> & E5); try (apply ws_ends; [assumption|reflexivity]);
      apply (span_eq is_ws) in E5; try assumption; try reflexivity; destruct E5 as [-> E6]; try discriminate.
    injection E6 as E6. destruct (IHl _ _ _ _ Hr' E6) as (-> & -> & ->). auto.
Qed.

Lemma json_text_unique j1 j2 t : json_text reads j1 t -> json_text reads j2 t -> j1 = j2.
Proof.
  intros (w1 & v & w2 & -> & H1 & H2 & H3) (w1' & v' & w2' & E & H1' & H2' & H3').
  destruct (span_eq is_ws _ _ _ _ H1 H1' (value_stops_ws _ _ _ H2) (value_stops_ws _ _ _ H2') E) as [-> E1].
  destruct (proj1 grammar_unique _ _ H2 _ _ _ _ H2' E1) as (-> & _); [| |reflexivity].
  - rewrite <- (app_nil_r w2). apply ws_ends; [assumption|exact I].
  - rewrite <- (app_nil_r w2'). apply ws_ends; [assumption|exact I].
Qed.

(** Every JSON text is a Unicode string. *)
Lemma ascii_scalars s : Forall (fun c => c < 128) s -> scalars s.
Proof. apply Forall_impl. intros c H. apply scalar_spec. lia. Qed.
Lemma ws_scalars w : ws w -> scalars w.
Proof.
  intros H. apply ascii_scalars. revert H. apply Forall_impl. intros c. unfold is_ws. rewrite !orb_true_iff, !N.eqb_eq. lia.
Qed.
Lemma numchar_scalars s : Forall (fun c => numchar c = true) s -> scalars s.
Proof.
  intros H. apply ascii_scalars. revert H. apply Forall_impl. intros c. unfold numchar.
  rewrite !orb_true_iff, !N.eqb_eq, is_digit_spec. lia.
Qed.
Lemma hex4_ascii a b c d n : hex4 a b c d n -> scalar a = true /\ scalar b = true /\ scalar c = true /\ scalar d = true.
Proof. intros (w & x & y & z & H1 & H2 & H3 & H4 & _). unfold hex_digit in *. rewrite !scalar_spec. lia. Qed.
Lemma chars_scalars t s : chars t s -> scalars t.
Proof.
  induction 1; repeat match goal with H : hex4 _ _ _ _ _ |- _ => apply hex4_ascii in H as (? & ? & ? & ?) end;
    unfold scalars in *; repeat (constructor; [first [assumption|reflexivity]|]); try assumption; constructor.
Qed.
Lemma string_scalars t s : string_text t s -> scalars t.
Proof.
  intros (c & -> & H). constructor; [reflexivity|]. apply Forall_app. split; [exact (chars_scalars _ _ H)|repeat constructor].
Qed.
Lemma grammar_scalars : (forall j t, value j t -> scalars t) /\ (forall l t, elements l t -> scalars t) /\ (forall l t, members l t -> scalars t).
Proof.
  assert (H1 : forall c, c < 128 -> scalars [c]) by (intros; apply ascii_scalars; repeat constructor; assumption).
  apply grammar_ind; intros; unfold scalars in *; rewrite ?Forall_app; repeat split;
    try (apply H1; lia); try assumption; try (apply ws_scalars; assumption); try (eapply string_scalars; eassumption).
  - repeat constructor.
  - repeat constructor.
  - repeat constructor.
  - eapply numchar_scalars, int_text_numchar; eassumption.
  - eapply numchar_scalars, float_text_numchar; eassumption.
Qed.
End Unique.

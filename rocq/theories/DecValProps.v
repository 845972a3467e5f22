(** C83: decimal schemas. *)
From Coq Require Import List NArith ZArith QArith Bool Lia.
From Verif Require Import Base Decimal DecDigits VState DecVal DecValSpec DecValProofs.
Import ListNotations.
Open Scope Z_scope.

Section C83.
Variable read : str -> option dec.
Variable prec : Z.

(** C83: the JSON text of a Decimal that a schema accepts is accepted by it, in strict mode
    too, as the same Decimal; as a dict key and as text for validate_strings too. *)
Theorem C83_round_trip : forall s strict strict' d x, reads_dec read ->
  dec_validate read prec s strict (DDec d) = DOk d x ->
  dec_validate read prec s strict' (DJStr (dec_to_json d)) = DOk d Strict
  /\ dec_validate read prec s strict' (DJKey (dec_json_key d)) = DOk d Lax
  /\ dec_validate read prec s strict' (DText (dec_to_json d)) = DOk d Strict
  /\ (dec_to_python true d = OText (dec_to_json d) /\ dec_validate read prec s (Some false) (DStr (dec_to_json d)) = DOk d Lax).
Proof.
  intros s strict strict' d x R H. unfold dec_validate in *. cbn [get_decimal] in *. unfold create, dec_to_json, dec_json_key. rewrite R.
  destruct ((negb (ds_allow_inf_nan s) || has_digits s) && negb (is_finite d)); [discriminate H|].
  destruct (match d with Fin _ c e => if has_digits s then check_digits prec (ds_max_digits s) (ds_places s) (mk_decimal c e) else None | _ => None end); [discriminate H|].
  destruct (match ds_multiple_of s with Some m => multiple prec d m | None => Some true end) as [[|]|]; try discriminate H.
  assert (G : forall b ok k r1 r2, (forall d' x', r1 = DOk d' x' -> forall y, r2 y = DOk d y) -> forall d' x', bound b ok k d r1 = DOk d' x' -> forall y, bound b ok k d (r2 y) = DOk d y).
  { intros b ok k r1 r2 Hr d' x' Hb y. unfold bound in *. destruct b as [b|]; [|exact (Hr _ _ Hb y)]. destruct (is_nan d); [discriminate Hb|]. destruct (compare d b) as [c|]; [|discriminate Hb]. destruct (ok c); [exact (Hr _ _ Hb y)|discriminate Hb]. }
  assert (A : forall y, bound (ds_le s) (fun c => match c with Gt => false | _ => true end) KLe d
                (bound (ds_lt s) (fun c => match c with Lt => true | _ => false end) KLt d
                (bound (ds_ge s) (fun c => match c with Lt => false | _ => true end) KGe d
                (bound (ds_gt s) (fun c => match c with Gt => true | _ => false end) KGt d (DOk d y)))) = DOk d y).
  { revert H. intros H y. revert y. refine (G _ _ _ _ (fun y => _) _ d x H). intros d1 x1. refine (G _ _ _ _ (fun y => _) _ d1 x1). intros d2 x2. refine (G _ _ _ _ (fun y => _) _ d2 x2). intros d3 x3. refine (G _ _ _ _ (fun y => _) _ d3 x3). intros. reflexivity. }
  repeat split; apply A.
Qed.
(** C83: different Decimals have different texts (1.0 and 1.00 too). *)
Theorem C83_injective : forall d d', dec_text d = dec_text d' -> d = d'.
Proof. exact dec_text_inj. Qed.

(** C83: a Decimal that is not NaN is accepted iff it is finite (or allow_inf_nan is set)
    and within digit limits and bounds, which are exact; it is returned as it is; nothing is
    raised. *)
Theorem C83_accepts : forall s strict d, buildable s = true -> ds_multiple_of s = None -> bounds_not_nan s -> not_nan d ->
  (dec_validate read prec s strict (DDec d) = DOk d Exact <-> (is_finite d = true \/ ds_allow_inf_nan s = true) /\ digits_ok prec s d /\ in_bounds s d)
  /\ dec_validate read prec s strict (DDec d) <> DRaise.
Proof.
  intros s strict d B M (N1 & N2 & N3 & N4) Nd. unfold dec_validate. cbn [get_decimal]. rewrite M. unfold digits_ok, in_bounds.
  assert (Fi : (negb (ds_allow_inf_nan s) || has_digits s) && negb (is_finite d) = true <-> ~ (is_finite d = true \/ ds_allow_inf_nan s = true)).
  { unfold buildable in B. destruct (ds_allow_inf_nan s), (has_digits s), (is_finite d); cbn in *; try discriminate B; split; intros H; try discriminate H; try tauto; intuition discriminate. }
  destruct ((negb (ds_allow_inf_nan s) || has_digits s) && negb (is_finite d)).
  { split; [|discriminate]. split; [discriminate|]. intros [H _]. exfalso. apply Fi; [reflexivity|exact H]. }
  assert (F' : is_finite d = true \/ ds_allow_inf_nan s = true) by (destruct (is_finite d), (ds_allow_inf_nan s); try tauto; exfalso; assert (C : ~ (false = true \/ false = true)) by (intuition discriminate); apply Fi in C; discriminate C). clear Fi.
  assert (Dg : match d with Fin _ c e => if has_digits s then check_digits prec (ds_max_digits s) (ds_places s) (mk_decimal c e) else None | _ => None end = None
             <-> match d with Fin _ c e => has_digits s = true -> check_digits prec (ds_max_digits s) (ds_places s) (mk_decimal c e) = None | _ => True end).
  { destruct d as [n c e|n|sg n p]; try tauto. destruct (has_digits s); [tauto|]. split; [discriminate|reflexivity]. }
  destruct (match d with Fin _ c e => if has_digits s then check_digits prec (ds_max_digits s) (ds_places s) (mk_decimal c e) else None | _ => None end) as [e|].
  { split; [|discriminate]. split; [discriminate|]. intros (_ & H & _). exfalso. apply Dg in H. discriminate H. }
  assert (Dok := proj1 Dg eq_refl). clear Dg.
  assert (G : forall b ok k (R : dec -> Prop) next (Q : Prop), bound_ok b not_nan ->
    (forall b c, not_nan b -> compare d b = Some c -> ok c = true <-> R b) ->
    ((next = DOk d Exact <-> Q) /\ next <> DRaise) -> (bound b ok k d next = DOk d Exact <-> bound_ok b R /\ Q) /\ bound b ok k d next <> DRaise).
  { intros b ok k R next Q Nb Hok [Hn1 Hn2]. destruct b as [b|]; cbn [bound bound_ok] in *; [|tauto]. assert (Nan : is_nan d = false) by (destruct d; [reflexivity|reflexivity|contradiction Nd]). rewrite Nan.
    assert (C := compare_spec d b Nd Nb). destruct (compare d b) as [c|] eqn:Cb; [|contradiction]. specialize (Hok b c Nb Cb). destruct (ok c); [tauto|]. split; [|discriminate]. split; [discriminate|]. intros [H _]. apply Hok in H. discriminate H. }
  assert (Gle : forall b c, not_nan b -> compare d b = Some c -> match c with Gt => false | _ => true end = true <-> dec_le d b).
  { intros b c Nb Cb. assert (C := compare_spec d b Nd Nb). rewrite Cb in C. destruct c; intuition discriminate. }
  assert (Glt : forall b c, not_nan b -> compare d b = Some c -> match c with Lt => true | _ => false end = true <-> dec_le d b /\ ~ dec_le b d).
  { intros b c Nb Cb. assert (C := compare_spec d b Nd Nb). rewrite Cb in C. destruct c; intuition discriminate. }
  assert (Gge : forall b c, not_nan b -> compare d b = Some c -> match c with Lt => false | _ => true end = true <-> dec_le b d).
  { intros b c Nb Cb. assert (C := compare_spec d b Nd Nb). rewrite Cb in C. destruct c; intuition discriminate. }
  assert (Ggt : forall b c, not_nan b -> compare d b = Some c -> match c with Gt => true | _ => false end = true <-> dec_le b d /\ ~ dec_le d b).
  { intros b c Nb Cb. assert (C := compare_spec d b Nd Nb). rewrite Cb in C. destruct c; intuition discriminate. }
  assert (Base : (DOk d Exact = DOk d Exact <-> True) /\ DOk d Exact <> DRaise) by (split; [tauto|discriminate]).
  assert (R := G _ _ KLe _ _ _ N1 Gle (G _ _ KLt _ _ _ N2 Glt (G _ _ KGe _ _ _ N3 Gge (G _ _ KGt _ _ _ N4 Ggt Base)))).
  destruct R as [R1 R2]. split; [|exact R2]. rewrite R1. tauto.
Qed.

(** C83: unless allow_inf_nan is set, what a schema returns is finite, from any input. *)
Theorem C83_finite : forall s strict i d x, ds_allow_inf_nan s = false -> dec_validate read prec s strict i = DOk d x -> is_finite d = true.
Proof.
  intros s strict i d x A H. unfold dec_validate in H. destruct (get_decimal read _ i) as [d0 x0|k|]; try discriminate H. rewrite A in H. cbn [negb orb andb] in H.
  assert (K : d = d0 /\ is_finite d0 = true); [|destruct K as [-> K]; exact K].
  destruct (is_finite d0); [|discriminate H]. split; [|reflexivity]. cbn [negb] in H.
  destruct (match d0 with Fin _ c e => if has_digits s then check_digits prec (ds_max_digits s) (ds_places s) (mk_decimal c e) else None | _ => None end); [discriminate H|].
  destruct (match ds_multiple_of s with Some m => multiple prec d0 m | None => Some true end) as [[|]|]; try discriminate H.
  assert (G : forall b ok k r, bound b ok k d0 r = DOk d x -> r = DOk d x).
  { intros b ok k r Hb. unfold bound in Hb. destruct b as [b|]; [|exact Hb]. destruct (is_nan d0); [discriminate Hb|]. destruct (compare d0 b) as [c|]; [|discriminate Hb]. destruct (ok c); [exact Hb|discriminate Hb]. }
  apply G in H. apply G in H. apply G in H. apply G in H. injection H as -> _. reflexivity.
Qed.
(** C83: a NaN is accepted iff allow_inf_nan is set and nothing else is asked. *)
Theorem C83_nan : forall s strict neg p, ds_multiple_of s = None -> buildable s = true ->
  (dec_validate read prec s strict (DDec (NaN false neg p)) = DOk (NaN false neg p) Exact
   <-> ds_allow_inf_nan s = true /\ ds_le s = None /\ ds_lt s = None /\ ds_ge s = None /\ ds_gt s = None).
Proof.
  intros s strict neg p M B. unfold dec_validate, buildable in *. cbn [get_decimal is_finite]. rewrite M. unfold bound. cbn [is_nan].
  destruct (ds_allow_inf_nan s), (has_digits s); cbn in *; try discriminate B; destruct (ds_le s), (ds_lt s), (ds_ge s), (ds_gt s); split; intros H; try discriminate H; repeat split; try reflexivity; decompose [and] H; congruence.
Qed.

(** C83: multiple_of m holds iff the number is an integer multiple of m, if the quotient has
    no more digits than the precision of the decimal context; if it is that large that its
    integer part has more, the call raises. *)
Theorem C83_multiple : forall n c e n' c' e', 1 <= prec -> c' <> 0%N -> quotient_in prec c e c' e' ->
  let large := (inject_Z (10 ^ prec) * dec_q false c' e' <= dec_q false c e)%Q in
  let s := {| ds_strict := false; ds_allow_inf_nan := false; ds_multiple_of := Some (Fin n' c' e'); ds_le := None; ds_lt := None; ds_ge := None; ds_gt := None; ds_max_digits := None; ds_places := None |} in
  match dec_validate read prec s None (DDec (Fin n c e)) with
  | DOk d _ => d = Fin n c e /\ is_multiple c e c' e' /\ ~ large
  | DErr k => k = KMultiple /\ ~ is_multiple c e c' e'
  | DRaise => large
  end.
Proof.
  intros n c e n' c' e' Hp Hc H. cbv zeta. unfold dec_validate. cbn [get_decimal ds_strict ds_allow_inf_nan ds_multiple_of ds_le ds_lt ds_ge ds_gt ds_max_digits ds_places has_digits negb orb andb is_finite bound].
  assert (M := multiple_spec prec n c e n' c' e' Hp Hc H). destruct (multiple prec (Fin n c e) (Fin n' c' e')) as [[|]|].
  - destruct M as [M1 M2]. split; [reflexivity|]. split; [exact M1|]. apply Qlt_not_le, M2.
  - split; [reflexivity|exact M].
  - exact M.
Qed.
(** C83: multiple_of and numbers that are none, or are infinite: a quiet NaN is no multiple
    of anything, everything finite is a multiple of an infinity, and the call raises for
    signaling NaNs, infinities and multiples of zero. *)
Definition only_multiple (m : dec) : dec_schema :=
  {| ds_strict := false; ds_allow_inf_nan := true; ds_multiple_of := Some m; ds_le := None; ds_lt := None; ds_ge := None; ds_gt := None; ds_max_digits := None; ds_places := None |}.
Theorem C83_multiple_special : forall d m,
  (not_nan m -> (exists n p, d = NaN false n p) -> dec_validate read prec (only_multiple m) None (DDec d) = DErr KMultiple) /\
  (not_nan d -> (exists n p, m = NaN false n p) -> dec_validate read prec (only_multiple m) None (DDec d) = DErr KMultiple) /\
  (is_finite d = true -> (exists n, m = Inf n) -> dec_validate read prec (only_multiple m) None (DDec d) = DOk d Exact) /\
  ((exists n p, d = NaN true n p) \/ (exists n p, m = NaN true n p) \/ not_nan m /\ (exists n, d = Inf n) \/ is_finite d = true /\ (exists n e, m = Fin n 0 e) ->
     dec_validate read prec (only_multiple m) None (DDec d) = DRaise).
Proof.
  intros d m. repeat split.
  - intros M (n & p & ->). destruct m as [n' c' e'|n'|[|] n' p']; try contradiction M; reflexivity.
  - intros M (n & p & ->). destruct d as [n' c' e'|n'|[|] n' p']; try contradiction M; reflexivity.
  - intros F (n & ->). destruct d; try discriminate F. reflexivity.
  - intros [(n & p & ->)|[(n & p & ->)|[(M & n & ->)|(F & n & e & ->)]]].
    + reflexivity.
    + destruct d as [n' c' e'|n'|[|] n' p']; reflexivity.
    + destruct m as [n' c' e'|n'|[|] n' p']; try contradiction M; reflexivity.
    + destruct d; try discriminate F. reflexivity.
Qed.
(** C83: lax mode reads ints exactly. *)
Theorem C83_int : forall s z d x, dec_validate read prec s (Some false) (DInt z) = DOk d x \/ dec_validate read prec s None (DJInt z) = DOk d x ->
  exists n c, d = Fin n c 0 /\ (dec_q n c 0 == inject_Z z)%Q.
Proof.
  assert (Gg : forall s d0 x0 d x, match DOk d0 x0 with DOk d1 x1 => True | _ => True end ->
    (if (negb (ds_allow_inf_nan s) || has_digits s) && negb (is_finite d0) then DErr KFinite else
      match (match d0 with Fin _ c e => if has_digits s then check_digits prec (ds_max_digits s) (ds_places s) (mk_decimal c e) else None | _ => None end) with
      | Some e => DErr (KDigits e)
      | None => match (match ds_multiple_of s with Some m => multiple prec d0 m | None => Some true end) with None => DRaise | Some false => DErr KMultiple
        | Some true => bound (ds_le s) (fun c => match c with Gt => false | _ => true end) KLe d0
                (bound (ds_lt s) (fun c => match c with Lt => true | _ => false end) KLt d0
                (bound (ds_ge s) (fun c => match c with Lt => false | _ => true end) KGe d0
                (bound (ds_gt s) (fun c => match c with Gt => true | _ => false end) KGt d0 (DOk d0 x0)))) end end) = DOk d x -> d = d0).
  { intros s d0 x0 d x _ H. destruct (_ && _) in H; [discriminate H|]. destruct (match d0 with Fin _ c e => if has_digits s then check_digits prec (ds_max_digits s) (ds_places s) (mk_decimal c e) else None | _ => None end); [discriminate H|].
    destruct (match ds_multiple_of s with Some m => multiple prec d0 m | None => Some true end) as [[|]|]; try discriminate H.
    assert (G : forall b ok k r, bound b ok k d0 r = DOk d x -> r = DOk d x).
    { intros b ok k r Hb. unfold bound in Hb. destruct b as [b|]; [|exact Hb]. destruct (is_nan d0); [discriminate Hb|]. destruct (compare d0 b) as [c|]; [|discriminate Hb]. destruct (ok c); [exact Hb|discriminate Hb]. }
    apply G in H. apply G in H. apply G in H. apply G in H. injection H as -> _. reflexivity. }
  assert (V : forall z, (dec_q (z <? 0) (Z.abs_N z) 0 == inject_Z z)%Q).
  { intros z. unfold dec_q. change (pow10 0) with 1%Q. rewrite Qmult_1_r. destruct (Z.ltb_spec z 0); rewrite N2Z.inj_abs_N; [rewrite Z.abs_neq by lia; rewrite Z.opp_involutive|rewrite Z.abs_eq by lia]; reflexivity. }
  intros s z d x [H|H]; unfold dec_validate in H; cbn [get_decimal] in H; apply (Gg s (of_int z)) in H; try exact I; subst d; exists (z <? 0), (Z.abs_N z); (split; [reflexivity|apply V]).
Qed.
End C83.
Print Assumptions C83_round_trip.
Print Assumptions C83_injective.
Print Assumptions C83_accepts.
Print Assumptions C83_finite.
Print Assumptions C83_nan.
Print Assumptions C83_multiple.
Print Assumptions C83_multiple_special.
Print Assumptions C83_int.

(** *** Examples *)
(** A reader as C83_round_trip supposes it. *)
Lemma C83_reader : reads_dec dec_read.
Proof. exact dec_read_text. Qed.
Definition c83_schema (m le : option dec) (inf : bool) : dec_schema :=
  {| ds_strict := false; ds_allow_inf_nan := inf; ds_multiple_of := m; ds_le := le; ds_lt := None; ds_ge := None; ds_gt := None; ds_max_digits := None; ds_places := None |}.
Definition c83_one : dec := Fin false 1 0.
Example C83_ex_texts : map dec_text [Fin true 1230 (-2); Fin false 5 (-7); Fin false 12 3; Fin false 0 0; Inf true; NaN true false 12]
  = [lit "-12.30"; lit "5E-7"; lit "1.2E+4"; lit "0"; lit "-Infinity"; lit "sNaN12"].
Proof. reflexivity. Qed.
Example C83_ex_accepts : dec_validate dec_read 28 (c83_schema None (Some (Fin false 125 (-1))) false) None (DDec (Fin false 1250 (-2))) = DOk (Fin false 1250 (-2)) Exact
  /\ dec_validate dec_read 28 (c83_schema None (Some (Fin false 125 (-1))) false) None (DDec (Fin false 1251 (-2))) = DErr KLe
  /\ dec_validate dec_read 28 (c83_schema None (Some (Fin false 125 (-1))) false) (Some true) (DJStr (lit "12.50")) = DOk (Fin false 1250 (-2)) Strict.
Proof. repeat split; vm_compute; reflexivity. Qed.
Example C83_ex_multiple : quotient_in 28 75 (-2) 25 (-2) /\
  dec_validate dec_read 28 (c83_schema (Some (Fin false 25 (-2))) None false) None (DDec (Fin true 75 (-2))) = DOk (Fin true 75 (-2)) Exact
  /\ dec_validate dec_read 28 (c83_schema (Some (Fin false 25 (-2))) None false) None (DDec (Fin true 80 (-2))) = DErr KMultiple.
Proof. split; [exists 3, 0; split; [split; [lia|reflexivity]|reflexivity]|split; vm_compute; reflexivity]. Qed.
Example C83_ex_multiple_special : dec_validate dec_read 28 (only_multiple c83_one) None (DDec (NaN false false 0)) = DErr KMultiple
  /\ dec_validate dec_read 28 (only_multiple (Inf true)) None (DDec (Fin false 3 (-1))) = DOk (Fin false 3 (-1)) Exact
  /\ dec_validate dec_read 28 (only_multiple (Fin true 0 2)) None (DDec c83_one) = DRaise.
Proof. repeat split; vm_compute; reflexivity. Qed.
Example C83_ex_nan : dec_validate dec_read 28 (c83_schema None None true) None (DStr (lit "NaN")) = DOk (NaN false false 0) Lax.
Proof. vm_compute. reflexivity. Qed.

(** One would expect a number to be accepted or refused with a validation error.  With
    multiple_of a large number, an infinity (where allowed), and with a bound that is NaN
    any number, raises decimal.InvalidOperation. *)
Theorem C83_large_refuted : exists d, is_multiple 1 30 1 0 /\ d = Fin false 1 30 /\ dec_validate dec_read 28 (c83_schema (Some c83_one) None false) None (DDec d) = DRaise.
Proof. exists (Fin false 1 30). split; [exists (10 ^ 30); reflexivity|]. split; [reflexivity|vm_compute; reflexivity]. Qed.
Theorem C83_infinity_refuted : dec_validate dec_read 28 (c83_schema (Some c83_one) None true) None (DDec (Inf false)) = DRaise.
Proof. vm_compute. reflexivity. Qed.
Theorem C83_nan_bound_refuted : dec_validate dec_read 28 (c83_schema None (Some (NaN false false 0)) false) None (DDec c83_one) = DRaise.
Proof. vm_compute. reflexivity. Qed.
(** One would expect multiple_of to refuse what is no multiple.  Beyond the precision of
    the context the quotient is rounded and a number that is no multiple of 10 passes. *)
Theorem C83_rounded_refuted : exists c, ~ is_multiple c 0 10 0 /\ dec_validate dec_read 28 (c83_schema (Some (Fin false 10 0)) None false) None (DDec (Fin false c 0)) = DOk (Fin false c 0) Exact.
Proof.
  exists 10000000000000000000000000001%N. split; [|vm_compute; reflexivity]. intros [k H]. unfold dec_q, pow10 in H. unfold Qeq in H. cbn in H. lia.
Qed.
Print Assumptions C83_large_refuted.
Print Assumptions C83_infinity_refuted.
Print Assumptions C83_nan_bound_refuted.
Print Assumptions C83_rounded_refuted.

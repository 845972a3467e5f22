(** C75: complex schemas. *)
From Coq Require Import List NArith ZArith Bool Lia.
From Coq Require Import Floats.SpecFloat.
From Verif Require Import Base Float64 Values VState Child Inputs Complex ComplexSpec.
Import ListNotations.
Open Scope N_scope.

Section C75.
Variable py_complex : str -> option cplx.
Notation complex_validate := (complex_validate py_complex).

(** C75: a complex number is returned itself. *)
Theorem C75_object : forall st strict c, complex_validate st strict (CObject c) = CSame Strict.
Proof. reflexivity. Qed.

(** C75: everything else is accepted exactly as the number its text is, or as a real number. *)
Theorem C75_accepted : forall st strict i c x, complex_validate st strict (COther i) = CNew c x <->
  ((exists t, text_of strict (COther i) = Some t /\ py_complex t = Some c /\ x = if is_python (COther i) then Lax else Strict)
   \/ (exists f, real_of strict (COther i) = Some f /\ c = mk_c f f_zero /\ x = Lax)).
Proof.
  intros st strict i c x. unfold Complex.complex_validate. split.
  - intros H. destruct i as [v|j|t|v]; cbn [validate_complex] in H; cbn [text_of real_of is_python].
    + destruct strict; [discriminate|]. destruct (strip v) as [|b|z|f|t|b|l|l|l|l|l|cls a|cls w] eqn:Ev;
        try (left; exists t; destruct (py_complex t) as [c'|]; [injection H as <- <-; auto|discriminate]);
        (right; destruct v as [|b'|z'|f'|t'|b'|l'|l'|l'|l'|l'|cls' a'|cls' w']; try discriminate H;
         [destruct (fits_i64 z') eqn:Ez; [|discriminate H]; injection H as <- <-; eexists; split; [cbn; rewrite ?Ez; reflexivity|]; auto
         |injection H as <- <-; eexists; split; [reflexivity|]; auto]).
    + destruct j as [|b|z|f|t|l|l]; try discriminate H.
      * destruct (fits_i64 z) eqn:Ez; [|discriminate]. destruct strict; [discriminate|]. injection H as <- <-. right. eexists. split; [cbn; rewrite ?Ez; reflexivity|]. auto.
      * destruct strict; [discriminate|]. injection H as <- <-. right. eexists. split; [reflexivity|]. auto.
      * unfold string_to_complex in H. destruct (py_complex t) as [c'|] eqn:E; [|discriminate]. injection H as <- <-. left. exists t. auto.
    + unfold string_to_complex in H. destruct (py_complex t) as [c'|] eqn:E; [|discriminate]. injection H as <- <-. left. exists t. auto.
    + destruct (as_str v) as [t|]; [|discriminate]. unfold string_to_complex in H. destruct (py_complex t) as [c'|] eqn:E; [|discriminate].
      injection H as <- <-. left. exists t. auto.
  - intros [(t & Ht & Hc & ->)|(f & Hf & -> & ->)].
    + destruct i as [v|j|t'|v]; cbn [text_of is_python] in *; cbn [validate_complex].
      * destruct strict; [discriminate|]. destruct (strip v); try discriminate Ht. injection Ht as ->. rewrite Hc. reflexivity.
      * destruct j; try discriminate Ht. injection Ht as ->. unfold string_to_complex. rewrite Hc. reflexivity.
      * injection Ht as ->. unfold string_to_complex. rewrite Hc. reflexivity.
      * rewrite Ht. unfold string_to_complex. rewrite Hc. reflexivity.
    + unfold real_of in Hf. destruct strict; [discriminate|]. destruct i as [v|j|t'|v]; try discriminate Hf; cbn [validate_complex].
      * destruct v; try discriminate Hf; cbn [strip]; [destruct (fits_i64 z); [|discriminate]|]; injection Hf as <-; reflexivity.
      * destruct j; try discriminate Hf; [destruct (fits_i64 z); [|discriminate]|]; injection Hf as <-; reflexivity.
Qed.

(** C75: all else is a validation error, except that Python integers outside 64 bits panic (a finding). *)
Theorem C75_refused : forall st strict i, (forall c x, complex_validate st strict (COther i) <> CNew c x) ->
  (~ (huge_int (COther i) /\ strict = false) -> exists e, complex_validate st strict (COther i) = CErr e)
  /\ (huge_int (COther i) -> strict = false -> complex_validate st strict (COther i) = CPanic).
Proof.
  intros st strict i H. split.
  - intros N. unfold Complex.complex_validate in *. destruct (validate_complex py_complex strict (COther i)) as [x|c x|e|] eqn:E.
    + exfalso. destruct i as [v|j|t|v]; cbn [validate_complex] in E.
      * destruct strict; [discriminate|]. destruct (strip v); try (destruct (py_complex s); discriminate E); destruct v; try discriminate E; match type of E with context[fits_i64 ?q] => destruct (fits_i64 q); discriminate E end.
      * destruct j; try discriminate E; unfold string_to_complex in E; try (destruct (py_complex s); discriminate E);
          try (destruct (fits_i64 z)); try discriminate E; destruct strict; discriminate E.
      * unfold string_to_complex in E. destruct (py_complex t); discriminate E.
      * destruct (as_str v); [|discriminate]. unfold string_to_complex in E. destruct (py_complex s); discriminate E.
    + contradiction (H c x). reflexivity.
    + eauto.
    + exfalso. apply N. destruct i as [v|j|t|v]; cbn [validate_complex] in E.
      * destruct strict; [discriminate|]. split; [|reflexivity].
        destruct (strip v); try (destruct (py_complex s); discriminate E); destruct v; try discriminate E; match type of E with context[fits_i64 ?q] => destruct (fits_i64 q) eqn:Ez; [discriminate E|exists q; split; [reflexivity|exact Ez]] end.
      * destruct j; try discriminate E; unfold string_to_complex in E; try (destruct (py_complex s); discriminate E);
          try (destruct (fits_i64 z)); try discriminate E; destruct strict; discriminate E.
      * unfold string_to_complex in E. destruct (py_complex t); discriminate E.
      * destruct (as_str v); [|discriminate]. unfold string_to_complex in E. destruct (py_complex s); discriminate E.
  - intros (z & E & Ez) ->. injection E as ->. unfold Complex.complex_validate. cbn [validate_complex strip]. rewrite Ez. reflexivity.
Qed.
End C75.

Lemma nonzero_test : forall f, f_eqb f f_zero = true <-> is_zero f.
Proof. intros [s|s| |s m e]; unfold f_eqb, f_cmp; cbn; try destruct s; split; intros H; try exact I; try reflexivity; try discriminate; contradiction. Qed.
Lemma ge_test : forall f, f_ge f f_zero = true <-> (is_zero f \/ (f <> S754_nan /\ ~ negative f)).
Proof.
  intros [s|s| |s m e]; unfold f_ge, f_cmp; cbn; try destruct s; split; intros H; try reflexivity; try discriminate H;
    try (left; exact I); try (right; split; discriminate); destruct H as [[]|[A B]]; try (contradiction B; reflexivity); contradiction A; reflexivity.
Qed.

(** C75: the JSON text of a complex number is accepted again, as that number, unless its real part is not zero and
    its imaginary part is negative zero or NaN. *)
Theorem C75_round_trip : forall show strtod c st strict,
  printed show strtod (c_re c) -> printed show strtod (c_im c) ->
  (is_zero (c_re c) \/ (c_im c <> S754_nan /\ c_im c <> S754_zero true)) ->
  exists c', complex_validate (py_complex_text strtod) st strict (COther (IJson (JStr (complex_to_str show c)))) = CNew c' Strict
    /\ c_im c' = c_im c /\ alike (c_re c) (c_re c').
Proof.
  intros show strtod [re im] st strict Pr Pi H. cbn [c_re c_im] in *.
  unfold complex_validate. cbn [validate_complex]. unfold string_to_complex, complex_to_str. cbn [c_re c_im].
  destruct (f_eqb re f_zero) eqn:Ez; cbn [negb].
  - apply nonzero_test in Ez. exists (mk_c f_zero im). unfold py_complex_text. rewrite (pr_plain _ _ _ Pi [106]) by (right; right; left; reflexivity).
    cbn. split; [reflexivity|]. split; [reflexivity|]. right. split; [exact Ez|exact I].
  - destruct H as [H|[Hn Hz]]; [apply nonzero_test in H; congruence|].
    exists (mk_c re im). split; [|split; [reflexivity|left; reflexivity]].
    unfold py_complex_text. destruct (f_ge im f_zero) eqn:Eg.
    + assert (Nn : ~ negative im).
      { apply ge_test in Eg. destruct Eg as [Eg|[_ Eg]]; [|exact Eg]. destruct im as [[]| | |]; try contradiction; intros N; discriminate N. }
      change (show re ++ [43] ++ show im ++ [106]) with (show re ++ (43 :: show im ++ [106])).
      rewrite (pr_plain _ _ _ Pr) by (left; reflexivity). cbn [N.eqb Pos.eqb orb].
      rewrite (pr_plus _ _ _ Pi [106]) by (try exact Nn; right; right; left; reflexivity). reflexivity.
    + assert (Ng : negative im).
      { destruct im as [s|s| |s m e]; try (contradiction Hn; reflexivity); destruct s; try reflexivity; unfold f_ge, f_cmp in Eg; cbn in Eg; discriminate. }
      destruct (pr_minus _ _ _ Pi Ng) as (s & Es). cbn [app].
      rewrite (pr_plain _ _ _ Pr (show im ++ [106])) by (rewrite Es; right; left; reflexivity).
      rewrite Es at 1. cbn [app]. cbn [N.eqb Pos.eqb orb].
      rewrite (pr_plain _ _ _ Pi [106]) by (right; right; left; reflexivity). reflexivity.
Qed.
Print Assumptions C75_object.
Print Assumptions C75_accepted.
Print Assumptions C75_refused.
Print Assumptions C75_round_trip.

(** Finding: negative zero, as in [(1+0j).conjugate()], and NaN are written so that they cannot be read. *)
Theorem C75_negative_zero_refuted : forall show strtod re st strict,
  printed show strtod re -> ~ is_zero re -> show (S754_zero true) = lit "-0" -> (forall r, strtod (lit "+-" ++ r) = None) ->
  complex_validate (py_complex_text strtod) st strict (COther (IJson (JStr (complex_to_str show (mk_c re (S754_zero true)))))) = CErr CStrParsing.
Proof.
  intros show strtod re st strict Pr Nz Es Hs. unfold complex_validate. cbn [validate_complex]. unfold string_to_complex, complex_to_str. cbn [c_re c_im].
  destruct (f_eqb re f_zero) eqn:Ez; [apply nonzero_test in Ez; contradiction|]. cbn [negb]. rewrite Es.
  change (f_ge (S754_zero true) f_zero) with true. cbn iota. unfold py_complex_text.
  rewrite (pr_plain _ _ _ Pr) by (left; reflexivity). change ([43] ++ lit "-0" ++ [106]) with (lit "+-" ++ lit "0j"). rewrite (Hs (lit "0j")). reflexivity.
Qed.
Theorem C75_nan_refuted : forall show strtod re st strict,
  printed show strtod re -> ~ is_zero re -> show S754_nan = lit "NaN" ->
  complex_validate (py_complex_text strtod) st strict (COther (IJson (JStr (complex_to_str show (mk_c re S754_nan))))) = CErr CStrParsing.
Proof.
  intros show strtod re st strict Pr Nz Es. unfold complex_validate. cbn [validate_complex]. unfold string_to_complex, complex_to_str. cbn [c_re c_im].
  destruct (f_eqb re f_zero) eqn:Ez; [apply nonzero_test in Ez; contradiction|]. cbn [negb]. rewrite Es.
  change (f_ge S754_nan f_zero) with false. cbn iota. unfold py_complex_text.
  change ([] ++ lit "NaN" ++ [106]) with (lit "NaNj"). rewrite (pr_plain _ _ _ Pr) by (right; right; right; left; reflexivity). reflexivity.
Qed.

(** Finding: the strictness asked for in the call is ignored. *)
Theorem C75_strict_refuted : exists py_complex c, complex_validate py_complex (Some true) false (COther (IPy (PStr (lit "1j")))) = CNew c Lax.
Proof. exists (fun _ => Some (mk_c f_zero (f_of_Z 1))), (mk_c f_zero (f_of_Z 1)). reflexivity. Qed.
(** Finding: an integer outside 64 bits panics. *)
Theorem C75_int_refuted : forall py_complex st, complex_validate py_complex st false (COther (IPy (PInt (2 ^ 63)))) = CPanic.
Proof. reflexivity. Qed.
Print Assumptions C75_negative_zero_refuted.
Print Assumptions C75_nan_refuted.
Print Assumptions C75_strict_refuted.
Print Assumptions C75_int_refuted.

(** Texts of some numbers, and their reading. *)
Definition show0 (f : f64) : str :=
  match f with
  | S754_zero false => lit "0" | S754_zero true => lit "-0" | S754_nan => lit "NaN"
  | S754_finite false _ _ => lit "1" | S754_finite true _ _ => lit "-1"
  | S754_infinity false => lit "inf" | S754_infinity true => lit "-inf"
  end.
Fixpoint cut (p s : str) : option str :=
  match p, s with
  | [], _ => Some s
  | a :: p, b :: s => if a =? b then cut p s else None
  | _, [] => None
  end.
Definition strtod0 (s : str) : option (f64 * str) :=
  match cut (lit "-1") s with Some r => Some (f_of_Z (-1), r) | None =>
  match cut (lit "1") s with Some r => Some (f_of_Z 1, r) | None =>
  match cut (lit "+1") s with Some r => Some (f_of_Z 1, r) | None => None end end end.
Lemma printed_one : printed show0 strtod0 (f_of_Z 1).
Proof. split; try reflexivity. intros N. vm_compute in N. discriminate N. Qed.
Lemma printed_minus : printed show0 strtod0 (f_of_Z (-1)).
Proof. split; try reflexivity; [intros r _ N; contradiction N; reflexivity|]. intros _. exists (lit "1"). reflexivity. Qed.
Example C75_nonvacuous :
  printed show0 strtod0 (f_of_Z 1) /\ printed show0 strtod0 (f_of_Z (-1))
  /\ complex_to_str show0 (mk_c (f_of_Z (-1)) (f_of_Z 1)) = lit "-1+1j"
  /\ complex_validate (py_complex_text strtod0) None true (COther (IJson (JStr (lit "-1+1j")))) = CNew (mk_c (f_of_Z (-1)) (f_of_Z 1)) Strict
  /\ complex_validate (py_complex_text strtod0) None false (COther (IPy (PInt 1))) = CNew (mk_c (f_of_Z 1) f_zero) Lax
  /\ complex_validate (py_complex_text strtod0) None false (COther (IPy (PBool true))) = CErr CType
  /\ (forall r, strtod0 (lit "+-" ++ r) = None).
Proof. split; [exact printed_one|]. split; [exact printed_minus|]. repeat split. Qed.

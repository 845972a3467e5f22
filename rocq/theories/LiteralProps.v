(** C36: literals. *)
From Coq Require Import List NArith ZArith Bool Lia.
From Verif Require Import Base Float64 IntParse Numbers BytesCodec Decimal Utf8 Values VState LookupKey Collections Child Inputs Scalars Literal LiteralSpec LiteralProofs ModelFieldsProps.
Import ListNotations.
Open Scope nat_scope.

Section Props.
Variable py_str : pyval -> str.
Variable f64_to_string : f64 -> str.
Variable max_digits : N.
Notation literal := (literal_validate py_str f64_to_string max_digits).

(** A Python object or a JSON document. *)
Definition document (i : input) : Prop := match i with IPy _ | IJson _ => True | _ => False end.

Lemma document_lookup : forall i lk, document i ->
  lk_validate py_str f64_to_string max_digits lk i = lk_validate py_str f64_to_string max_digits lk (IPy (input_object i)).
Proof. intros [v|j|t|v] lk D; try destruct D; [reflexivity|apply lookup_json]. Qed.

(** The outcome of a literal schema: the state is untouched; a value returned is one
    of the expected values and equals the input; otherwise no expected value equals
    the input and there is one literal error about it. *)
Theorem C36_literal : forall expected i s r s',
  Forall pep586 expected -> document i -> hashable (input_object i) = true -> ~ overlooked expected (input_object i) ->
  literal expected i s = (r, s') ->
  s' = s /\
  match r with
  | VOk e => In e expected /\ py_eq e (input_object i) = true
  | VErr err => err = LineErrors [new_error ELiteralError i] /\ forall e, In e expected -> py_eq e (input_object i) = false
  end.
Proof.
  intros l i s r s' HP D HV N H. unfold literal_validate in H. rewrite (document_lookup i _ D) in H.
  destruct (lookup_no_error py_str f64_to_string max_digits l _ N) as [[id|] Ho]; rewrite Ho in H.
  - destruct (lookup_sound _ _ _ _ _ _ Ho) as (k & e & Hk & He & E & C). rewrite He in H. injection H as <- <-.
    split; [reflexivity|]. split; [eapply nth_error_In; exact He|]. destruct C as [->|C]; [exact E|].
    rewrite Forall_forall in HP. rewrite <- (pep_eq k e); auto. apply HP. eapply nth_error_In; exact He.
  - injection H as <- <-. split; [reflexivity|]. split; [reflexivity|]. intros e He.
    destruct (py_eq e (input_object i)) eqn:E; [|reflexivity].
    destruct (lookup_complete py_str f64_to_string max_digits l _ e HP HV N He E) as [id Hid]. congruence.
Qed.

(** Bools, ints and strings are kept apart: an input that is itself one of the
    expected values is returned as such, even when an equal value of another type
    ([True] and [1]) is expected as well. *)
Theorem C36_same_type : forall expected i s,
  Forall pep586 expected -> document i -> ~ overlooked expected (input_object i) ->
  match input_object i with PBool _ | PInt _ | PStr _ => True | _ => False end ->
  In (input_object i) expected -> literal expected i s = (VOk (input_object i), s).
Proof.
  intros l i s HP D N T Hi. unfold literal_validate. rewrite (document_lookup i _ D).
  assert (HV : hashable (input_object i) = true) by (destruct (input_object i); try destruct T; reflexivity).
  assert (E : py_eq (input_object i) (input_object i) = true).
  { destruct (input_object i); try destruct T; cbn; [apply eqb_reflx|apply Z.eqb_refl|apply str_eqb_refl]. }
  destruct (lookup_complete py_str f64_to_string max_digits l _ _ HP HV N Hi E) as [id Hid]. rewrite Hid.
  rewrite (lookup_same _ _ _ _ _ _ HP Hi T Hid). reflexivity.
Qed.

(** For arbitrary expected values (whose equality need not be transitive): the value
    returned is expected, and some expected value equals both it and the input. *)
Theorem C36_sound : forall expected i s e s',
  document i -> literal expected i s = (VOk e, s') ->
  In e expected /\ exists k, In k expected /\ py_eq k (input_object i) = true /\ (e = k \/ py_eq k e = true).
Proof.
  intros l i s e s' D H. unfold literal_validate in H. rewrite (document_lookup i _ D) in H.
  destruct (lk_validate _ _ _ _ _) as [[id|]|err] eqn:L; try discriminate H.
  destruct (lookup_sound _ _ _ _ _ _ L) as (k & e' & Hk & He & E & C). rewrite He in H. injection H as <- <-.
  split; [eapply nth_error_In; exact He|]. exists k. auto.
Qed.

(** A literal never fails with anything but line errors. *)
Theorem C36_no_panic : forall expected i s, exists r, literal expected i s = (r, s) /\
  match r with VOk e => In e expected | VErr err => exists t j, err = LineErrors [new_error t j] end.
Proof.
  intros l i s. unfold literal_validate. pose proof (inv_build l) as I.
  destruct (lk_validate _ _ _ (lk_build l) i) as [[id|]|e] eqn:L.
  - assert (Q : exists v, nth_error l id = Some v).
    { unfold lk_validate in L. set (lk := lk_build l) in *. destruct (bool_slot lk i) as [j|] eqn:B.
      { injection L as ->. unfold bool_slot in B. destruct (validate_bool true i) as [[[|] x]|e]; [| |discriminate].
        - destruct (i_true _ _ I _ B) as (e & Q & _). eauto.
        - destruct (i_false _ _ I _ B) as (e & Q & _). eauto. }
      destruct (int_slot max_digits lk i) as [[j|]|e] eqn:IS; [| |discriminate].
      { injection L as ->. unfold int_slot in IS. destruct (lk_int lk) as [|p q] eqn:LI; [discriminate|]. rewrite <- LI in IS.
        destruct (exact_int max_digits i); [|discriminate]. destruct (into_i64 _) as [z|]; [|discriminate]. injection IS as IS.
        apply (i_int _ _ I) in IS. eauto. }
      destruct (str_slot _ _ lk i) as [j|] eqn:SS.
      { injection L as ->. unfold str_slot in SS. match type of SS with match ?x with _ => _ end = _ => destruct x end; [|discriminate].
        apply (i_str _ _ I) in SS. eauto. }
      destruct (pd_lookup _ (lk_py_dict lk)) as [j|] eqn:D.
      { injection L as ->. unfold pd_lookup in D. destruct (hashable _); [|discriminate]. apply pd_get_in in D. destruct D as (k & Hk & _).
        destruct (proj1 (i_dict _ _ I) _ _ Hk) as (_ & e & N & _). eauto. }
      destruct (values_slot _ _) as [j|] eqn:VS.
      { injection L as ->. assert (Q : exists k, In (k, id) (lk_py_values lk)).
        { clear I D. induction (lk_py_values lk) as [|[k0 i0] q IHq]; cbn [values_slot] in VS; [discriminate|].
          destruct (py_eq k0 _); [injection VS as ->; exists k0; left; reflexivity|]. destruct (IHq VS) as (k & ?). exists k. right. assumption. }
        destruct Q as (k & Hk). apply (i_vals _ _ I) in Hk. eauto. }
      injection L as L. unfold pd_lookup in L. destruct (hashable _); [|discriminate]. apply pd_get_in in L. destruct L as (k & Hk & _).
      destruct (proj1 (i_prims _ _ I) _ _ Hk) as (_ & e & N & _). eauto. }
    destruct Q as [v Q]. rewrite Q. eexists. split; [reflexivity|]. eapply nth_error_In; exact Q.
  - eexists. split; [reflexivity|]. cbn. eauto.
  - eexists. split; [reflexivity|]. unfold lk_validate in L. destruct (bool_slot _ i); [discriminate|].
    destruct (int_slot max_digits _ i) as [[j|]|e'] eqn:IS; [discriminate| |].
    + destruct (str_slot _ _ _ i); [discriminate|]. destruct (pd_lookup _ _); [discriminate|]. destruct (values_slot _ _); discriminate.
    + injection L as ->. unfold int_slot in IS. destruct (lk_int _); [discriminate|]. destruct (exact_int max_digits i) as [n|]; [|discriminate].
      unfold into_i64 in IS. destruct (fits_i64 _); [discriminate|]. injection IS as <-. eauto.
Qed.

Example C36_nonvacuous :
  literal [PInt 1; PBool true; PStr (lit "a"); PNone] (IPy (PBool true)) ex_state = (VOk (PBool true), ex_state) /\
  literal [PInt 1; PBool true; PStr (lit "a"); PNone] (IPy (PInt 1)) ex_state = (VOk (PInt 1), ex_state) /\
  literal [PInt 1; PBool true; PStr (lit "a"); PNone] (IJson JNull) ex_state = (VOk PNone, ex_state) /\
  literal [PInt 1; PBool true; PStr (lit "a"); PNone] (IPy (PInt 2)) ex_state = (val_err ELiteralError (IPy (PInt 2)), ex_state) /\
  Forall pep586 [PInt 1; PBool true; PStr (lit "a"); PNone] /\ ~ overlooked [PInt 1; PBool true; PStr (lit "a"); PNone] (PInt 2).
Proof. repeat split. - repeat constructor. - intros [B _]. cbn in B. lia. Qed.

(** Completeness fails for integers beyond 64 bits next to one within: the expected
    value itself is rejected. *)
Theorem C36_big_int_refuted : exists expected v s,
  Forall pep586 expected /\ In v expected /\ py_eq v v = true /\
  fst (literal expected (IPy v) s) = VErr (LineErrors [new_error EIntParsingSize (IPy v)]) /\
  fst (literal [v] (IPy v) s) = VOk v.
Proof.
  exists [PInt 1; PInt (2 ^ 63)], (PInt (2 ^ 63)), ex_state.
  split; [repeat constructor|]. split; [right; left; reflexivity|]. repeat split; vm_compute; reflexivity.
Qed.

(** The keys of a JSON object and the strings of [validate_strings] are parsed as bools
    first, so a literal [True] accepts strings that do not equal it. *)
Theorem C36_keys_refuted : exists expected t s,
  Forall pep586 expected /\ (forall e, In e expected -> py_eq e (PStr t) = false) /\
  fst (literal expected (IKey t) s) = VOk (PBool true) /\ fst (literal expected (IStrings (PStr t)) s) = VOk (PBool true).
Proof.
  exists [PBool true], (lit "yes"), ex_state.
  split; [repeat constructor|]. split; [intros e [<-|[]]; reflexivity|]. split; reflexivity.
Qed.
End Props.

Print Assumptions C36_literal.
Print Assumptions C36_same_type.
Print Assumptions C36_sound.
Print Assumptions C36_no_panic.
Print Assumptions C36_big_int_refuted.
Print Assumptions C36_keys_refuted.

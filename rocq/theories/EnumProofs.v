(** Proofs about enums. *)
From Coq Require Import List NArith ZArith Bool Lia.
From Verif Require Import Base Float64 IntParse Numbers NumbersSpec NumbersProofs Values VState LookupKey Collections Child Inputs Scalars Literal LiteralSpec LiteralProofs Classes Enum EnumSpec.
Import ListNotations.
Open Scope nat_scope.

Lemma nth_map {A B} (f : A -> B) : forall l n x, nth_error (map f l) n = Some x -> exists a, nth_error l n = Some a /\ f a = x.
Proof. induction l as [|a l IH]; intros [|n] x H; cbn in *; try discriminate; [injection H as <-; eauto|eauto]. Qed.
Lemma map_nth {A B} (f : A -> B) : forall l n x, nth_error l n = Some x -> nth_error (map f l) n = Some (f x).
Proof. induction l as [|a l IH]; intros [|n] x H; cbn in *; try discriminate; [injection H as <-; eauto|eauto]. Qed.

Definition distinct (l : list pyval) : Prop :=
  forall i j a b, nth_error l i = Some a -> nth_error l j = Some b -> py_eq a b = true -> i = j.
Lemma distinct_fst ms : distinct_values ms -> distinct (map fst ms).
Proof.
  intros D i j a b Ha Hb E. apply nth_map in Ha, Hb. destruct Ha as ([? ?] & Ha & <-), Hb as ([? ?] & Hb & <-). eapply D; eauto.
Qed.
Lemma same_of l a b : distinct l -> In a l -> In b l -> py_eq a b = true -> a = b.
Proof.
  intros D Ha Hb E. destruct (In_nth_error _ _ Ha) as [i Hi], (In_nth_error _ _ Hb) as [j Hj].
  assert (i = j) by (eapply D; eauto). congruence.
Qed.

Lemma kinds k : is_prim k \/ is_dict_kind k \/ is_value_kind k.
Proof.
  unfold is_prim, is_dict_kind, is_value_kind.
  destruct k as [|b|z|f|t|b|l|l|l|l|l|c l|c v]; cbn; auto.
  - destruct (fits_i64 z); auto.
  - destruct (forallb hashable l); auto.
  - destruct (hashable v); auto.
Qed.

Lemma float_is_eq f z : float_is f z -> f_eq_Z f z = true.
Proof.
  unfold float_is, f_eq_Z. destruct f as [b|b| |b m e]; try contradiction.
  - intros ->. reflexivity.
  - destruct (0 <=? e)%Z; intros H; apply Z.eqb_eq; exact H.
Qed.

Section Proofs.
Variable parse_f64 : str -> option f64.
Variable py_str : pyval -> str.
Variable f64_to_string : f64 -> str.
Variable max_digits : N.
Notation lkv := (lk_validate py_str f64_to_string max_digits).

Lemma lookup_complete2 : forall l v k, distinct l -> ~ overlooked l v -> In k l -> py_eq k v = true ->
  hashable v = true \/ hashable k = false ->
  exists id, lkv (lk_build l) (IPy v) = VOk (Some id).
Proof.
  intros l v k HD N Hk E HV. pose proof (inv_build l) as I.
  destruct (lookup_no_error py_str f64_to_string max_digits l v N) as [o Ho]. unfold lk_validate in *. set (lk := lk_build l) in *.
  destruct (bool_slot lk (IPy v)); [eauto|].
  destruct (int_slot max_digits lk (IPy v)) as [[i|]|e]; [eauto| |discriminate Ho].
  destruct (str_slot _ _ lk (IPy v)); [eauto|]. cbn [input_object] in *.
  destruct (pd_lookup v (lk_py_dict lk)) eqn:D; [eauto|]. destruct (values_slot _ v) eqn:VS; [eauto|]. clear Ho o.
  assert (G : forall P d, hashable v = true -> holds P l d -> P k -> exists id, pd_get v d = Some id).
  { intros P d Hv [H1 H2] Pk. destruct (H2 k Hk Pk) as (k0 & id & Hk0 & C). eapply pd_get_some; [exact Hk0|].
    destruct C as [->|C]; [exact E|]. destruct (H1 _ _ Hk0) as (A & _). rewrite (same_of l k0 k); auto. }
  assert (VK : is_value_kind k -> False).
  { intros K. destruct (i_vals_c _ _ I k Hk K) as [id Hid]. clear -VS Hid E. induction (lk_py_values lk) as [|[k0 i0] q IHq]; [contradiction|].
    cbn [values_slot] in VS. destruct (py_eq k0 v) eqn:E0; [discriminate|]. destruct Hid as [Hid|Hid]; [congruence|auto]. }
  destruct HV as [HV|HV]; [|contradiction (VK HV)]. unfold pd_lookup in *. rewrite HV in *.
  destruct (kinds k) as [P|[P|P]]; [| |contradiction (VK P)].
  - destruct (G _ _ eq_refl (i_prims _ _ I) P) as [id ->]. eauto.
  - destruct (G _ _ eq_refl (i_dict _ _ I) P) as [id Hid]. congruence.
Qed.

Lemma found_equal : forall l v id, distinct l -> lkv (lk_build l) (IPy v) = VOk (Some id) ->
  exists k, nth_error l id = Some k /\ py_eq k v = true.
Proof.
  intros l v id D H. destruct (lookup_sound _ _ _ _ _ _ H) as (k & e & Hk & He & E & C). exists e. split; [exact He|].
  destruct C as [->|C]; [exact E|]. rewrite (same_of l k e) in E; auto. eapply nth_error_In; exact He.
Qed.

Lemma vint_value : forall v n e, proper_float v -> (match strip v with PInt _ | PBool _ | PFloat _ => True | _ => False end) ->
  validate_int max_digits false (IPy v) = VOk (n, e) -> py_eq (PInt (int_value n)) v = true.
Proof.
  intros v n e PF K H. rewrite py_eq_int. unfold proper_float in PF.
  assert (Q : match v with PInt z => VOk (EPy z, Exact) | _ => match strip v with
     | PInt z => VOk (EPy z, Strict) | PBool b => VOk (EPy (if b then 1 else 0)%Z, Lax)
     | PFloat f => lax (in_float_as_int (IPy v) f) | _ => validate_int max_digits false (IPy v) end end = VOk (n, e)).
  { rewrite <- H. cbn [validate_int]. destruct v; try reflexivity; unfold maybe_as_string, extract_f64; destruct (strip _); try contradiction; reflexivity. }
  clear H. 
  destruct (strip v) eqn:S; try contradiction; cbv beta iota.
  - destruct v; try discriminate S; injection Q as <- <-; cbn [int_value]; destruct b; reflexivity.
  - destruct v; try discriminate S; injection Q as <- <-; cbn [int_value]; try (injection S as <-); apply Z.eqb_refl.
  - assert (L : lax (in_float_as_int (IPy v) f) = VOk (n, e)) by (destruct v; try discriminate S; exact Q). clear Q.
    unfold lax, in_float_as_int in L. destruct (float_as_int f) as [z| |] eqn:F; cbn in L; try discriminate. injection L as <- <-. cbn [int_value].
    apply float_is_eq, (float_as_int_iff f z PF). exact F.
Qed.

Lemma int_found : forall l strict i id, lk_validate_int max_digits (lk_build l) strict i = VOk (Some id) ->
  exists n e, validate_int max_digits strict i = VOk (n, e) /\ nth_error l id = Some (PInt (int_value n)).
Proof.
  intros l strict i id H. pose proof (inv_build l) as I. unfold lk_validate_int in H. destruct (lk_int (lk_build l)) eqn:L; [discriminate|]. rewrite <- L in H.
  destruct (validate_int max_digits strict i) as [[n e]|e]; [|discriminate]. unfold into_i64 in H. destruct (fits_i64 (int_value n)); [|discriminate].
  injection H as H. exists n, e. split; [reflexivity|]. apply (i_int _ _ I), H.
Qed.
Lemma int_finds : forall l strict i n e, validate_int max_digits strict i = VOk (n, e) -> fits_i64 (int_value n) = true ->
  In (PInt (int_value n)) l -> exists id, lk_validate_int max_digits (lk_build l) strict i = VOk (Some id).
Proof.
  intros l strict i n e V F Hi. pose proof (inv_build l) as I. unfold lk_validate_int. destruct (i_int_c _ _ I _ F Hi) as [id Hid].
  destruct (lk_int (lk_build l)) eqn:L; [discriminate|]. rewrite V. unfold into_i64. rewrite F, Hid. eauto.
Qed.
Lemma int_ok : forall l strict i, (forall n e, validate_int max_digits strict i = VOk (n, e) -> fits_i64 (int_value n) = true \/ lk_int (lk_build l) = []) ->
  exists o, lk_validate_int max_digits (lk_build l) strict i = VOk o.
Proof.
  intros l strict i H. unfold lk_validate_int. destruct (lk_int (lk_build l)) eqn:L; [eauto|].
  destruct (validate_int max_digits strict i) as [[n e]|e] eqn:V; [|eauto]. destruct (H _ _ eq_refl) as [F|F]; [|discriminate].
  unfold into_i64. rewrite F. eauto.
Qed.
Lemma no_small : forall l, (forall e, In e l -> ~ is_small_int e) -> lk_int (lk_build l) = [].
Proof.
  intros l H. destruct (lk_int (lk_build l)) eqn:L; [reflexivity|]. destruct (i_int_n _ _ (inv_build l)) as (z & F & Hz); [rewrite L; discriminate|].
  contradiction (H _ Hz). apply fits_iff, F.
Qed.
Lemma str_found : forall l strict i id, lk_validate_str py_str f64_to_string (lk_build l) strict i = Some id ->
  exists t e, validate_str py_str f64_to_string strict false i = VOk (t, e) /\ nth_error l id = Some (PStr t).
Proof.
  intros l strict i id H. unfold lk_validate_str in H. destruct (validate_str _ _ strict false i) as [[t e]|e]; [|discriminate].
  exists t, e. split; [reflexivity|]. apply (i_str _ _ (inv_build l)), H.
Qed.
Lemma str_finds : forall l strict i t e, validate_str py_str f64_to_string strict false i = VOk (t, e) -> In (PStr t) l ->
  exists id, lk_validate_str py_str f64_to_string (lk_build l) strict i = Some id.
Proof. intros l strict i t e V Hi. unfold lk_validate_str. rewrite V. exact (i_str_c _ _ (inv_build l) _ Hi). Qed.
Lemma float_found : forall l strict i id, distinct l -> lk_validate_float parse_f64 (lk_build l) strict i = Some id ->
  exists f e k, validate_float parse_f64 strict i = VOk (f, e) /\ nth_error l id = Some k /\ py_eq k (PFloat f) = true.
Proof.
  intros l strict i id D H. unfold lk_validate_float in H. destruct (validate_float _ strict i) as [[f e]|e]; [|discriminate].
  apply pd_get_in in H. destruct H as (k & Hk & E). destruct (proj1 (i_dict _ _ (inv_build l)) _ _ Hk) as (A & x & N & C).
  exists f, e, x. split; [reflexivity|]. split; [exact N|]. destruct C as [->|C]; [exact E|]. rewrite (same_of l k x) in E; auto. eapply nth_error_In; exact N.
Qed.
Lemma float_finds : forall l strict i f e k, distinct l -> validate_float parse_f64 strict i = VOk (f, e) -> In k l ->
  (match k with PFloat _ => True | _ => False end) -> py_eq k (PFloat f) = true ->
  exists id, lk_validate_float parse_f64 (lk_build l) strict i = Some id.
Proof.
  intros l strict i f e k D V Hk K E. unfold lk_validate_float. rewrite V. destruct (i_dict _ _ (inv_build l)) as [H1 H2].
  assert (P : is_dict_kind k) by (destruct k; try contradiction; reflexivity).
  destruct (H2 k Hk P) as (k0 & id & Hk0 & C). eapply pd_get_some; [exact Hk0|].
  destruct C as [->|C]; [exact E|]. destruct (H1 _ _ Hk0) as (A & _). rewrite (same_of l k0 k); auto.
Qed.

Notation evalue := (enum_value parse_f64 py_str f64_to_string max_digits).
Notation reads := (reads parse_f64 py_str f64_to_string max_digits).
Notation keys ms := (map (@fst pyval pyval) ms).

Lemma pick ms id k : nth_error (keys ms) id = Some k -> exists m, nth_error ms id = Some (k, m).
Proof. intros H. apply nth_map in H. destruct H as ([k' m] & H & E). cbn in E. subst. eauto. Qed.

Lemma reads_plain i strict v : reads PlainEnum strict i v -> v = input_object i /\
  forall lk, lkv lk i = lkv lk (IPy v).
Proof.
  intros R. inversion R; subst; cbn [input_object]; split; try reflexivity. intros lk. apply lookup_json.
Qed.

Lemma value_sound : forall kind ms strict i id v, distinct_values ms -> Forall (fun km => value_kind kind (fst km)) ms ->
  reads kind strict i v -> proper_float v -> evalue kind (lk_build (keys ms)) strict i = VOk (Some id) ->
  exists k m, nth_error ms id = Some (k, m) /\ py_eq k v = true.
Proof.
  intros kind ms strict i id v D VK R PF H. pose proof (distinct_fst _ D) as D'. destruct kind; cbn [enum_value] in H.
  - destruct (reads_plain _ _ _ R) as [-> Q]. destruct (lkv (lk_build (keys ms)) i) as [[id'|]|e] eqn:L; [| |discriminate].
    + injection H as ->. rewrite Q in L. apply found_equal in L; [|exact D']. destruct L as (k & Hk & E). apply pick in Hk. destruct Hk as [m Hm]. eauto.
    + destruct strict; [discriminate|]. destruct i as [w| | |]; try discriminate. cbn [input_object] in *.
      destruct (strip w) eqn:S; try discriminate.
      1-3: apply int_found in H; destruct H as (n & e & V & N); apply pick in N; destruct N as [m Hm]; exists (PInt (int_value n)), m; split; [exact Hm|];
        eapply vint_value; [exact PF| |exact V]; rewrite S; exact Logic.I.
      injection H as H. apply str_found in H. destruct H as (t & e & V & N). apply pick in N. destruct N as [m Hm]. exists (PStr t), m. split; [exact Hm|].
      assert (t = s). { clear -V S. unfold validate_str in V. destruct w; cbn [strip] in S, V; try discriminate S; rewrite ?S in V; congruence. }
      subst t. cbn [py_eq]. change (match strip w with PStr t => str_eqb s t | _ => false end = true). rewrite S. apply str_eqb_refl.
  - inversion R as [| |? ? n e V|? ? ? ? V|? ? ? ? V]; subst. apply int_found in H. destruct H as (n' & e' & V' & N). rewrite V in V'. injection V' as <- <-. apply pick in N. destruct N as [m Hm].
    exists (PInt (int_value n)), m. split; [exact Hm|]. rewrite py_eq_int. apply Z.eqb_refl.
  - inversion R as [| |? ? ? ? V|? ? t e V|? ? ? ? V]; subst. injection H as H. apply str_found in H. destruct H as (t' & e' & V' & N). rewrite V in V'. injection V' as <- <-. apply pick in N. destruct N as [m Hm].
    exists (PStr t), m. split; [exact Hm|]. apply str_eqb_refl.
  - inversion R as [| |? ? ? ? V|? ? ? ? V|? ? f e V]; subst. injection H as H. apply float_found in H; [|exact D']. destruct H as (f' & e' & k & V' & N & E). rewrite V in V'. injection V' as <- <-.
    apply pick in N. destruct N as [m Hm]. eauto.
Qed.

Lemma value_finds : forall kind ms strict i v m, distinct_values ms -> Forall (fun km => value_kind kind (fst km)) ms ->
  reads kind strict i v -> comparable ms v -> ~ out_of_reach kind ms v -> has_value ms v m ->
  exists id, evalue kind (lk_build (keys ms)) strict i = VOk (Some id).
Proof.
  intros kind ms strict i v m D VK R HC HO (k & Hk & E). pose proof (distinct_fst _ D) as D'. rewrite Forall_forall in VK. pose proof (VK _ Hk) as K. cbn [fst] in K.
  assert (Hk' : In k (keys ms)) by (change k with (fst (k, m)); apply in_map, Hk).
  destruct kind; cbn [enum_value value_kind out_of_reach] in *.
  - destruct (reads_plain _ _ _ R) as [_ Q]. rewrite Q.
    assert (HO' : ~ overlooked (keys ms) v).
    { intros (B & X). apply HO. split; [|exact X]. destruct v; try contradiction; exact B. }
    destruct (lookup_complete2 _ v k D' HO' Hk' E) as [id ->]; [|eauto].
    destruct HC as [HC|HC]; [left; exact HC|right; eapply HC; eassumption].
  - inversion R as [| |? ? n e V|? ? ? ? V|? ? ? ? V]; subst. destruct k; try contradiction. rewrite py_eq_int in E. cbn in E. apply Z.eqb_eq in E. subst z.
    apply (int_finds _ _ _ _ _ V); [|exact Hk']. destruct (fits_i64 (int_value n)) eqn:F; [reflexivity|]. exfalso. apply HO. cbn.
    destruct (Z.ltb_spec (int_value n) (- 2 ^ 63)); [left; assumption|right]. destruct (Z.ltb_spec (int_value n) (2 ^ 63)); [|lia].
    assert (fits_i64 (int_value n) = true) by (apply fits_iff; lia). congruence.
  - inversion R as [| |? ? ? ? V|? ? t e V|? ? ? ? V]; subst. destruct k; try contradiction. cbn in E. apply str_eqb_eq in E. subst s.
    destruct (str_finds (keys ms) _ _ _ _ V Hk') as [id ->]. eauto.
  - inversion R as [| |? ? ? ? V|? ? ? ? V|? ? f e V]; subst. destruct (float_finds (keys ms) _ _ _ _ k D' V Hk' K E) as [id ->]. eauto.
Qed.

Lemma value_none : forall kind ms strict i, distinct_values ms -> Forall (fun km => value_kind kind (fst km)) ms ->
  (kind = PlainEnum -> exists v, reads kind strict i v) ->
  (forall v, reads kind strict i v -> no_member ms v /\ ~ out_of_reach kind ms v /\ proper_float v) ->
  evalue kind (lk_build (keys ms)) strict i = VOk None.
Proof.
  intros kind ms strict i D VK HP H.
  assert (G : forall id, evalue kind (lk_build (keys ms)) strict i = VOk (Some id) -> exists v, reads kind strict i v).
  { destruct kind; cbn [enum_value]; intros id E; [apply HP; reflexivity| | |].
    - apply int_found in E. destruct E as (n & e & V & _). eexists. eapply ReadInt, V.
    - injection E as E. apply str_found in E. destruct E as (n & e & V & _). eexists. eapply ReadStr, V.
    - injection E as E. apply float_found in E; [|apply distinct_fst, D]. destruct E as (f & e & ? & V & _). eexists. eapply ReadFloat, V. }
  assert (N : forall id, evalue kind (lk_build (keys ms)) strict i <> VOk (Some id)).
  { intros id E. destruct (G id E) as [v R]. destruct (H v R) as (A & B & C). destruct (value_sound _ _ _ _ _ _ D VK R C E) as (k & m & X & Y).
    apply (A m). exists k. split; [eapply nth_error_In, X|exact Y]. }
  assert (O : exists o, evalue kind (lk_build (keys ms)) strict i = VOk o).
  { destruct kind; cbn [enum_value]; [| |eauto|eauto].
    - destruct (HP eq_refl) as [v R]. destruct (H v R) as (A & B & C). destruct (reads_plain _ _ _ R) as [-> Q]. rewrite Q.
      assert (B' : ~ overlooked (keys ms) (input_object i)).
      { intros (X & Y). apply B. split; [|exact Y]. destruct (input_object i); try contradiction; exact X. }
      destruct (lookup_no_error py_str f64_to_string max_digits _ _ B') as [o ->]. destruct o; [eauto|]. destruct strict; [eauto|].
      destruct i as [w| | |]; eauto. cbn [input_object] in *.
      assert (I64 : (match strip w with PInt _ | PBool _ | PFloat _ => True | _ => False end) -> exists o, lk_validate_int max_digits (lk_build (keys ms)) false (IPy w) = VOk o).
      { intros K. apply int_ok. intros n e V. destruct (lk_int (lk_build (keys ms))) eqn:L; [right; reflexivity|left].
        destruct (i_int_n _ _ (inv_build (keys ms))) as (z & F & Hz); [rewrite L; discriminate|].
        destruct (fits_i64 (int_value n)) eqn:FF; [reflexivity|]. exfalso. 
        pose proof (vint_value _ _ _ C K V) as VE. rewrite py_eq_int in VE.
        assert (BIG : (int_value n < - 2 ^ 63 \/ 2 ^ 63 <= int_value n)%Z).
        { destruct (Z.ltb_spec (int_value n) (- 2 ^ 63)); [left; assumption|right]. destruct (Z.ltb_spec (int_value n) (2 ^ 63)); [|lia].
          assert (fits_i64 (int_value n) = true) by (apply fits_iff; lia). congruence. }
        destruct (strip w) eqn:S; try contradiction.
        - apply Z.eqb_eq in VE. rewrite VE in BIG. destruct b; lia.
        - apply Z.eqb_eq in VE. apply B. cbn [out_of_reach]. rewrite S. split; [cbn; rewrite <- VE; exact BIG|]. exists (PInt z). split; [exact Hz|]. apply fits_iff, F.
        - clear VE. assert (L' : lax (in_float_as_int (IPy w) f) = VOk (n, e)).
          { rewrite <- V. cbn [validate_int]. destruct w; try discriminate S; unfold maybe_as_string, extract_f64; rewrite S; reflexivity. }
          unfold lax, in_float_as_int in L'. destruct (float_as_int f) as [y| |] eqn:FI; cbn in L'; try discriminate. injection L' as <- <-. cbn [int_value] in BIG.
          unfold proper_float in C. rewrite S in C. apply (float_as_int_iff f y C) in FI. lia. }
      destruct (strip w) eqn:S; try (eexists; reflexivity); apply I64; exact Logic.I.
    - apply int_ok. intros n e V. left. destruct (fits_i64 (int_value n)) eqn:F; [reflexivity|]. exfalso.
      destruct (H _ (ReadInt _ _ _ _ _ _ _ _ V)) as (_ & B & _). apply B. cbn.
      destruct (Z.ltb_spec (int_value n) (- 2 ^ 63)); [left; assumption|right]. destruct (Z.ltb_spec (int_value n) (2 ^ 63)); [|lia].
      assert (fits_i64 (int_value n) = true) by (apply fits_iff; lia). congruence. }
  destruct O as [[id|] O]; [contradiction (N id O)|exact O].
Qed.
End Proofs.
